(** C52: the power fails during Finalize.  Finalize writes the bitmap, rewrites the
    header, writes the footer, and only then syncs; what reaches the disk is any mixture
    of old and new bytes. *)
From Verif Require Import Machine MachineFacts Encoding Sroar SroarFacts FileIO Writer Reader Aggregate Spec FinalFacts ReaderFacts ReachFacts
  PowerFacts Examples PAggregate.
From Coq Require Import Lia.
Local Open Scope Z_scope.

(** [disk old new d]: every byte of the file [d] is that of [new] or that of [old]
    (zero behind the end of [old]), and the file has not grown beyond [new]. *)
Definition disk (old new d : list Z) : Prop :=
  zlen old <= zlen d <= zlen new
  /\ forall i b, nth_error d i = Some b -> nth_error new i = Some b \/ nth_error (old ++ zeros (zlen new)) i = Some b.
(** Everything behind the header reached the disk. *)
Definition header_torn (old new d : list Z) : Prop := disk old new d /\ zdrop 64 d = zdrop 64 new.
(** Everything but the header reached the disk. *)
Definition header_lost (old new d : list Z) : Prop := ztake 64 d = ztake 64 old /\ zdrop 64 d = zdrop 64 new.

Section Props.
Context {Srr : Sroar}.

Lemma no_finalize_ok cs : forall w, Forall (fun c => is_finalize c = false) cs -> finalizes_ok cs w.
Proof.
  induction cs as [|c cs IH]; intros w Hcs; cbn [finalizes_ok]; [exact I|]. inversion Hcs; subst.
  split; [congruence|auto].
Qed.

Lemma torn_run now0 options faults w0 f0 cs outs w1 fin now n w r d :
  NewWriter now0 options faults = (Ok w0, f0) -> Forall typed_option options -> Forall typed_call cs ->
  Forall (fun c => is_finalize c = false) cs -> run_calls cs w0 = (outs, w1) ->
  finalizing fin now -> run_call fin w1 = (Ok n, w) -> fits w (bytes_of w) ->
  NewReader (bytes_of w) = Ok r ->
  zdrop 64 d = zdrop 64 (bytes_of w) -> 64 <= zlen d ->
  (forall i b, (i < 64)%nat -> nth_error d i = Some b -> nth_error (bytes_of w) i = Some b \/ nth_error (bytes_of w1) i = Some b) ->
  exists r', NewReader d = Ok r' /\ alike r r'
    /\ (ztake 64 d = ztake 64 (bytes_of w1) -> h_bitmapOffset (r_header r') = 0 /\ r_globalIDs r' = None).
Proof.
  intros Hn Ho Ht Hc Hr Hf Hw Hfit HR Hd Hld Hm.
  pose proof (unfinalized_head _ _ _ _ _ _ _ _ Hn Hc Hr) as Hhead.
  assert (FR : finished_run options faults (combine cs outs) now w).
  { econstructor; try eassumption; [reflexivity|]. apply no_finalize_ok. exact Hc. }
  destruct (finished_facts _ _ _ _ _ FR) as (blocks & A & X & L & off & _ & _ & HF & HL & _).
  set (F := bytes_of w) in *. set (e := encoding_of options) in *. set (t := target_of options) in *.
  assert (Hini : initial_data now0 options = header_bytes now0 0 t e 0 0 ++ zeros 4) by reflexivity.
  assert (H60 : ztake 60 (bytes_of w1) = header_bytes now0 0 t e 0 0).
  { transitivity (ztake 60 (ztake 64 (bytes_of w1))); [rewrite ztake_ztake; reflexivity|]. rewrite Hhead, Hini.
    apply ztake_app_exact. rewrite zlen_header_bytes. reflexivity. }
  assert (L1 : 64 <= zlen (bytes_of w1)).
  { apply (f_equal zlen) in Hhead. rewrite zlen_ztake, zlen_initial in Hhead. lia. }
  assert (LF : 64 <= zlen F).
  { destruct HF as [HF1 _ _ HO _]. rewrite HF1, zlen_app, zlen_footer. pose proof (zlen_nonneg L). unfold pblock in *.
    pose proof (zlen_nonneg (bitmap_bytes (fold_left bm_set A bm_new))). lia. }
  destruct (torn_reader F X now e t L _ off now0 d r HF HL HR Hd Hld) as (r' & R1 & R2 & R3).
  - rewrite <- H60. 
    assert (N60 : forall l : list Z, 64 <= zlen l -> length (ztake 60 l) = 60%nat).
    { intros l Hl. apply Nat2Z.inj. change (Z.of_nat (length (ztake 60 l))) with (zlen (ztake 60 l)). rewrite zlen_ztake. lia. }
    apply mixed_nth; [rewrite !N60 by lia; reflexivity|rewrite !N60 by lia; reflexivity|].
    assert (T : forall (l : list Z) i, nth_error (ztake 60 l) i = if (i <? 60)%nat then nth_error l i else None).
    { intros l i. unfold ztake. change (Z.to_nat 60) with 60%nat. destruct (Nat.ltb_spec i 60).
      - rewrite <- (firstn_skipn 60 l) at 2. destruct (Nat.lt_ge_cases i (length (firstn 60 l))) as [K|K].
        + rewrite nth_error_app1 by exact K. reflexivity.
        + rewrite nth_error_app2 by exact K. rewrite (proj2 (nth_error_None _ _) K).
          rewrite firstn_length in K. rewrite skipn_all2 by lia. destruct (_ - _)%nat; reflexivity.
      - apply nth_error_None. rewrite firstn_length. lia. }
    intros i. rewrite !T. destruct (Nat.ltb_spec i 60); [|auto].
    destruct (nth_error d i) as [b|] eqn:Eb.
    + destruct (Hm i b ltac:(lia) Eb) as [K|K]; rewrite K; auto.
    + apply nth_error_None in Eb. unfold zlen in Hld. lia.
  - exists r'. split; [exact R1|]. split; [exact R2|]. intros K. apply R3.
    transitivity (ztake 60 (ztake 64 d)); [rewrite ztake_ztake; reflexivity|]. rewrite K, ztake_ztake. exact H60.
Qed.

(** A new file; any calls, with any faults, none of them a Finalize; then Finalize
    reports success, but the power fails and the rewritten header is lost or torn
    arbitrarily, while everything behind byte 64 got through.  The file opens, and block
    count, blocks and sums are those of the file as it should have been. *)
Theorem C52_torn_header_keeps_data now0 options faults w0 f0 cs outs w1 fin now n w r d :
  NewWriter now0 options faults = (Ok w0, f0) -> Forall typed_option options -> Forall typed_call cs ->
  Forall (fun c => is_finalize c = false) cs -> run_calls cs w0 = (outs, w1) ->
  finalizing fin now -> run_call fin w1 = (Ok n, w) -> fits w (bytes_of w) ->
  NewReader (bytes_of w) = Ok r ->
  header_torn (bytes_of w1) (bytes_of w) d ->
  exists r', NewReader d = Ok r'
    /\ BlockCount r' = BlockCount r
    /\ (forall i, GetPairs r' i = GetPairs r i)
    /\ (forall opts, aggregateSequential r' opts = aggregateSequential r opts).
Proof.
  intros Hn Ho Ht Hc Hr Hf Hw Hfit HR [[Hd1 Hd2] Hd3].
  pose proof (unfinalized_head _ _ _ _ _ _ _ _ Hn Hc Hr) as Hhead.
  assert (L1 : 64 <= zlen (bytes_of w1)).
  { apply (f_equal zlen) in Hhead. rewrite zlen_ztake, zlen_initial in Hhead. lia. }
  destruct (torn_run _ _ _ _ _ _ _ _ _ _ _ _ r d Hn Ho Ht Hc Hr Hf Hw Hfit HR Hd3 ltac:(lia)) as (r' & R1 & R2 & _).
  - intros i b Hi Hb. destruct (Hd2 i b Hb) as [K|K]; [auto|right]. rewrite nth_error_app1 in K by (unfold zlen in L1; lia). exact K.
  - exists r'. split; [exact R1|]. split; [apply R2|]. split; [intros i; apply alike_pairs; exact R2|intros opts; apply alike_aggregate; exact R2].
Qed.

(** But the IDs are gone: when none of the new header got through, the file opens and
    GetGlobalIDBitmap returns the empty bitmap, without an error. *)
Theorem C52_lost_header_hides_ids now0 options faults w0 f0 cs outs w1 fin now n w d :
  NewWriter now0 options faults = (Ok w0, f0) -> Forall typed_option options -> Forall typed_call cs ->
  Forall (fun c => is_finalize c = false) cs -> run_calls cs w0 = (outs, w1) ->
  finalizing fin now -> run_call fin w1 = (Ok n, w) -> fits w (bytes_of w) ->
  header_lost (bytes_of w1) (bytes_of w) d ->
  exists r', NewReader d = Ok r'
    /\ forall heap, exists p r'' heap', GetGlobalIDBitmap r' heap = (Ok p, r'', heap') /\ nth_error heap' p = Some bm_new.
Proof.
  intros Hn Ho Ht Hc Hr Hf Hw Hfit [Hd1 Hd2].
  pose proof (unfinalized_head _ _ _ _ _ _ _ _ Hn Hc Hr) as Hhead.
  assert (FR : finished_run options faults (combine cs outs) now w).
  { econstructor; try eassumption; [reflexivity|]. apply no_finalize_ok. exact Hc. }
  destruct (finished_facts _ _ _ _ _ FR) as (blocks & A & X & L & off & _ & _ & _ & _ & _ & _ & HR).
  assert (Ld : 64 <= zlen d).
  { apply (f_equal zlen) in Hd1, Hhead. rewrite Hhead, zlen_ztake, zlen_initial in Hd1. lia. }
  destruct (torn_run _ _ _ _ _ _ _ _ _ _ _ _ _ d Hn Ho Ht Hc Hr Hf Hw Hfit HR Hd2 Ld) as (r' & R1 & _ & R3).
  - intros i b Hi Hb. right. rewrite <- (ztake_zdrop 64 d) in Hb. rewrite <- (ztake_zdrop 64 (bytes_of w1)).
    assert (Z64 : forall l : list Z, 64 <= zlen l -> (i < length (ztake 64 l))%nat).
    { intros l Hl. apply Nat2Z.inj_lt. change (Z.of_nat (length (ztake 64 l))) with (zlen (ztake 64 l)). rewrite zlen_ztake. lia. }
    rewrite nth_error_app1 in Hb by (apply Z64; exact Ld). rewrite Hd1 in Hb.
    rewrite nth_error_app1; [exact Hb|]. apply nth_error_Some. congruence.
  - destruct (R3 Hd1) as [R4 R5]. exists r'. split; [exact R1|]. intros heap. unfold GetGlobalIDBitmap, loadGlobalIDBitmap. rewrite R4, R5.
    cbn [Z.eqb orb]. destruct (alloc heap bm_new) as [p heap'] eqn:E. eexists p, _, heap'. split; [reflexivity|].
    unfold alloc in E. injection E as <- <-. rewrite nth_error_app2, Nat.sub_diag by lia. reflexivity.
Qed.
End Props.
Print Assumptions C52_torn_header_keeps_data.
Print Assumptions C52_lost_header_hides_ids.

(** Met: two blocks; a header of which the block count and the first byte of the bitmap
    offset got through, and one of which nothing did. *)
Definition power_old : list Z := bytes_of (state agg_options [] agg_calls).
Definition power_new : list Z := bytes_of agg_writer.
Definition torn_disk : list Z := ztake 45 power_new ++ slice power_old 45 19 ++ zdrop 64 power_new.
Definition lost_disk : list Z := ztake 64 power_old ++ zdrop 64 power_new.

Fixpoint each (old new d : list Z) : bool :=
  match d, new with
  | [], _ => true
  | c :: d', b :: new' =>
      ((c =? b) || (c =? match old with a :: _ => a | [] => 0 end)) && each (tl old) new' d'
  | _, [] => false
  end.
Lemma each_sound d : forall old new, each old new d = true ->
  forall i b, nth_error d i = Some b -> nth_error new i = Some b \/ nth_error (old ++ zeros (zlen new)) i = Some b.
Proof.
  induction d as [|c d IH]; intros old new H i b Hi; [destruct i; discriminate|].
  destruct new as [|x new]; [discriminate|]. cbn [each] in H. apply andb_prop in H. destruct H as [H1 H2].
  assert (Z0 : zeros (zlen (x :: new)) = 0 :: zeros (zlen new)).
  { unfold zeros. rewrite zlen_cons. pose proof (zlen_nonneg new). rewrite Z2Nat.inj_add by lia. reflexivity. }
  destruct i as [|i]; cbn [nth_error] in Hi.
  - injection Hi as <-. apply orb_prop in H1. destruct H1 as [H1|H1]; apply Z.eqb_eq in H1; subst c; [left; reflexivity|right].
    destruct old as [|a old]; [rewrite Z0; reflexivity|reflexivity].
  - destruct (IH _ _ H2 i b Hi) as [K|K]; [left; exact K|right]. destruct old as [|a old].
    + cbn [tl app] in *. rewrite Z0. exact K.
    + cbn [tl app nth_error] in *. rewrite zlen_cons. rewrite <- K.
      destruct (Nat.lt_ge_cases i (length old)) as [Hl|Hl]; [rewrite !nth_error_app1 by exact Hl; reflexivity|].
      rewrite !nth_error_app2 in * by exact Hl. rewrite K. unfold zeros in *. apply nth_error_In in K as K'. apply repeat_spec in K'. subst b.
      assert (Q : (i - length old < length (repeat 0%Z (Z.to_nat (zlen new))))%nat) by (apply (proj1 (nth_error_Some _ _)); rewrite K; discriminate).
      rewrite repeat_length in Q. rewrite nth_error_repeat; [reflexivity|]. pose proof (zlen_nonneg new). lia.
Qed.
Definition diskb (old new d : list Z) : bool := (zlen old <=? zlen d) && (zlen d <=? zlen new) && each old new d.
Lemma diskb_sound old new d : diskb old new d = true -> disk old new d.
Proof.
  intros H. apply andb_prop in H. destruct H as [H H3]. apply andb_prop in H. destruct H as [H1 H2].
  apply Z.leb_le in H1, H2. split; [split; assumption|]. apply each_sound. exact H3.
Qed.
Fixpoint same (l m : list Z) : bool :=
  match l, m with [], [] => true | x :: l', y :: m' => (x =? y) && same l' m' | _, _ => false end.
Lemma same_sound l : forall m, same l m = true -> l = m.
Proof.
  induction l as [|x l IH]; intros [|y m] H; try discriminate; [reflexivity|]. cbn [same] in H. apply andb_prop in H.
  destruct H as [H1 H2]. apply Z.eqb_eq in H1. subst y. rewrite (IH m H2). reflexivity.
Qed.

Definition torn_reader_ : reader := opened (NewReader torn_disk).
Definition lost_reader : reader := opened (NewReader lost_disk).
Example C52_case :
  finished_run agg_options [] agg_history 12 agg_writer /\ Forall (fun c => is_finalize c = false) agg_calls
  /\ header_torn power_old power_new torn_disk /\ slice torn_disk 16 32 <> slice power_old 16 32 /\ slice torn_disk 44 8 <> slice power_new 44 8
  /\ GetPairs torn_reader_ 0 = Ok ([5; 2], [10; -3]) /\ GetPairs torn_reader_ 1 = Ok ([7], [4])
  /\ header_lost power_old power_new lost_disk
  /\ GetPairs lost_reader 1 = Ok ([7], [4])
  /\ same lost_disk power_new = false.
Proof.
  split; [apply agg_finished|]. split; [repeat constructor|].
  split; [split; [apply diskb_sound; vm_compute; reflexivity|apply same_sound; vm_compute; reflexivity]|].
  split; [intros H; vm_compute in H; discriminate H|]. split; [intros H; vm_compute in H; discriminate H|].
  split; [vm_compute; reflexivity|]. split; [vm_compute; reflexivity|].
  split; [split; apply same_sound; vm_compute; reflexivity|].
  split; vm_compute; reflexivity.
Qed.

(** Not so when the footer is torn: it may be that the file opens although the index
    entries never reached the disk; then GetPairs panics and Aggregate reports that there
    is no data, without an error. *)
Definition footer_disk : list Z :=
  ztake (zlen power_new - 24 - 112) power_new ++ zeros 112 ++ zdrop (zlen power_new - 24) power_new.
Definition footer_reader : reader := opened (NewReader footer_disk).
Theorem C52_torn_footer_refuted : exists old new d r,
  disk old new d /\ finished_run agg_options [] agg_history 12 agg_writer /\ new = bytes_of agg_writer
  /\ NewReader d = Ok r /\ BlockCount r = 2 /\ GetPairs r 0 = Panic
  /\ exists a, Aggregate r = Ok a /\ a_count a = 0.
Proof.
  exists power_old, power_new, footer_disk, footer_reader.
  split; [apply diskb_sound; vm_compute; reflexivity|]. split; [apply agg_finished|]. split; [reflexivity|].
  split; [unfold footer_reader; apply opened_ok; vm_compute; reflexivity|].
  split; [vm_compute; reflexivity|]. split; [vm_compute; reflexivity|].
  eexists. split; vm_compute; reflexivity.
Qed.
Print Assumptions C52_torn_footer_refuted.
