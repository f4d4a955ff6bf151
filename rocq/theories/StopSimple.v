(** Stopping a process that uses a SimpleWriter. *)
From Verif Require Import Machine MachineFacts Encoding EncodingFacts Sroar FileIO FileFacts Writer Spec WriterFacts BlockFacts FinalFacts RunFacts
  Reader ArbFacts SimpleWriter SimpleSpec SimpleFacts StopSpec StopFacts StopCalls StopBytes.
From Coq Require Import Lia ZifyBool.
Local Open Scope Z_scope.
Ltac Zify.zify_post_hook ::= Z.div_mod_to_equations.

Section Simple.
Context {Srr : Sroar} {Laws : SroarLaws Srr}.
Notation ff sw := (f_faults (w_file (sw_writer sw))).

(** ** After the stop *)
Definition sstill (m : swriter -> res unit * swriter) (sw : swriter) : Prop := dead (sw_writer (snd (m sw)))
  /\ (ff (snd (m sw)) <> [] -> ff sw <> [] /\ file_of (snd (m sw)) = file_of sw).
Lemma still_flush force fuel : forall sw, dead (sw_writer sw) -> sstill (flushIfNeeded fuel force) sw.
Proof.
  unfold sstill, file_of. induction fuel as [|fuel IH]; intros sw D; cbn [flushIfNeeded]; [auto|].
  destruct (_ =? 0); [auto|]. destruct (if force then true else _); [|auto].
  destruct (still_writeBlock (sw_pendingIDs sw) (sw_pendingValues sw) (sw_writer sw) D) as [K1 K2].
  destruct (WriteBlock _ _ _) as [[u|er|] w']; [auto| |auto]. destruct er; try (cbn in *; auto; fail).
  cbn [snd] in *. edestruct IH as [I1 I2]; [|split; [exact I1|]]; [exact K1|]. intros N. destruct (I2 N) as [N1 N2]. destruct (K2 N1) as [N3 N4]. split; [exact N3|].
  rewrite N2. exact N4.
Qed.
Lemma still_scall srt c : forall sw, dead (sw_writer sw) -> sstill (run_scall srt c) sw.
Proof.
  intros sw D. destruct c as [ids vals|size|now]; unfold sstill; cbn [run_scall]; unfold SWrite, SetTargetBlockSize, SClose; (destruct (sw_closed sw); [cbn [snd]; auto|]).
  - destruct (negb _); [auto|]. destruct (_ =? 0); [auto|]. destruct (if negb (isSorted ids) then _ else _) as [a b]. unfold flush.
    match goal with |- context [flushIfNeeded ?f false ?s] => pose proof (still_flush false f s D) as K end. exact K.
  - cbn [snd sw_writer]. split; [exact D|]. auto.
  - unfold flush. pose proof (still_flush true (S (length (sw_pendingIDs sw))) sw D) as [K1 K2]. destruct (flushIfNeeded _ true sw) as [[u|e|] s1]; [|auto|auto].
    cbn [snd] in *. assert (SF : still (FinalizeAndClose now)) by (unfold FinalizeAndClose; apply still_bind; [apply still_finalize|intros ?; apply still_close]).
    destruct (SF (sw_writer s1) K1) as [F1 F2]. unfold file_of in *.
    assert (G : forall r w' s2, FinalizeAndClose now (sw_writer s1) = (r, w') -> sw_writer s2 = w' -> dead (sw_writer s2) /\ (ff s2 <> [] -> ff sw <> [] /\ bytes_of (sw_writer s2) = bytes_of (sw_writer sw))).
    { intros r w' s2 E <-. rewrite E in *. cbn [snd] in *. split; [exact F1|]. intros N. destruct (F2 N) as [N1 N2]. destruct (K2 N1) as [N3 N4]. split; [exact N3|congruence]. }
    destruct (FinalizeAndClose now (sw_writer s1)) as [[x|e|] w'] eqn:E; eapply G; reflexivity.
Qed.
Lemma snd_scalls srt c cs sw : snd (run_scalls srt (c :: cs) sw) = snd (run_scalls srt cs (snd (run_scall srt c sw))).
Proof. cbn [run_scalls]. destruct (run_scall srt c sw) as [r v]. cbn [snd]. destruct (run_scalls srt cs v). reflexivity. Qed.
Lemma still_scalls srt cs : forall sw, dead (sw_writer sw) -> dead (sw_writer (snd (run_scalls srt cs sw)))
  /\ (ff (snd (run_scalls srt cs sw)) <> [] -> ff sw <> [] /\ file_of (snd (run_scalls srt cs sw)) = file_of sw).
Proof.
  induction cs as [|c cs IH]; intros w D; [auto|]. rewrite snd_scalls. destruct (still_scall srt c w D) as [K1 K2]. destruct (IH _ K1) as [I1 I2]. split; [exact I1|].
  intros N. destruct (I2 N) as [N1 N2]. destruct (K2 N1) as [N3 N4]. split; [exact N3|congruence].
Qed.

(** ** Up to the stop *)
Definition sfile (x : res unit * swriter) : file := w_file (sw_writer (snd x)).
Definition scrash (m : swriter -> res unit * swriter) (sw : swriter) (Q : res unit -> swriter -> Prop) : Prop :=
  exists r v, m (swith sw []) = (r, v) /\ ff v = [] /\ Q r v
  /\ stops part sfile (fun fs => m (swith sw fs)) (fun fs => (r, swith v fs)) (file_of sw) (file_of v).
Lemma swith_id sw : swith sw (ff sw) = sw.
Proof. destruct sw as [[[] ? ? ? ? ? ? ?] ? ? ? ? ?]. reflexivity. Qed.
Definition sready (sw : swriter) : Prop := at_end (sw_writer sw) /\ 64 <= zlen (file_of sw).
Lemma sready_pend sw : sready sw -> forall a b c d e, sready (mkSW (sw_writer sw) a b c d e). Proof. intros H *. exact H. Qed.

Lemma scrash_pure r (f : swriter -> swriter) sw (Q : res unit -> swriter -> Prop) : (forall fs, f (swith sw fs) = swith (f sw) fs) -> file_of (f sw) = file_of sw -> Q r (swith (f sw) []) -> scrash (fun s => (r, f s)) sw Q.
Proof.
  intros Hf Hb HQ. exists r, (f (swith sw [])). rewrite Hf. split; [reflexivity|]. split; [reflexivity|]. split; [exact HQ|].
  replace (file_of (swith (f sw) [])) with (file_of sw) by (rewrite <- Hb; reflexivity). apply stops_none; [apply part_order|]. intros fs. rewrite Hf. reflexivity.
Qed.
Lemma scrash_longer m sw Q : scrash m sw Q -> scrash m sw (fun r v => Q r v /\ part (file_of sw) (file_of v)).
Proof. intros (r & v & E & F & HQ & K). exists r, v. split; [exact E|]. split; [exact F|]. split; [|exact K]. split; [exact HQ|]. eapply stops_from; [apply part_order|exact K]. Qed.

Definition settled (r : res unit) (v : swriter) : Prop := sready v.
Lemma scrash_flush force fuel : forall sw, sready sw -> Forall is_u64 (sw_pendingIDs sw) -> Forall is_i64 (sw_pendingValues sw) ->
  zlen (sw_pendingIDs sw) <= max_items -> zlen (sw_pendingValues sw) <= max_items -> scrash (flushIfNeeded fuel force) sw settled.
Proof.
  induction fuel as [|fuel IH]; intros sw HR Ti Tv Li Lv.
  { apply (scrash_pure (Err ErrFuel) (fun s => s)); [reflexivity|reflexivity|exact HR]. }
  assert (Skip : forall b : bool, b = true -> scrash (fun s => if b then (Ok tt, s) else flushIfNeeded (S fuel) force s) sw settled).
  { intros b ->. apply (scrash_pure (Ok tt) (fun s => s)); [reflexivity|reflexivity|exact HR]. }
  cbn [flushIfNeeded]. unfold scrash. cbn [sw_pendingIDs sw_pendingValues swith sw_writer sw_targetBlockSize sw_closed sw_totalItems].
  destruct (zlen (sw_pendingIDs sw) =? 0); [exact (Skip true eq_refl)|]. destruct (if force then true else _); [|exact (Skip true eq_refl)]. clear Skip.
  destruct HR as [HA H64].
  destruct (crash_from part part_order _ _ _ (crash_mono prefix part _ _ _ prefix_part (appends_writeBlock (sw_pendingIDs sw) (sw_pendingValues sw) (sw_writer sw) ltac:(repeat split; assumption) HA))) as (r & w1 & E & F & [HQ HP] & K).
  rewrite E.
  (* what happens after WriteBlock, as a function of its result *)
  pose (mk := fun w' a b t => mkSW w' a b (sw_targetBlockSize sw) (sw_closed sw) t).
  pose (next := fun (x : res unit * writer) => let '(r, w') := x in match r with
     | Ok _ => (Ok tt, mk w' [] [] (u64 (sw_totalItems sw + zlen (sw_pendingIDs sw))))
     | Err (ErrBlockFull n) => flushIfNeeded fuel force (mk w' (zdrop n (sw_pendingIDs sw)) (zdrop n (sw_pendingValues sw)) (u64 (sw_totalItems sw + n)))
     | Err e => (Err e, mk w' (sw_pendingIDs sw) (sw_pendingValues sw) (sw_totalItems sw))
     | Panic => (Panic, mk w' (sw_pendingIDs sw) (sw_pendingValues sw) (sw_totalItems sw)) end).
  change (exists r' v, next (r, w1) = (r', v) /\ ff v = [] /\ settled r' v
    /\ stops part sfile (fun fs => next (WriteBlock (sw_pendingIDs sw) (sw_pendingValues sw) (withf (sw_writer sw) fs))) (fun fs => (r', swith v fs)) (file_of sw) (file_of v)).
  assert (H1 : sready (mk w1 [] [] 0)).
  { split; [exact HQ|]. destruct HP as [[HP _] _]. unfold file_of in *. cbn [mk sw_writer]. lia. }
  assert (G : exists r' v, next (r, w1) = (r', v) /\ ff v = [] /\ settled r' v
    /\ stops part sfile (fun fs => next (r, withf w1 fs)) (fun fs => (r', swith v fs)) (bytes_of w1) (file_of v)).
  { assert (P : forall (r0 : res unit) a b t, (forall w', next (r, w') = (r0, mk w' a b t)) -> exists r' v, next (r, w1) = (r', v) /\ ff v = [] /\ settled r' v
      /\ stops part sfile (fun fs => next (r, withf w1 fs)) (fun fs => (r', swith v fs)) (bytes_of w1) (file_of v)).
    { intros r0 a b t Hn. exists r0, (mk w1 a b t). split; [apply Hn|]. split; [exact F|]. split; [exact H1|]. apply stops_none; [apply part_order|]. intros fs. rewrite Hn. reflexivity. }
    destruct r as [u|e|]; [eapply P; reflexivity| |eapply P; reflexivity]. destruct e; try (eapply P; reflexivity).
    edestruct (IH (mk w1 (zdrop itemsWritten (sw_pendingIDs sw)) (zdrop itemsWritten (sw_pendingValues sw)) (u64 (sw_totalItems sw + itemsWritten)))) as (r' & v & E' & F' & HQ' & K').
    { exact H1. } { apply Forall_zdrop. exact Ti. } { apply Forall_zdrop. exact Tv. }
    { cbn [mk sw_pendingIDs]. rewrite zlen_zdrop. pose proof (zlen_nonneg (sw_pendingIDs sw)). lia. }
    { cbn [mk sw_pendingValues]. rewrite zlen_zdrop. pose proof (zlen_nonneg (sw_pendingValues sw)). lia. }
    exists r', v. unfold swith in E'. cbn [mk sw_writer sw_pendingIDs sw_pendingValues sw_targetBlockSize sw_closed sw_totalItems] in E'. rewrite <- F, withf_id in E'.
    split; [exact E'|]. split; [exact F'|]. split; [exact HQ'|]. exact K'. }
  destruct G as (r' & v & E' & F' & HQ' & K'). exists r', v. split; [exact E'|]. split; [exact F'|]. split; [exact HQ'|].
  eapply (stops_seq part part_order wfile sfile _ _ next); [exact K| |exact K'].
  intros [r2 w2] D2. unfold sfile, wfile in *. cbn [snd] in *. destruct r2 as [a|e|]; [cbn; auto| |cbn; auto].
  destruct e; try (cbn; auto; fail). cbn [next].
  apply (still_flush force fuel (mk w2 (zdrop itemsWritten (sw_pendingIDs sw)) (zdrop itemsWritten (sw_pendingValues sw)) (u64 (sw_totalItems sw + itemsWritten))) D2).
Qed.

Lemma crash_finclose now w : at_end w -> 64 <= zlen (bytes_of w) -> crash_at part (FinalizeAndClose now) w (fun r v => r = Ok tt \/ (at_end v /\ 64 <= zlen (bytes_of v))).
Proof.
  intros H H64. unfold FinalizeAndClose.
  eapply crash_bind with (Q1 := fun r v => at_end v /\ 64 <= zlen (bytes_of v)); [apply part_order| |intros ?; apply still_close| | |].
  - eapply crash_post; [apply (crash_longer part); [apply part_order|apply crash_finalize; assumption]|]. cbv beta. intros r v [K1 K2]. split; [exact K1|lia].
  - intros a u [K1 K2] _. apply crash_close; [apply part_order|apply K1|]. auto.
  - auto.
  - auto.
Qed.
Definition sgood (sw : swriter) : Prop := sw_closed sw = true \/ (sw_closed sw = false /\ sready sw).
Lemma scrash_skip m r sw : (forall fs, m (swith sw fs) = (r, swith sw fs)) -> sgood sw -> scrash m sw (fun _ v => sgood v).
Proof.
  intros Hm HG. exists r, (swith sw []). split; [apply Hm|]. split; [reflexivity|]. split; [exact HG|]. apply stops_none; [apply part_order|]. intros fs. apply Hm.
Qed.
Lemma scrash_shift m m' sw sw' (Q : res unit -> swriter -> Prop) : (forall fs, m (swith sw fs) = m' (swith sw' fs)) -> file_of sw' = file_of sw -> scrash m' sw' Q -> scrash m sw Q.
Proof.
  intros Hm Hb (r & v & E & F & HQ & K). exists r, v. rewrite Hm. rewrite <- Hb. repeat (split; [assumption|]). eapply stops_ext; [intros fs; symmetry; apply Hm|intros fs; reflexivity|exact K].
Qed.
Lemma flush_open fuel force sw r v : sw_closed sw = false -> flushIfNeeded fuel force sw = (r, v) -> sw_closed v = false.
Proof. intros H E. pose proof (flush_closed fuel force sw) as K. rewrite E in K. cbn [snd] in K. congruence. Qed.
Lemma scrash_close_call now sw : sw_closed sw = false -> sready sw -> Forall is_u64 (sw_pendingIDs sw) -> Forall is_i64 (sw_pendingValues sw) ->
  zlen (sw_pendingIDs sw) <= max_items -> zlen (sw_pendingValues sw) <= max_items -> scrash (SClose now) sw (fun _ v => sgood v).
Proof.
  intros Hc HR Ti Tv Li Lv. unfold scrash, SClose, flush. cbn [swith sw_closed sw_pendingIDs]. rewrite Hc.
  destruct (scrash_flush true (S (length (sw_pendingIDs sw))) sw HR Ti Tv Li Lv) as (r & s1 & E & F & HQ & K). rewrite E.
  assert (C1 : sw_closed s1 = false) by (eapply flush_open; [|exact E]; exact Hc).
  pose (next := fun (x : res unit * swriter) => match x with
    | (Ok _, s1) => match FinalizeAndClose now (sw_writer s1) with
        | (Ok _, w') => (Ok tt, mkSW w' (sw_pendingIDs s1) (sw_pendingValues s1) (sw_targetBlockSize s1) true (sw_totalItems s1))
        | (Err e, w') => (Err e, mkSW w' (sw_pendingIDs s1) (sw_pendingValues s1) (sw_targetBlockSize s1) (sw_closed s1) (sw_totalItems s1))
        | (Panic, w') => (Panic, mkSW w' (sw_pendingIDs s1) (sw_pendingValues s1) (sw_targetBlockSize s1) (sw_closed s1) (sw_totalItems s1))
        end
    | (Err e, sw1) => (Err e, sw1) | (Panic, sw1) => (Panic, sw1) end).
  change (exists r' v, next (r, s1) = (r', v) /\ ff v = [] /\ sgood v
    /\ stops part sfile (fun fs => next (flushIfNeeded (S (length (sw_pendingIDs sw))) true (swith sw fs))) (fun fs => (r', swith v fs)) (file_of sw) (file_of v)).
  assert (G : exists r' v, next (r, s1) = (r', v) /\ ff v = [] /\ sgood v
    /\ stops part sfile (fun fs => next (r, swith s1 fs)) (fun fs => (r', swith v fs)) (file_of s1) (file_of v)).
  { destruct r as [u|e|].
    2,3: eexists _, s1; split; [reflexivity|]; split; [exact F|]; split; [right; split; [exact C1|exact HQ]|]; apply stops_none; [apply part_order|reflexivity].
    destruct (crash_finclose now (sw_writer s1) (proj1 HQ) (proj2 HQ)) as (rf & wf & Ef & Ff & HQf & Kf). rewrite <- F, withf_id in Ef.
    cbn [next]. rewrite Ef.
    pose (mk := fun (x : res unit * writer) => let '(r, w) := x in (r, mkSW w (sw_pendingIDs s1) (sw_pendingValues s1) (sw_targetBlockSize s1) (match r with Ok _ => true | _ => sw_closed s1 end) (sw_totalItems s1))).
    assert (Hm : forall x : res unit * writer, match x with
       | (Ok _, w) => (Ok tt, mkSW w (sw_pendingIDs s1) (sw_pendingValues s1) (sw_targetBlockSize s1) true (sw_totalItems s1))
       | (Err e, w) => (Err e, mkSW w (sw_pendingIDs s1) (sw_pendingValues s1) (sw_targetBlockSize s1) (sw_closed s1) (sw_totalItems s1))
       | (Panic, w) => (Panic, mkSW w (sw_pendingIDs s1) (sw_pendingValues s1) (sw_targetBlockSize s1) (sw_closed s1) (sw_totalItems s1)) end = mk x) by (intros [[[]|?|] ?]; reflexivity).
    rewrite (Hm (rf, wf)). exists rf, (snd (mk (rf, wf))). split; [reflexivity|]. split; [exact Ff|]. split.
    { destruct HQf as [->|[Q1 Q2]]; [left; reflexivity|]. destruct rf; [left; reflexivity|right; split; [exact C1|split; [exact Q1|exact Q2]]..]. }
    eapply stops_ext; [intros fs; symmetry; apply (Hm (FinalizeAndClose now (withf (sw_writer s1) fs)))|intros fs; reflexivity|].
    eapply (stops_seq part part_order wfile sfile _ _ mk); [exact Kf| |].
    - intros [r2 w2] D. unfold sfile, wfile in *. cbn [mk snd sw_writer] in *. auto.
    - apply stops_none; [apply part_order|]. reflexivity. }
  destruct G as (r' & v & E' & F' & HQ' & K'). exists r', v. split; [exact E'|]. split; [exact F'|]. split; [exact HQ'|].
  eapply (stops_seq part part_order sfile sfile _ _ next); [exact K| |exact K'].
  intros [r2 w2] D2. unfold sfile in *. cbn [snd] in D2. destruct r2 as [a|e|]; [|auto..]. cbn [next].
  assert (SF : still (FinalizeAndClose now)) by (unfold FinalizeAndClose; apply still_bind; [apply still_finalize|intros ?; apply still_close]).
  destruct (SF (sw_writer w2) D2) as [F1 F2]. destruct (FinalizeAndClose now (sw_writer w2)) as [[x|e|] w']; (split; [exact F1|exact F2]).
Qed.
Definition pend_typed (sw : swriter) : Prop := sw_closed sw = true \/
  (Forall is_u64 (sw_pendingIDs sw) /\ Forall is_i64 (sw_pendingValues sw) /\ zlen (sw_pendingIDs sw) < 1000 /\ zlen (sw_pendingValues sw) < 1000).
Lemma Forall_arrange srt (P : Z * Z -> Prop) b : sorts srt -> Forall P b -> Forall P (arrange srt b).
Proof. intros Hs H. eapply Permutation_Forall; [apply arrange_perm; exact Hs|exact H]. Qed.
Lemma arrange_typed srt ids vals : sorts srt -> zlen ids = zlen vals -> Forall is_u64 ids -> Forall is_i64 vals ->
  Forall is_u64 (map fst (arrange srt (combine ids vals))) /\ Forall is_i64 (map snd (arrange srt (combine ids vals))).
Proof.
  intros Hs Hl Hi Hv. split; apply Forall_map; apply Forall_arrange; try exact Hs; apply Forall_forall; intros [x y] Hin; cbn.
  - apply in_combine_l in Hin. eapply (proj1 (Forall_forall _ _)); eassumption.
  - apply in_combine_r in Hin. eapply (proj1 (Forall_forall _ _)); eassumption.
Qed.
Lemma scrash_scall srt c sw : sorts srt -> typed_scall c -> sgood sw -> pend_typed sw -> scrash (run_scall srt c) sw (fun _ v => sgood v).
Proof.
  intros Hs Ht HG HP. destruct HG as [Hc|[Hc HR]].
  { assert (Hc' : forall fs, sw_closed (swith sw fs) = true) by (intros fs; exact Hc).
    destruct c; [apply (scrash_skip _ (Err ErrClosed))|apply (scrash_skip _ (Err ErrClosed))|apply (scrash_skip _ (Ok tt))]; try (left; exact Hc);
      intros fs; cbn [run_scall]; [unfold SWrite|unfold SetTargetBlockSize|unfold SClose]; rewrite Hc'; reflexivity. }
  destruct HP as [HP|(Ti & Tv & Li & Lv)]; [congruence|]. destruct c as [ids vals|size|now]; [change (run_scall srt (SCWrite ids vals)) with (SWrite srt ids vals)|change (run_scall srt (SCSetTarget size)) with (SetTargetBlockSize size)|change (run_scall srt (SCClose now)) with (SClose now)].
  - destruct (Z.eq_dec (zlen ids) (zlen vals)) as [El|El].
    2:{ eapply scrash_skip; [|right; split; assumption]. intros fs. unfold SWrite. cbn [swith sw_closed]. rewrite Hc. replace (zlen ids =? zlen vals) with false by lia. reflexivity. }
    destruct (list_eq_dec Z.eq_dec ids []) as [->|Hne].
    { eapply scrash_skip; [|right; split; assumption]. intros fs. unfold SWrite. cbn [swith sw_closed]. rewrite Hc, <- El. reflexivity. }
    destruct Ht as (Ui & Uv & Ul). destruct (arrange_typed srt ids vals Hs El Ui Uv) as [Ai Av]. pose proof (zlen_arrange srt ids vals Hs El) as Al.
    pose (s := mkSW (sw_writer sw) (sw_pendingIDs sw ++ map fst (arrange srt (combine ids vals))) (sw_pendingValues sw ++ map snd (arrange srt (combine ids vals)))
                    (sw_targetBlockSize sw) (sw_closed sw) (sw_totalItems sw)).
    destruct (scrash_flush false (S (length (sw_pendingIDs s))) s) as (r & v & E & F & HQ & K).
    { exact HR. } { apply Forall_app. split; assumption. } { apply Forall_app. split; assumption. }
    { unfold s, max_items in *. cbn [sw_pendingIDs]. rewrite zlen_app. unfold zlen at 2. rewrite map_length. fold (zlen (arrange srt (combine ids vals))). lia. }
    { unfold s, max_items in *. cbn [sw_pendingValues]. rewrite zlen_app. unfold zlen at 2. rewrite map_length. fold (zlen (arrange srt (combine ids vals))). lia. }
    apply (scrash_shift _ (flush false) sw s); [|reflexivity|].
    { intros fs. rewrite SWrite_eq by assumption. reflexivity. }
    exists r, v. split; [exact E|]. split; [exact F|]. split; [|exact K].
    right. split; [|exact HQ]. eapply flush_open; [|exact E]. exact Hc.
  - exists (Ok tt), (snd (SetTargetBlockSize size (swith sw []))). unfold scrash, SetTargetBlockSize. cbn [swith sw_closed]. rewrite Hc.
    split; [reflexivity|]. split; [reflexivity|]. split; [right; split; [reflexivity|exact HR]|]. apply stops_none; [apply part_order|]. intros fs. reflexivity.
  - apply scrash_close_call; try assumption; unfold max_items; lia.
Qed.
Lemma state_typed nf e sw done : SState nf e sw done -> pend_typed sw.
Proof.
  intros [(Hc & (t & L & _ & _ & _ & Hl & Hi & Hv) & Hp & _)|[Hc _]]; [right|left; exact Hc]. repeat split; try assumption. lia.
Qed.
Definition swfile (sw : swriter) : file := w_file (sw_writer sw).
Lemma stops_scalls srt e cs : sorts srt -> Forall typed_scall cs -> forall sw done outs sw', SState False e sw done -> sgood sw -> ff sw = [] ->
  run_scalls srt cs sw = (outs, sw') -> undisturbed (combine cs outs) ->
  stops part swfile (fun fs => snd (run_scalls srt cs (swith sw fs))) (fun fs => swith sw' fs) (file_of sw) (file_of sw').
Proof.
  intros Hs. induction 1 as [|c cs Hc Hcs IH]; intros sw done outs sw' HS HG F0 HR HU.
  { injection HR as <- <-. apply stops_none; [apply part_order|reflexivity]. }
  destruct (scrash_scall srt c sw Hs Hc HG (state_typed _ _ _ _ HS)) as (r & v & E & F & HQ & K). rewrite <- F0, swith_id in E. cbn [run_scalls] in HR.
  pose proof (call_state' False srt e c sw done Hs Hc HS) as T. rewrite E in HR, T. destruct (run_scalls srt cs v) as [rs u] eqn:Er. injection HR as <- <-.
  eapply stops_ext; [intros fs; symmetry; apply snd_scalls|intros fs; reflexivity|].
  eapply (stops_seq part part_order sfile swfile _ _ (fun x => snd (run_scalls srt cs (snd x)))); [exact K| |].
  - intros [r0 u0] D. apply (still_scalls srt cs u0 D).
  - cbn [snd]. eapply IH; [apply T; apply (HU c); left; reflexivity|exact HQ|exact F|exact Er|]. intros c' r' Hin. apply (HU c'). right. exact Hin.
Qed.
Lemma crash_scalls srt e cs : sorts srt -> Forall typed_scall cs -> forall sw done outs sw' n k j, SState False e sw done -> sgood sw -> ff sw = [] ->
  run_scalls srt cs sw = (outs, sw') -> undisturbed (combine cs outs) ->
  let u := snd (run_scalls srt cs (swith sw (stop n k j))) in ff u <> [] -> part (file_of sw) (file_of u) /\ part (file_of u) (file_of sw').
Proof.
  intros Hs Hcs sw done outs sw' n k j HS HG F0 HR HU u HN. pose proof (stops_scalls srt e cs Hs Hcs sw done outs sw' HS HG F0 HR HU) as K.
  exact (stops_part part part_order _ _ _ _ _ n k j K (fun _ => eq_refl) HN).
Qed.
Lemma later_scalls srt e cs : sorts srt -> Forall typed_scall cs -> forall sw done outs sw' n k j n' k' j', SState False e sw done -> sgood sw -> ff sw = [] ->
  run_scalls srt cs sw = (outs, sw') -> undisturbed (combine cs outs) -> earlier n k n' k' ->
  let u := snd (run_scalls srt cs (swith sw (stop n k j))) in let u' := snd (run_scalls srt cs (swith sw (stop n' k' j'))) in
  ff u <> [] -> ff u' <> [] -> tail_prefix (file_of u) (file_of u').
Proof.
  intros Hs Hcs sw done outs sw' n k j n' k' j' HS HG F0 HR HU HE u u' HN HN'. pose proof (stops_scalls srt e cs Hs Hcs sw done outs sw' HS HG F0 HR HU) as K.
  exact (stops_later part part_order _ _ _ _ _ n k j n' k' j' K (fun _ => eq_refl) HE HN HN').
Qed.

(** ** Bytes *)
Definition sbytes (sw : swriter) : Prop := Forall is_byte (file_of sw) /\ Forall is_u64 (sw_pendingIDs sw).
Lemma sb_flush force fuel : forall sw, sbytes sw -> sbytes (snd (flushIfNeeded fuel force sw)).
Proof.
  induction fuel as [|fuel IH]; intros sw [HB HP]; cbn [flushIfNeeded]; [split; assumption|].
  destruct (_ =? 0); [split; assumption|]. destruct (if force then true else _); [|split; assumption].
  pose proof (by_writeBlock (sw_pendingIDs sw) (sw_pendingValues sw) HP (sw_writer sw) HB) as K.
  destruct (WriteBlock _ _ _) as [[u|er|] w']; cbn [snd] in *; [split; [exact K|constructor]| |split; [exact K|exact HP]].
  destruct er; try (split; [exact K|exact HP]). apply IH. split; [exact K|]. apply Forall_zdrop. exact HP.
Qed.
Lemma by_finclose now : bytely (FinalizeAndClose now).
Proof. unfold FinalizeAndClose. apply by_bind; [apply by_finalize|intros; apply by_close]. Qed.
Lemma Forall_split_fst (P : Z -> Prop) l : Forall (fun p : Z * Z => P (fst p)) l -> Forall P (fst (split l)).
Proof. rewrite split_map. intros H. apply Forall_map. exact H. Qed.
Lemma sb_scall srt c sw : sorts srt -> typed_scall c -> sbytes sw -> sbytes (snd (run_scall srt c sw)).
Proof.
  intros Hs Ht HB. destruct c as [ids vals|size|now]; cbn [run_scall].
  - unfold SWrite. destruct (sw_closed sw); [exact HB|]. destruct (negb (zlen ids =? zlen vals)); [exact HB|]. destruct (zlen ids =? 0); [exact HB|].
    destruct Ht as (Ti & _). destruct HB as [HB HP].
    assert (Hn : Forall is_u64 (fst (if negb (isSorted ids) then sortByID srt ids vals else (ids, vals)))).
    { destruct (isSorted ids); [exact Ti|]. cbn [negb]. unfold sortByID. apply Forall_split_fst. eapply Permutation_Forall; [apply Hs|].
      apply Forall_forall. intros [x y] Hin. apply in_combine_l in Hin. cbn [fst]. rewrite Forall_forall in Ti. apply Ti. exact Hin. }
    destruct (if negb (isSorted ids) then _ else _) as [a b]. apply sb_flush. split; [exact HB|]. apply Forall_app. split; assumption.
  - unfold SetTargetBlockSize. destruct (sw_closed sw); exact HB.
  - unfold SClose. destruct (sw_closed sw); [exact HB|]. unfold flush. pose proof (sb_flush true (S (length (sw_pendingIDs sw))) sw HB) as K.
    destruct (flushIfNeeded _ true sw) as [[u|e|] s1]; cbn [snd] in K; [|exact K|exact K]. destruct K as [K1 K2].
    pose proof (by_finclose now (sw_writer s1) K1) as F. destruct (FinalizeAndClose now (sw_writer s1)) as [[x|e|] w']; split; (exact F || exact K2).
Qed.
Lemma sb_scalls srt cs : sorts srt -> Forall typed_scall cs -> forall sw, sbytes sw -> sbytes (snd (run_scalls srt cs sw)).
Proof.
  intros Hs. induction 1 as [|c cs Hc Hcs IH]; intros sw H; [exact H|]. cbn [run_scalls]. pose proof (sb_scall srt c sw Hs Hc H) as K.
  destruct (run_scall srt c sw) as [r s1]. specialize (IH s1 K). destruct (run_scalls srt cs s1). exact IH.
Qed.

Theorem simple_stop_anywhere srt now0 options sw0 cs outs sw n k j d : sorts srt ->
  NewSimpleWriter now0 options [] = Ok sw0 -> Forall typed_option options -> Forall typed_scall cs -> run_scalls srt cs sw0 = (outs, sw) -> undisturbed (combine cs outs) ->
  zlen (file_of sw) < two63 ->
  let u := snd (run_scalls srt cs (swith sw0 (stop n k j))) in ff u <> [] -> d = file_of u ->
  Forall is_byte d /\ part d (file_of sw) /\ prefix (zeros 4) (zdrop 60 d)
  /\ forall r, NewReader d = Ok r -> d = file_of sw
     \/ exists i, 0 < i /\ i + 8 < zlen (file_of sw) /\ slice (file_of sw) i 8 = le_bytes 8 MagicNumber /\ zlen d = i + 8.
Proof.
  intros Hs HN HO HT HR HU HS u HF ->. pose proof (new_state False now0 options [] sw0 ltac:(tauto) HO HN) as H0.
  destruct (NewSimple_fresh _ _ _ _ HN) as (w0 & f & Hw & ->). destruct (new_faultless _ _ _ _ Hw) as (F0 & B0 & HE & H64).
  edestruct (crash_scalls srt _ cs Hs HT _ _ _ _ n k j H0 ltac:(right; split; [reflexivity|split; assumption]) F0 HR HU HF) as [P0 P]. fold u in P, P0.
  assert (HB : sbytes u).
  { apply sb_scalls; [exact Hs|exact HT|]. split; [|constructor]. unfold file_of. cbn [swith sw_writer]. change (Forall is_byte (bytes_of w0)). rewrite B0. apply initial_bytes. }
  destruct HB as [HB _]. change (file_of (mkSW w0 [] [] 131072 false 0)) with (bytes_of w0) in P0. rewrite B0 in P0. pose proof (part_zeros _ _ _ P0) as HZ.
  split; [exact HB|]. split; [exact P|]. split; [exact HZ|]. intros r Hr. eapply part_accepted; eassumption.
Qed.
End Simple.
