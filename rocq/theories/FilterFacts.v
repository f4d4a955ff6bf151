(** The filter example (C64). *)
From Coq Require Import Ascii String Lia.
From Verif Require Import Machine MachineFacts Encoding EncodingFacts FileIO FileFacts Sroar Writer Spec WriterFacts BlockFacts FinalFacts Reader ReaderFacts DecodeFacts
  HistoryFacts RunFacts ReachFacts WriterProps Aggregate AggFacts ParallelFacts AggProps Cli CliFacts Debug Examples FilterExample FilterSpec PanicFacts.
From Coq Require Import ZifyBool.
Local Open Scope Z_scope.
Local Open Scope list_scope.
Ltac Zify.zify_post_hook ::= Z.div_mod_to_equations.

Definition sample : list block := [(sampleIDs 1, sampleValues 1 10); (sampleIDs 101, sampleValues 101 5); (sampleIDs 201, sampleValues 201 2)].
Definition sample_calls : list wcall := map (fun b => CWriteBlock (fst b) (snd b)) sample.
Lemma sample_typed : Forall typed_call sample_calls.
Proof. eapply forallb_Forall'; [apply typed_callb_sound|vm_compute; reflexivity]. Qed.

Section F.
Context {Srr : Sroar}.

Lemma sample_stored outs blocks : stored (combine sample_calls outs) blocks -> outs = [Ok 0; Ok 0; Ok 0] -> blocks = sample.
Proof.
  intros H ->. unfold sample_calls, sample in *. cbn [map combine fst snd] in H.
  assert (Q : forall ids vals n b, stores (CWriteBlock ids vals) (Ok n) b -> b = [(ids, vals)]).
  { intros ids vals n b K. inversion K; subst; [reflexivity|]. match goal with X : forall ids vals, _ |- _ => exfalso; eapply X; reflexivity end. }
  inversion H as [|? ? ? b1 r1 S1 H1]; subst. inversion H1 as [|? ? ? b2 r2 S2 H2]; subst. inversion H2 as [|? ? ? b3 r3 S3 H3]; subst. inversion H3; subst.
  rewrite (Q _ _ _ _ S1), (Q _ _ _ _ S2), (Q _ _ _ _ S3). reflexivity.
Qed.

Lemma created_inv now0 now faults f : createSampleData now0 now faults = (Ok tt, f) ->
  exists w0 f0 w1 w2, NewWriter now0 [] faults = (Ok w0, f0) /\ run_calls sample_calls w0 = ([Ok 0; Ok 0; Ok 0], w1)
    /\ run_call (CFinalizeAndClose now) w1 = (Ok 0, w2) /\ f = w_file w2.
Proof.
  unfold createSampleData. destruct (NewWriter now0 [] faults) as [[w0|er|] f0]; try discriminate.
  intros E. unfold sample_calls, sample. cbn [map fst snd run_calls run_call]. unfold mbind, mret in *.
  destruct (WriteBlock (sampleIDs 1) _ w0) as [[[]|er|] wa] eqn:Ha; try discriminate.
  destruct (WriteBlock (sampleIDs 101) _ wa) as [[[]|er|] wb] eqn:Hb; try discriminate.
  destruct (WriteBlock (sampleIDs 201) _ wb) as [[[]|er|] wc] eqn:Hc; try discriminate.
  destruct (FinalizeAndClose now wc) as [[[]|er|] wd] eqn:Hf; try discriminate.
  exists w0, f0, wc, wd. split; [reflexivity|]. rewrite Ha, Hb, Hc, Hf. split; [reflexivity|]. split; [reflexivity|]. congruence.
Qed.

Lemma created_finished now0 now faults f : createSampleData now0 now faults = (Ok tt, f) ->
  zlen (f_data f) < two63 -> zlen (bm_ser (bitmapOf (flat_map fst sample))) < two32 ->
  exists w, f = w_file w /\ finished_run [] faults (combine sample_calls [Ok 0; Ok 0; Ok 0]) now w.
Proof.
  intros E H1 H2. destruct (created_inv _ _ _ _ E) as (w0 & f0 & w1 & w2 & Hnew & Hrun & Hlast & ->). exists w2. split; [reflexivity|].
  assert (Hok : finalizes_ok sample_calls w0) by (cbn [sample_calls sample map finalizes_ok]; repeat (split; [discriminate|]); exact I).
  destruct (history_finalized False now0 [] faults w0 f0 _ _ w1 _ now 0 w2 Hnew sample_typed ltac:(tauto) Hrun Hok (or_intror eq_refl) Hlast)
    as (bs & A & He & _ & Hcnt & Hids).
  assert (bs = sample /\ A = flat_map fst sample) as [-> ->].
  { assert (Q : forall ids vals b a, effect (CWriteBlock ids vals) (Ok 0) b a -> b = [(ids, vals)] /\ a = ids).
    { intros ids vals b a K. inversion K; subst; auto. match goal with H : context[CWriteBlock] |- _ => exfalso; eapply H; reflexivity end || congruence. }
    unfold sample_calls, sample in He. cbn [map combine fst snd] in He.
    inversion He as [|? ? ? b1 a1 r1 s1 S1 H1']; subst. inversion H1' as [|? ? ? b2 a2 r2 s2 S2 H2']; subst. inversion H2' as [|? ? ? b3 a3 r3 s3 S3 H3']; subst. inversion H3'; subst.
    destruct (Q _ _ _ _ S1) as [-> ->], (Q _ _ _ _ S2) as [-> ->], (Q _ _ _ _ S3) as [-> ->]. split; reflexivity. }
  eapply finished with (cs := sample_calls) (fin := CFinalizeAndClose now);
    [exact Hnew|constructor|exact sample_typed|exact Hrun|reflexivity|exact Hok|right; reflexivity|exact Hlast|].
  constructor; [exact H1|rewrite Hcnt; vm_compute; reflexivity|rewrite Hids; exact H2].
Qed.

(** ** The results *)
Definition inb (l : list Z) (x : Z) : bool := existsb (Z.eqb x) l.
Lemma inb_spec l x : inb l x = true <-> In x l.
Proof. unfold inb. rewrite existsb_exists. split; [intros (y & H & E); apply Z.eqb_eq in E; subst; exact H|]. intros H. exists x. split; [exact H|apply Z.eqb_refl]. Qed.
Definition u64s (l : list Z) : bool := forallb (fun x => (0 <=? x) && (x <? two64)) l.
Lemma u64s_sound l : u64s l = true -> Forall is_u64 l.
Proof. unfold u64s. rewrite forallb_forall, Forall_forall. intros H x Hx. specialize (H x Hx). unfold is_u64. lia. Qed.
Lemma bitmap_contains {Laws : SroarLaws Srr} l x : u64s l = true -> is_u64 x -> bm_contains (bitmapOf l) x = inb l x.
Proof.
  intros Hl Hx. apply u64s_sound in Hl. unfold bitmapOf. apply eq_true_iff_eq. rewrite (bm_fold_contains l bm_new x Hl Hx), inb_spec, law_new by exact Hx. intuition discriminate.
Qed.
Definition among (allow deny : option (list Z)) (x : Z) : bool :=
  match allow with Some a => inb a x | None => true end && negb (match deny with Some d => inb d x | None => false end).
Definition listed (l : option (list Z)) : bool := match l with Some l => u64s l | None => true end.
Lemma chosen_among {Laws : SroarLaws Srr} allow deny : listed allow = true -> listed deny = true ->
  chosen (option_map bitmapOf allow) (option_map bitmapOf deny) sample = map snd (filter (fun p => among allow deny (fst p)) (all_pairs sample)).
Proof.
  intros HA HD. unfold chosen. f_equal.
  assert (U : forallb (fun p => (0 <=? fst p) && (fst p <? two64)) (all_pairs sample) = true) by (vm_compute; reflexivity).
  apply filter_ext_in. intros [id v] Hin. cbn [fst]. rewrite forallb_forall in U. specialize (U _ Hin). cbn [fst] in U. assert (Hx : is_u64 id) by (unfold is_u64; lia).
  unfold passes, among. f_equal; [destruct allow as [a|]|f_equal; destruct deny as [d|]]; cbn [option_map listed] in *; try reflexivity; apply bitmap_contains; assumption.
Qed.
Definition i64s (l : list Z) : bool := forallb (fun x => (- two63 <=? x) && (x <? two63)) l && negb (match l with [] => true | _ => false end) && (zlen l <? two63).
Lemma result_is vs res : i64s vs = true -> aggregate_of vs res -> res = result_of (acc_of vs).
Proof.
  unfold i64s. rewrite !andb_true_iff, forallb_forall. intros [[H1 H2] H3] A. apply (aggregate_unique vs); [destruct vs; [discriminate H2|discriminate]|exact A|].
  apply result_aggregate; [|lia]. rewrite Forall_forall. intros x Hx. specialize (H1 x Hx). unfold is_i64. lia.
Qed.
Lemma filtered {Laws : SroarLaws Srr} r blocks skip allow deny :
  (exists res, aggregateSequential r (mkOpts skip (option_map bitmapOf allow) (option_map bitmapOf deny) 0) = Ok res
     /\ aggregate_of (chosen (option_map bitmapOf allow) (option_map bitmapOf deny) blocks) res) ->
  blocks = sample -> listed allow = true -> listed deny = true ->
  let vs := map snd (filter (fun p => among allow deny (fst p)) (all_pairs sample)) in i64s vs = true ->
  aggregateSequential r (mkOpts skip (option_map bitmapOf allow) (option_map bitmapOf deny) 0) = Ok (result_of (acc_of vs)).
Proof.
  intros (res & E & A) -> HA HD vs HV. rewrite E. f_equal. apply result_is; [exact HV|]. rewrite (chosen_among allow deny HA HD) in A. exact A.
Qed.

Lemma example_output {Laws : SroarLaws Srr} now0 now faults filename e f : exampleMain now0 now faults filename = (e, f) ->
  zlen (f_data f) < two63 -> zlen (bm_ser (bitmapOf (flat_map fst sample))) < two32 ->
  (exists u, createSampleData now0 now faults = (Ok u, f)) -> e = Exited (sample_output filename).
Proof.
  intros E H1 H2 [[] C]. unfold exampleMain in E. rewrite C in E. apply (f_equal fst) in E. cbn [fst] in E. rewrite <- E. clear E e.
  destruct (created_finished _ _ _ _ C H1 H2) as (w & -> & HF).
  destruct (footer_exact _ _ _ _ _ HF) as (r & bs1 & Hr & S1 & K1).
  destruct (filtered_exact _ _ _ _ _ HF (or_introl eq_refl)) as (r2 & bs2 & Hr2 & (S2 & _) & K2).
  rewrite Hr in Hr2. apply (f_equal (fun x => match x with Ok y => y | _ => r end)) in Hr2. cbv beta iota in Hr2. subst r2.
  pose proof (sample_stored _ _ S1 eq_refl) as ->. pose proof (sample_stored _ _ S2 eq_refl) as ->.
  unfold bytes_of in Hr. rewrite Hr. cbn [rbind].
  destruct K1 as (res1 & E1 & A1).
  { assert (Q : forallb (fun b => negb (inb (snd b) min_int64) && negb (i64 (zsum (snd b)) =? min_int64)) sample = true) by (vm_compute; reflexivity).
    rewrite forallb_forall in Q. apply Forall_forall. intros b Hb. specialize (Q b Hb). apply andb_true_iff in Q. destruct Q as [Q1 Q2]. split.
    - intros K. apply inb_spec in K. rewrite K in Q1. discriminate Q1.
    - intros K. rewrite K in Q2. discriminate Q2. }
  rewrite E1. cbn [rbind].
  assert (R1 : res1 = result_of (acc_of (map snd (all_pairs sample)))) by (apply result_is; [vm_compute; reflexivity|exact A1]). rewrite R1. clear R1 E1 A1 res1.
  assert (X : forall skip allow deny, (allow <> None \/ deny <> None) -> listed allow = true -> listed deny = true ->
    let vs := map snd (filter (fun p => among allow deny (fst p)) (all_pairs sample)) in i64s vs = true ->
    aggregateSequential r (mkOpts skip (option_map bitmapOf allow) (option_map bitmapOf deny) 0) = Ok (result_of (acc_of vs))).
  { intros skip allow deny HN HA HD vs HV. apply (filtered r sample); try assumption; [|reflexivity]. apply K2. destruct HN as [N|N]; [left; destruct allow|right; destruct deny]; (discriminate || congruence). }
  pose proof (X false (Some [10; 20; 30; 110; 120; 130; 210; 220; 230]) None ltac:(left; discriminate) ltac:(vm_compute; reflexivity) eq_refl ltac:(vm_compute; reflexivity)) as Y1.
  pose proof (X false None (Some (range 1 100 1)) ltac:(right; discriminate) eq_refl ltac:(vm_compute; reflexivity) ltac:(vm_compute; reflexivity)) as Y2.
  pose proof (X false (Some (range 1 200 1)) (Some (range 2 200 2)) ltac:(right; discriminate) ltac:(vm_compute; reflexivity) ltac:(vm_compute; reflexivity) ltac:(vm_compute; reflexivity)) as Y3.
  pose proof (X true (Some (range 50 75 1 ++ range 150 175 1 ++ range 250 275 1)) (Some (range 5 300 5)) ltac:(right; discriminate) ltac:(vm_compute; reflexivity) ltac:(vm_compute; reflexivity) ltac:(vm_compute; reflexivity)) as Y4.
  cbn [option_map] in Y1, Y2, Y3, Y4. rewrite Y1, Y2, Y3, Y4. cbn [rbind]. clear.
  refine (f_equal (fun z => Exited (text "Creating column file at: " ++ filename ++ [10] ++ z)) _).
  vm_compute. reflexivity.
Qed.

(** ** Without failures the file is written *)
Lemma hundred p ids vals : zlen ids = 100 -> zlen vals = 100 -> estimate (encoding_of []) p ids vals <= target_of [].
Proof.
  intros H1 H2. unfold estimate, claimed, calculatePadding, PageSize.
  assert (E : encoding_of [] = 0) by reflexivity. assert (T : target_of [] = 16384) by reflexivity. rewrite E, T.
  unfold id_claim, val_claim. change (usesFixedWidth 0) with true. cbv iota. rewrite H1, H2. change (80 + 100 * 8 + 100 * 8) with 1680.
  destruct (_ =? 0); lia.
Qed.
Lemma write_step L A w ids vals : Good True (encoding_of []) (target_of []) L A True w -> typed_block ids vals -> zlen ids = 100 -> zlen vals = 100 ->
  exists w' L' A', WriteBlock ids vals w = (Ok tt, w') /\ Good True (encoding_of []) (target_of []) L' A' True w'.
Proof.
  intros Hg Ht H1 H2. pose proof (write_outcome True _ _ _ _ _ w ids vals Hg Ht) as O.
  pose proof (WriteBlock_good True ids vals _ _ _ _ True w Ht Hg) as G. cbn [run_call] in G. unfold mbind, mret in G.
  destruct (WriteBlock ids vals w) as [[[]|er|] w1]; [| |destruct O].
  - destruct G as (_ & bs & added & He & [(L' & HL & Hg' & _)|([?|?] & _)]); try discriminate. eauto.
  - exfalso. assert (D : declared (encoding_of [])) by (unfold declared; change (encoding_of []) with 0; lia).
    assert (C : consistent (encoding_of [])) by (left; reflexivity).
    destruct er; decompose [or and] O; try discriminate; try tauto; try lia; try (subst; discriminate).
    all: try match goal with K : ?i = [], K1 : zlen ?i = 100 |- _ => rewrite K in K1; discriminate K1 end.
    all: match goal with K : True -> forall m, _ |- _ => specialize (K I 100 ltac:(lia)); rewrite !ztake_all in K by lia end;
      pose proof (hundred (zlen (bytes_of w)) ids vals H1 H2); lia.
Qed.
Lemma create_succeeds now0 now faults : fault_free faults -> exists f, createSampleData now0 now faults = (Ok tt, f).
Proof.
  intros Hff. destruct (no_faults_no_errors now0 [] faults sample_calls Hff ltac:(constructor) ltac:(left; reflexivity) sample_typed) as (w0 & f0 & outs & w & Hnew & Hrun & _ & _ & Hfin).
  { intros c Hin. unfold sample_calls, sample in Hin. cbn [map In] in Hin. decompose [or] Hin; subst; try reflexivity; contradiction. }
  unfold createSampleData. rewrite Hnew. pose proof (NewWriter_good True now0 [] faults w0 f0 (fun _ => Hff) Hnew) as Hg.
  assert (HT := sample_typed). unfold sample_calls, sample in HT, Hrun. cbn [map fst snd] in HT, Hrun. inversion HT as [|? ? T1 HT2]; subst. inversion HT2 as [|? ? T2 HT3]; subst. inversion HT3 as [|? ? T3 _]; subst. clear HT HT2 HT3.
  cbn [typed_call] in T1, T2, T3.
  destruct (write_step _ _ _ _ _ Hg T1 eq_refl eq_refl) as (w1 & L1 & A1 & E1 & G1).
  destruct (write_step _ _ _ _ _ G1 T2 eq_refl eq_refl) as (w2 & L2 & A2 & E2 & G2).
  destruct (write_step _ _ _ _ _ G2 T3 eq_refl eq_refl) as (w3 & L3 & A3 & E3 & G3).
  cbn [run_calls run_call] in Hrun. unfold mbind, mret in Hrun. rewrite E1, E2, E3 in Hrun. apply (f_equal snd) in Hrun. cbn [snd] in Hrun. subst w.
  unfold mbind. rewrite E1, E2, E3. destruct (Hfin now) as [_ HF]. cbn [run_call] in HF. unfold mbind, mret in HF.
  destruct (FinalizeAndClose now w3) as [[[]|er|] w4]; try discriminate. eexists. reflexivity.
Qed.
Lemma create_no_panic now0 now faults : fst (createSampleData now0 now faults) <> Panic.
Proof.
  unfold createSampleData. destruct (new_safe now0 [] faults) as [P O]. destruct (NewWriter now0 [] faults) as [[w|er|] f]; cbn [fst] in *; [|discriminate|congruence].
  match goal with |- context [(?m w)] => lazymatch m with mbind _ _ => assert (S : safe m) end end.
  { repeat (apply safe_bind; [apply write_safe|intros _]). unfold FinalizeAndClose. apply safe_bind; [apply finalize_safe|intros _; apply fileonly_safe, fileonly_close]. }
  destruct (S w (O w eq_refl)) as [Q _]. destruct (mbind _ _ w) as [r w']. exact Q.
Qed.
End F.
