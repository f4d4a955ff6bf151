(** Consequences of the history theorem in the vocabulary of Spec.v. *)
From Verif Require Import Machine MachineFacts Encoding EncodingFacts FileIO Sroar Writer Spec FileFacts
  WriterFacts BlockFacts FinalFacts Reader ReaderFacts DecodeFacts HistoryFacts RunFacts.
Ltac Zify.zify_post_hook ::= Z.div_mod_to_equations.

Section Reach.
Context {Srr : Sroar}.

Lemma configured_typed options : Forall typed_option options ->
  is_u32 (encoding_of options) /\ is_u32 (target_of options).
Proof.
  intros H. unfold encoding_of, target_of, configured.
  assert (G : forall p, is_u32 (fst p) /\ is_u32 (snd p) ->
    let q := fold_left (fun '(e, t) o => match o with WithEncoding e' => (e', t) | WithBlockSize t' => (e, t') end) options p in
    is_u32 (fst q) /\ is_u32 (snd q)).
  { induction H as [|o os Ho _ IH]; intros [e t] Hp; [exact Hp|]. cbn [fold_left]. apply IH.
    destruct o; cbn [fst snd typed_option] in *; tauto. }
  apply G. cbn. unfold is_u32, EncodingRaw, defaultBlockSize, two32. lia.
Qed.

Lemma run_calls_length cs : forall w outs w', run_calls cs w = (outs, w') -> length outs = length cs.
Proof.
  induction cs as [|c cs IH]; intros w outs w' H; cbn [run_calls] in H; [injection H as <- _; reflexivity|].
  destruct (run_call c w) as [r w1]. destruct (run_calls cs w1) as [rs w2] eqn:E. injection H as <- _.
  cbn. f_equal. eapply IH. exact E.
Qed.

Lemma in_combine_fst {A B} (l : list A) (l' : list B) a : length l' = length l -> In a l -> exists b, In (a, b) (combine l l').
Proof.
  revert l'. induction l as [|x l IH]; intros [|y l'] Hl Hin; try discriminate; try contradiction.
  destruct Hin as [->|Hin].
  - exists y. left. reflexivity.
  - destruct (IH l' ltac:(cbn in Hl; lia) Hin) as [b Hb]. exists b. right. exact Hb.
Qed.

Lemma never_no_finalize cs outs : length outs = length cs -> never_finalized (combine cs outs) -> no_finalize cs.
Proof. intros Hl H c Hc. destruct (in_combine_fst cs outs c Hl Hc) as [r Hr]. eapply H. exact Hr. Qed.

(** Everything known about a finished run. *)
Theorem finished_facts options faults h now w :
  finished_run options faults h now w ->
  exists blocks A X L off,
    effects h blocks A /\ map snd L = blocks
    /\ finalized (bytes_of w) X now (encoding_of options) (target_of options) L (fold_left bm_set A bm_new) off
    /\ within_limits (bytes_of w) (encoding_of options) (target_of options) L (fold_left bm_set A bm_new)
    /\ zlen X mod PageSize = 0
    /\ (never_finalized h -> L <> [] -> chain (encoding_of options) 64 L off)
    /\ NewReader (bytes_of w) = Ok (the_reader (bytes_of w) now (encoding_of options) (target_of options) L (fold_left bm_set A bm_new) off).
Proof.
  intros [now0 w0 f0 cs outs w1 fin n Hnew Hopt Hty Hrun -> Hok Hfin Hlast [Hf1 Hf2 Hf3]].
  destruct (history_finalized False now0 options faults w0 f0 cs outs w1 fin now n w Hnew Hty ltac:(tauto) Hrun Hok Hfin Hlast)
    as (blocks & A & He & (X & L & off & HL & HF & HX & HC) & Hcnt & Hids).
  exists blocks, A, X, L, off. fold (encoding_of options) (target_of options) (bytes_of w) in *.
  assert (Hlim : within_limits (bytes_of w) (encoding_of options) (target_of options) L (fold_left bm_set A bm_new)).
  { destruct (configured_typed options Hopt). constructor; try assumption.
    - rewrite <- HL, zlen_map in Hcnt. rewrite Hcnt in Hf2. exact Hf2.
    - rewrite <- Hids. exact Hf3. }
  repeat (split; [assumption|]). split.
  - intros Hn. apply HC. split; [exact I|]. eapply never_no_finalize; [|exact Hn]. eapply run_calls_length. exact Hrun.
  - apply NewReader_finalized with (X := X); assumption.
Qed.

(** ** Bitmap contents *)
Lemma bm_fold_contains {Lw : SroarLaws Srr} A b y : Forall is_u64 A -> is_u64 y ->
  bm_contains (fold_left bm_set A b) y = true <-> In y A \/ bm_contains b y = true.
Proof.
  intros HA Hy. revert b. induction HA as [|x A Hx _ IH]; intros b; cbn [fold_left In]; [tauto|].
  rewrite IH. rewrite law_set by assumption. rewrite orb_true_iff, Z.eqb_eq. tauto.
Qed.

Lemma effects_ids h blocks A : effects h blocks A -> forall id, In id (flat_map fst blocks) -> In id A.
Proof.
  induction 1 as [|c r h b1 a1 b2 a2 He _ IH]; intros id Hin; [exact Hin|].
  rewrite flat_map_app, in_app_iff in Hin. rewrite in_app_iff. destruct Hin as [Hin|Hin]; [left|right; auto].
  destruct He; cbn [flat_map fst app] in Hin; rewrite ?app_nil_r in Hin; try exact Hin; destruct Hin.
Qed.
Lemma effects_ids_exact h blocks A : effects h blocks A -> no_torn_block h -> A = flat_map fst blocks.
Proof.
  induction 1 as [|c r h b1 a1 b2 a2 He _ IH]; intros Hn; [reflexivity|].
  rewrite flat_map_app. f_equal.
  - destruct He as [ids vals n|ids vals n Hb|ids vals n Hb|ids vals e n H1 H2 H3|c r Hc]; cbn [flat_map fst app]; rewrite ?app_nil_r; try reflexivity.
    destruct (Hn ids vals (Err e) (or_introl eq_refl)) as [N1 N2].
    destruct H3 as [->|[->| ->]]; [apply ztake_0; lia|congruence|congruence].
  - apply IH. intros ids vals r' Hin. apply (Hn ids vals r'). right. exact Hin.
Qed.
Lemma effects_typed h blocks A : effects h blocks A -> Forall (fun p => typed_call (fst p)) h ->
  Forall is_u64 A /\ Forall (fun b => Forall is_u64 (fst b) /\ Forall is_i64 (snd b)) blocks.
Proof.
  induction 1 as [|c r h b1 a1 b2 a2 He _ IH]; intros Ht; [split; constructor|].
  inversion Ht as [|p ps Hc Hrest]; subst. destruct (IH Hrest) as [I1 I2].
  assert (Forall is_u64 a1 /\ Forall (fun b => Forall is_u64 (fst b) /\ Forall is_i64 (snd b)) b1) as [J1 J2].
  { cbn [fst] in Hc. destruct He; cbn [typed_call] in Hc.
    1,2,3: destruct Hc as (T1 & T2 & _); split; [try apply Forall_ztake; assumption|constructor; [|constructor]; cbn [fst snd];
        split; [try apply Forall_ztake; assumption|try apply Forall_ztake; assumption]].
    - destruct Hc as (T1 & T2 & _). split; [apply Forall_ztake; assumption|constructor].
    - split; constructor. }
  split; apply Forall_app; split; assumption.
Qed.

(** ** Good states of histories without torn blocks *)
Definition goodish (nf : Prop) (options : list writerOption) (h : list (wcall * res Z)) (w : writer) : Prop :=
  (exists L A, effects h (map snd L) A /\ Good nf (encoding_of options) (target_of options) L A (never_finalized h) w)
  \/ closed w.

Lemma effects_app h1 b1 a1 h2 b2 a2 : effects h1 b1 a1 -> effects h2 b2 a2 -> effects (h1 ++ h2) (b1 ++ b2) (a1 ++ a2).
Proof.
  induction 1 as [|c r h x1 y1 x2 y2 He _ IH]; intros H2; [exact H2|].
  cbn [app]. rewrite <- !app_assoc. constructor; auto.
Qed.

Lemma Good_weaken (nf : Prop) e t L A (t1 t2 : Prop) w : (t2 -> t1) -> Good nf e t L A t1 w -> Good nf e t L A t2 w.
Proof.
  intros H (wg & D & Hw & HD & HB & HP & HA & HC). exists wg, D. repeat (split; [assumption|]). auto.
Qed.

Lemma call_good (nf : Prop) c e t L A (tight : Prop) w :
  typed_call c -> Good nf e t L A tight w ->
  let '(r, w') := run_call c w in
  r <> Panic /\ (is_finalize c = true -> (exists n, r = Ok n)
                 \/ exists er, r = Err er /\ ~ nf)
  /\ ((exists ids vals, c = CWriteBlock ids vals /\ (r = Err ErrIO \/ r = Err ErrMismatch) /\ (nf -> ~ consistent e))
      \/ (is_finalize c = true /\ (exists er, r = Err er) /\ ~ nf /\ ~ offset_at_end w')
      \/ (exists L' bs added, effect c r bs added /\ map snd L' = map snd L ++ bs
            /\ Good nf e t L' (A ++ added) (tight /\ is_finalize c = false) w'
            /\ (is_closing c = false \/ ~ nf))
      \/ (exists bs added, effect c r bs added /\ closed w' /\ is_closing c = true)).
Proof.
  intros Ht Hg. destruct c as [ids vals|ids vals|now|now|].
  - pose proof (WriteBlock_good nf ids vals e t L A tight w Ht Hg) as T.
    destruct (run_call _ w) as [r w']. destruct T as [(Hp & Hio & Hmm) (bs & added & He & Hs)].
    split; [exact Hp|]. split; [discriminate|].
    destruct Hs as [(L' & HL' & Hg' & _)|(Hr & -> & Hb)].
    + right. right. left. exists L', bs, added. split; [exact He|]. split; [exact HL'|]. split; [|auto].
      eapply Good_weaken; [|exact Hg']. tauto.
    + left. exists ids, vals. split; [reflexivity|]. split; [exact Hr|]. intros Hnf. destruct Hr as [Hr|Hr]; tauto.
  - destruct (Estimate_state nf ids vals w Ht) as [H1 _]. specialize (H1 e t L A tight Hg).
    destruct (run_call _ w) as [r w']. destruct H1 as [[Hp _] Hg']. split; [exact Hp|]. split; [discriminate|].
    right. right. left. exists L, [], []. split; [apply ef_other; discriminate|]. rewrite !app_nil_r.
    split; [reflexivity|]. split; [|auto]. eapply Good_weaken; [|exact Hg']. tauto.
  - pose proof (Finalize_good nf e t L A tight now w Hg) as T. cbn [run_call]. unfold mbind, mret.
    destruct (Finalize now w) as [[a|er|] w']; [| |contradiction].
    + split; [discriminate|]. split; [eauto|]. right. right. left. exists L, [], [].
      split; [apply ef_other; discriminate|]. rewrite !app_nil_r. split; [reflexivity|]. split; [|auto].
      eapply Good_weaken; [|exact (proj1 T)]. intros [_ ?]. discriminate.
    + destruct T as (T & _ & TG). split; [discriminate|]. split; [eauto|].
      destruct (Z.eq_dec (f_pos (w_file w')) (zlen (f_data (w_file w')))) as [Ep|Np].
      * right. right. left. exists L, [], [].
        split; [apply ef_other; discriminate|]. rewrite !app_nil_r. split; [reflexivity|]. split; [|auto].
        eapply Good_weaken; [|exact (TG Ep)]. intros [_ ?]. discriminate.
      * right. left. split; [reflexivity|]. split; [eauto|]. split; [exact T|exact Np].
  - pose proof (Finalize_good nf e t L A tight now w Hg) as T. cbn [run_call].
    unfold FinalizeAndClose. unfold mbind at 1 2. unfold mret.
    destruct (Finalize now w) as [[a|er|] w']; [| |contradiction].
    + destruct T as (Hg' & _).
      pose proof Hg' as (wg & D & (fs & -> & Hfs) & _).
      unfold closeFile, mfile, file_close. cbn [set_file w_file f_open].
      destruct fs as [|[|k] fs]; cbn [f_faults].
      * split; [discriminate|]. split; [eauto|]. right. right. right. eexists _, _. split; [apply ef_other; discriminate|].
        split; reflexivity.
      * split; [discriminate|]. split; [eauto|]. right. right. right. eexists _, _. split; [apply ef_other; discriminate|].
        split; reflexivity.
      * assert (Hn : ~ nf). { intros Hn. specialize (Hfs Hn). inversion Hfs. discriminate. }
        split; [discriminate|]. split; [eauto|]. right. right. right. eexists _, _. split; [apply ef_other; discriminate|].
        split; reflexivity.
    + destruct T as (T & _ & TG). split; [discriminate|]. split; [eauto|].
      destruct (Z.eq_dec (f_pos (w_file w')) (zlen (f_data (w_file w')))) as [Ep|Np].
      * right. right. left. exists L, [], [].
        split; [apply ef_other; discriminate|]. rewrite !app_nil_r. split; [reflexivity|]. split; [|auto].
        eapply Good_weaken; [|exact (TG Ep)]. intros [_ ?]. discriminate.
      * right. left. split; [reflexivity|]. split; [eauto|]. split; [exact T|exact Np].
  - cbn [run_call]. unfold mbind, mret, Close.
    destruct (closeFile_closes w) as (Hc & _ & _ & _ & Hp). destruct (closeFile w) as [[u|er|] w''].
    + split; [discriminate|]. split; [discriminate|]. right. right. right. eexists _, _. split; [apply ef_other; discriminate|]. split; [exact Hc|reflexivity].
    + split; [discriminate|]. split; [discriminate|]. right. right. right. eexists _, _. split; [apply ef_other; discriminate|]. split; [exact Hc|reflexivity].
    + contradiction Hp; reflexivity.
Qed.

Lemma history_good (nf : Prop) cs e t : Forall typed_call cs -> forall L A (tight : Prop) w outs w',
  Good nf e t L A tight w -> run_calls cs w = (outs, w') ->
  finalizes_ok cs w -> no_torn_block (combine cs outs) \/ (nf /\ consistent e) ->
  (exists L' bs added, effects (combine cs outs) bs added /\ map snd L' = map snd L ++ bs
     /\ Good nf e t L' (A ++ added) (tight /\ no_finalize cs) w')
  \/ (closed w' /\ ~ not_closed (combine cs outs)).
Proof.
  induction 1 as [|c cs Hc _ IH]; intros L A tight w outs w' Hg Hrun Hok Hnt.
  - cbn in Hrun. injection Hrun as <- <-. left. exists L, [], []. rewrite !app_nil_r. split; [constructor|].
    split; [reflexivity|]. eapply Good_weaken; [|exact Hg]. tauto.
  - cbn [run_calls] in Hrun. pose proof (call_good nf c e t L A tight w Hc Hg) as T.
    destruct Hok as [Hok Hok'].
    destruct (run_call c w) as [r w1]. destruct (run_calls cs w1) as [rs w2] eqn:Er. cbn [fst snd] in *.
    injection Hrun as <- <-. cbn [combine] in *.
    destruct T as (Hp & Hfz & [(ids & vals & -> & Hr & Hnn)|[(Hf & (er & ->) & _ & Hne)|[(L1 & b1 & a1 & He & HL1 & Hg1 & Hcl)|(b1 & a1 & He & Hcl & Hcl')]]]).
    + exfalso. destruct Hnt as [Hnt|Hnt]; [|tauto].
      destruct (Hnt ids vals r (or_introl eq_refl)). destruct Hr; contradiction.
    + exfalso. destruct (Hok Hf) as [[k Hk]|Hk]; [discriminate|contradiction].
    + assert (Hnt' : no_torn_block (combine cs rs) \/ (nf /\ consistent e)).
      { destruct Hnt as [Hnt|Hnt]; [left|right; exact Hnt]. intros i v r' Hin; apply (Hnt i v); right; exact Hin. }
      destruct (IH L1 (A ++ a1) _ w1 rs w2 Hg1 Er Hok' Hnt') as [(L' & b2 & a2 & He2 & HL' & Hg')|[H1 H2]].
      * left. exists L', (b1 ++ b2), (a1 ++ a2). split; [constructor; assumption|].
        rewrite !app_assoc. split; [rewrite HL', HL1; reflexivity|].
        eapply Good_weaken; [|exact Hg']. intros [Htt Hnf]. split; [split; [exact Htt|]|].
        -- apply Hnf. left. reflexivity.
        -- intros c' Hin. apply Hnf. right. exact Hin.
      * right. split; [exact H1|]. intros Hnc. apply H2. intros c' r' Hin. eapply Hnc. right. exact Hin.
    + right. pose proof (run_calls_closed cs w1 Hcl) as [Hs _]. rewrite Er in Hs. cbn [snd] in Hs. subst w2.
      split; [exact Hcl|]. intros Hnc. rewrite (Hnc c r (or_introl eq_refl)) in Hcl'. discriminate.
Qed.

Lemma NewWriter_good (nf : Prop) now options faults w f : (nf -> nofault faults) ->
  NewWriter now options faults = (Ok w, f) ->
  Good nf (encoding_of options) (target_of options) [] [] True w.
Proof.
  intros Hn H. pose proof (NewWriter_rule nf now options faults Hn) as T. rewrite H in T.
  destruct T as [T _].
  eexists _, _. split; [exact T|]. rewrite zlen_initial. split; [lia|].
  split; [repeat split|]. split; [constructor|]. split; [reflexivity|]. intros _. split; [reflexivity|]. split; [apply initial_tail|apply initial_bytes].
Qed.

Theorem running_good options faults h w :
  running options faults h w -> no_torn_block h \/ (fault_free faults /\ consistent (encoding_of options)) ->
  (exists L A, effects h (map snd L) A
     /\ Good (fault_free faults) (encoding_of options) (target_of options) L A (never_finalized h) w)
  \/ closed w.
Proof.
  intros [now0 w0 f0 cs outs Hnew Hopt Hty Hrun -> Hok] Hnt.
  pose proof (NewWriter_good (fault_free faults) now0 options faults w0 f0 (fun x => x) Hnew) as Hg.
  destruct (history_good _ cs _ _ Hty [] [] True w0 outs w Hg Hrun Hok Hnt) as [(L & bs & A & He & HL & Hg')|[Hc _]].
  - left. exists L, A. cbn [map app] in *. rewrite HL. split; [exact He|].
    eapply Good_weaken; [|exact Hg']. intros Hn. split; [exact I|]. eapply never_no_finalize; [|exact Hn].
    eapply run_calls_length. exact Hrun.
  - right. exact Hc.
Qed.

End Reach.
