(** Whole histories of writer calls, and what a successful Finalize leaves behind. *)
From Verif Require Import Machine MachineFacts Encoding EncodingFacts FileIO Sroar Writer Spec FileFacts
  WriterFacts BlockFacts FinalFacts Reader ReaderFacts DecodeFacts HistoryFacts.
Ltac Zify.zify_post_hook ::= Z.div_mod_to_equations.

Inductive effects : list (wcall * res Z) -> list block -> list Z -> Prop :=
| effects_nil : effects [] [] []
| effects_cons c r h b1 a1 b2 a2 : effect c r b1 a1 -> effects h b2 a2 ->
    effects ((c, r) :: h) (b1 ++ b2) (a1 ++ a2).

Lemma effects_stored h bs A : effects h bs A -> stored h bs.
Proof. induction 1 as [|c r h b1 a1 b2 a2 H _ IH]; constructor; [eapply effect_stores; exact H|exact IH]. Qed.

Section Run.
Context {Srr : Sroar}.

(** ** Closed files *)
Definition closed (w : writer) : Prop := f_open (w_file w) = false.

Lemma set_file_same w : set_file w (w_file w) = w.
Proof. destruct w. reflexivity. Qed.
Lemma seek_closed off wh w : closed w -> seek off wh w = (Err ErrIO, w).
Proof. intros H. unfold seek, mfile, file_seek. rewrite H. cbn. rewrite set_file_same. reflexivity. Qed.
Lemma closeFile_closed w : closed w -> closeFile w = (Err ErrIO, w).
Proof. intros H. unfold closeFile, mfile, file_close. rewrite H. cbn. rewrite set_file_same. reflexivity. Qed.

Definition soft_error (e : err) : Prop :=
  e = ErrLength \/ e = ErrEmpty \/ e = ErrEncoding \/ e = ErrZeroSize \/ e = ErrIO.

Lemma encode_items_soft enc1 l acc : (exists x, encode_items enc1 l acc = Ok x) \/ encode_items enc1 l acc = Err ErrZeroSize.
Proof.
  revert acc. induction l as [|d l IH]; intros acc; [left; eexists; reflexivity|].
  cbn [encode_items]. destruct (_ =? 0); [right; reflexivity|].
  destruct (IH (u32 (acc + u32 (zlen (enc1 d))))) as [[[rest size] ->]| ->]; [left; eexists; reflexivity|right; reflexivity].
Qed.
Lemma encodeData_soft e data delta enc1 :
  (exists x, encodeData e data delta enc1 = Ok x) \/ (exists er, encodeData e data delta enc1 = Err er /\ soft_error er).
Proof.
  unfold encodeData, soft_error. destruct (usesDelta e) as [d|]; [|right; exists ErrEncoding; auto].
  destruct (usesFixedWidth e); [left; eexists; reflexivity|].
  destruct (encode_items_soft enc1 (if d then delta data else data) 0) as [[[bs size] ->]| ->]; cbn [rbind].
  - destruct (_ && _); [right; exists ErrZeroSize; auto 6|left; eexists; reflexivity].
  - right. exists ErrZeroSize. auto 6.
Qed.
Lemma Estimate_closed ids vals w : closed w -> exists e, EstimateBlockSize ids vals w = (Err e, w) /\ soft_error e.
Proof.
  intros H. unfold EstimateBlockSize. destruct (negb _); [exists ErrLength; unfold soft_error; auto|].
  destruct (_ =? 0); [exists ErrEmpty; unfold soft_error; auto|].
  unfold mbind, mget, mlift.
  destruct (encodeData_soft (w_enc w) ids deltaEncode encodeVarInt) as [[[[a b] c] E]|(er & E & Hs)];
    unfold encodeIDs; rewrite E; [|exists er; auto].
  destruct (encodeData_soft (w_enc w) vals deltaEncodeInt64 encodeSignedVarInt) as [[[[a' b'] c'] E']|(er & E' & Hs)];
    unfold encodeValues; rewrite E'; [|exists er; auto].
  rewrite seek_closed by assumption. exists ErrIO. unfold soft_error. auto 6.
Qed.
Lemma run_call_closed c w : closed w -> exists e, run_call c w = (Err e, w) /\ soft_error e.
Proof.
  intros H. destruct c as [ids vals|ids vals|now|now|]; cbn [run_call].
  - unfold mbind at 1. unfold WriteBlock.
    destruct (negb _); [exists ErrLength; unfold soft_error; auto|].
    destruct (_ =? 0); [exists ErrEmpty; unfold soft_error; auto|].
    destruct (Estimate_closed ids vals w H) as (e & E & Hs). unfold mbind. rewrite E. exists e. auto.
  - apply Estimate_closed. assumption.
  - unfold mbind, Finalize, writeGlobalIDBitmap, mbind. rewrite seek_closed by assumption.
    exists ErrIO. unfold soft_error. auto 6.
  - unfold mbind, FinalizeAndClose, Finalize, writeGlobalIDBitmap, mbind. rewrite seek_closed by assumption.
    exists ErrIO. unfold soft_error. auto 6.
  - unfold mbind, Close. rewrite closeFile_closed by assumption. exists ErrIO. unfold soft_error. auto 6.
Qed.

Theorem run_calls_closed cs w : closed w ->
  snd (run_calls cs w) = w /\ Forall (fun r => exists e, r = Err e) (fst (run_calls cs w)).
Proof.
  intros H. induction cs as [|c cs IH]; [split; [reflexivity|constructor]|].
  cbn [run_calls]. destruct (run_call_closed c w H) as (e & -> & _).
  destruct (run_calls cs w) as [rs w2]. cbn [fst snd] in *. destruct IH as [-> IH].
  split; [reflexivity|]. constructor; [exists e; reflexivity|exact IH].
Qed.

Lemma effects_closed cs w : closed w -> effects (combine cs (fst (run_calls cs w))) [] [].
Proof.
  intros H. induction cs as [|c cs IH]; [constructor|].
  cbn [run_calls]. destruct (run_call_closed c w H) as (e & -> & Hs).
  destruct (run_calls cs w) as [rs w2]. cbn [fst combine] in *.
  change (@nil block) with (@nil block ++ []). change (@nil Z) with (@nil Z ++ []).
  constructor; [|exact IH]. destruct c as [ids vals| | | |]; try (apply ef_other; discriminate).
  rewrite <- (ztake_0 0 ids) by lia.
  assert (e <> ErrSync /\ (forall n, e <> ErrBlockFull n)) as [N1 N2].
  { destruct Hs as [->|[->|[->|[->| ->]]]]; split; discriminate. }
  apply ef_err; auto.
Qed.

Lemma closeFile_closes w : closed (snd (closeFile w)) /\ f_data (w_file (snd (closeFile w))) = f_data (w_file w)
  /\ w_blockCount (snd (closeFile w)) = w_blockCount w /\ w_ids (snd (closeFile w)) = w_ids w
  /\ fst (closeFile w) <> Panic.
Proof.
  unfold closeFile, mfile, file_close, closed. destruct w as [f ? ? ? ? ? ? ?]. cbn.
  destruct f as [d p [|] fs]; cbn.
  - destruct fs as [|[|k] fs]; cbn; repeat split; discriminate.
  - repeat split; discriminate.
Qed.

Variable nf : Prop.

(** ** Live histories *)
Definition no_finalize (cs : list wcall) : Prop := forall c, In c cs -> is_finalize c = false.

Lemma Live_weaken e t blocks A (t1 t2 : Prop) w : (t2 -> t1) -> Live nf e t blocks A t1 w -> Live nf e t blocks A t2 w.
Proof.
  intros H [(L & HL & wg & D & Hw & HD & HB & HP & HA & HC)|Hb]; [left|right; exact Hb].
  exists L. split; [exact HL|]. exists wg, D. repeat (split; [assumption|]). auto.
Qed.

Lemma call_live c e t blocks A (tight : Prop) w :
  typed_call c -> Live nf e t blocks A tight w ->
  let '(r, w') := run_call c w in
  r <> Panic /\ exists bs added, effect c r bs added
   /\ ((is_finalize c = true /\ (exists er, r = Err er) /\ ~ offset_at_end w')
       \/ Live nf e t (blocks ++ bs) (A ++ added) (tight /\ is_finalize c = false) w' \/ closed w').
Proof.
  intros Ht Hl. destruct c as [ids vals|ids vals|now|now|].
  - destruct Hl as [(L & HL & Hg)|Hb].
    + pose proof (WriteBlock_good nf ids vals e t L A tight w Ht Hg) as T.
      destruct (run_call _ w) as [r w']. destruct T as [[Hp _] (bs & added & He & Hs)].
      split; [exact Hp|]. exists bs, added. split; [exact He|]. right. left.
      apply Live_weaken with (t1 := tight); [tauto|].
      destruct Hs as [(L' & HL' & Hg' & _)|(_ & -> & Hb)].
      * left. exists L'. split; [congruence|exact Hg'].
      * right. rewrite app_nil_r. rewrite <- HL, zlen_map. exact Hb.
    + pose proof (WriteBlock_bad nf ids vals e t (zlen blocks) A w Ht Hb) as T.
      destruct (run_call _ w) as [r w']. destruct T as [Hp (bs & added & He & Hb')].
      split; [exact Hp|]. exists bs, added. split; [exact He|]. right. left. right. rewrite zlen_app. exact Hb'.
  - destruct (Estimate_state nf ids vals w Ht) as [H1 H2].
    destruct Hl as [(L & HL & Hg)|Hb].
    + specialize (H1 e t L A tight Hg). destruct (run_call _ w) as [r w']. destruct H1 as [[Hp _] Hg'].
      split; [exact Hp|]. exists [], []. split; [apply ef_other; discriminate|]. right. left.
      rewrite !app_nil_r. apply Live_weaken with (t1 := tight); [tauto|]. left. exists L. auto.
    + specialize (H2 e t _ A Hb). destruct (run_call _ w) as [r w']. destruct H2 as [Hp Hb'].
      split; [exact Hp|]. exists [], []. split; [apply ef_other; discriminate|]. right. left.
      rewrite !app_nil_r. right. exact Hb'.
  - pose proof (Finalize_live nf e t blocks A tight now w Hl) as T. cbn [run_call]. unfold mbind, mret.
    destruct (Finalize now w) as [[a|er|] w']; [| |contradiction].
    + split; [discriminate|]. exists [], []. split; [apply ef_other; discriminate|]. right. left.
      rewrite !app_nil_r. apply Live_weaken with (t1 := False); [intros [_ ?]; discriminate|]. tauto.
    + split; [discriminate|]. exists [], []. split; [apply ef_other; discriminate|]. rewrite !app_nil_r.
      destruct (Z.eq_dec (f_pos (w_file w')) (zlen (f_data (w_file w')))) as [Ep|Np].
      * right. left. apply Live_weaken with (t1 := False); [intros [_ ?]; discriminate|]. apply T. exact Ep.
      * left. split; [reflexivity|]. split; [eexists; reflexivity|exact Np].
  - pose proof (Finalize_live nf e t blocks A tight now w Hl) as T. cbn [run_call].
    unfold FinalizeAndClose. unfold mbind at 1 2. unfold mret.
    destruct (Finalize now w) as [[a|er|] w']; [| |contradiction].
    + destruct (closeFile_closes w') as (Hc & _ & _ & _ & Hp). destruct (closeFile w') as [[u|er|] w''].
      * split; [discriminate|]. exists [], []. split; [apply ef_other; discriminate|]. right. right. exact Hc.
      * split; [discriminate|]. exists [], []. split; [apply ef_other; discriminate|]. right. right. exact Hc.
      * contradiction Hp; reflexivity.
    + split; [discriminate|]. exists [], []. split; [apply ef_other; discriminate|]. rewrite !app_nil_r.
      destruct (Z.eq_dec (f_pos (w_file w')) (zlen (f_data (w_file w')))) as [Ep|Np].
      * right. left. apply Live_weaken with (t1 := False); [intros [_ ?]; discriminate|]. apply T. exact Ep.
      * left. split; [reflexivity|]. split; [eexists; reflexivity|exact Np].
  - cbn [run_call]. unfold mbind, mret, Close.
    destruct (closeFile_closes w) as (Hc & _ & _ & _ & Hp). destruct (closeFile w) as [[u|er|] w''].
    + split; [discriminate|]. exists [], []. split; [apply ef_other; discriminate|]. right. right. exact Hc.
    + split; [discriminate|]. exists [], []. split; [apply ef_other; discriminate|]. right. right. exact Hc.
    + contradiction Hp; reflexivity.
Qed.

Theorem history_live cs e t blocks A (tight : Prop) w outs w' :
  Forall typed_call cs -> Live nf e t blocks A tight w -> run_calls cs w = (outs, w') ->
  finalizes_ok cs w ->
  Forall (fun r => r <> Panic) outs
  /\ exists bs added, effects (combine cs outs) bs added
     /\ (Live nf e t (blocks ++ bs) (A ++ added) (tight /\ no_finalize cs) w' \/ closed w').
Proof.
  intros Hty. revert blocks A tight w outs w'. induction Hty as [|c cs Hc _ IH]; intros blocks A tight w outs w' Hl Hrun Hfin.
  - cbn in Hrun. injection Hrun as <- <-. split; [constructor|]. exists [], []. split; [constructor|].
    left. rewrite !app_nil_r. apply Live_weaken with (t1 := tight); [tauto|exact Hl].
  - cbn [run_calls] in Hrun. pose proof (call_live c e t blocks A tight w Hc Hl) as T.
    destruct Hfin as [Hfin Hfin'].
    destruct (run_call c w) as [r w1]. destruct (run_calls cs w1) as [rs w2] eqn:Er. cbn [fst snd] in *.
    injection Hrun as <- <-. cbn [combine] in *.
    destruct T as (Hp & b1 & a1 & He & Hst).
    destruct Hst as [(Hf & (er & ->) & Hne)|[Hl1|Hcl]].
    + exfalso. destruct (Hfin Hf) as [[n Hn]|Hn]; [discriminate|contradiction].
    + destruct (IH _ _ _ w1 rs w2 Hl1 Er Hfin') as (Hnp & b2 & a2 & He2 & Hst2).
      split; [constructor; assumption|]. exists (b1 ++ b2), (a1 ++ a2). split; [constructor; assumption|].
      rewrite !app_assoc. destruct Hst2 as [H|H]; [left|right; exact H].
      eapply Live_weaken; [|exact H]. intros [Htt Hnf]. split; [split; [exact Htt|]|].
      * apply Hnf. left. reflexivity.
      * intros c' Hin. apply Hnf. right. exact Hin.
    + pose proof (run_calls_closed cs w1 Hcl) as [Hs Hall]. pose proof (effects_closed cs w1 Hcl) as He2.
      rewrite Er in *. cbn [fst snd] in *. subst w2.
      split.
      { constructor; [assumption|]. eapply Forall_impl; [|exact Hall]. intros r' [er ->]. discriminate. }
      exists (b1 ++ []), (a1 ++ []). split; [constructor; assumption|]. right. exact Hcl.
Qed.

Lemma NewWriter_live now options faults w f : (nf -> nofault faults) ->
  NewWriter now options faults = (Ok w, f) ->
  Live nf (fst (configured options)) (snd (configured options)) [] [] True w.
Proof.
  intros Hn H. pose proof (NewWriter_rule nf now options faults Hn) as T. rewrite H in T.
  destruct T as [T _]. left. exists []. split; [reflexivity|].
  eexists _, _. split; [exact T|]. rewrite zlen_initial. split; [lia|].
  split; [repeat split|]. split; [constructor|]. split; [reflexivity|]. intros _. split; [reflexivity|]. split; [apply initial_tail|apply initial_bytes].
Qed.

(** The master theorem: a successful Finalize leaves a file with exactly the blocks
    that the earlier calls stored, whatever failed before. *)

Lemma finalize_readable e t blocks A (tight : Prop) w fin now n w' :
  Live nf e t blocks A tight w -> finalizing fin now -> run_call fin w = (Ok n, w') ->
  readable (f_data (w_file w')) now e t blocks A tight /\ w_blockCount w' = zlen blocks
  /\ w_ids w' = fold_left bm_set A bm_new.
Proof.
  intros Hl Hfin Hrun. pose proof (Finalize_live nf e t blocks A tight now w Hl) as T.
  destruct Hfin as [-> | ->]; cbn [run_call] in Hrun.
  - unfold mbind, mret in Hrun. destruct (Finalize now w) as [[a|er|] w1]; try discriminate.
    injection Hrun as _ <-. tauto.
  - unfold FinalizeAndClose in Hrun. unfold mbind at 1 2 in Hrun. unfold mret in Hrun.
    destruct (Finalize now w) as [[a|er|] w1]; try discriminate.
    destruct (closeFile_closes w1) as (_ & C1 & C2 & C3 & _).
    destruct (closeFile w1) as [[u|er|] w2]; try discriminate. injection Hrun as _ <-. cbn [snd] in *.
    rewrite C1, C2, C3. tauto.
Qed.

Theorem history_finalized now0 options faults w0 f0 cs outs w1 fin now1 n w2 :
  NewWriter now0 options faults = (Ok w0, f0) -> Forall typed_call cs -> (nf -> nofault faults) ->
  run_calls cs w0 = (outs, w1) -> finalizes_ok cs w0 ->
  finalizing fin now1 -> run_call fin w1 = (Ok n, w2) ->
  exists blocks A, effects (combine cs outs) blocks A
    /\ readable (f_data (w_file w2)) now1 (fst (configured options)) (snd (configured options)) blocks A
         (True /\ no_finalize cs)
    /\ w_blockCount w2 = zlen blocks /\ w_ids w2 = fold_left bm_set A bm_new.
Proof.
  intros Hnew Hty Hnf Hrun Hok Hfin Hlast.
  pose proof (NewWriter_live now0 options faults w0 f0 Hnf Hnew) as Hl.
  destruct (history_live cs _ _ [] [] True w0 outs w1 Hty Hl Hrun Hok) as (_ & bs & A & He & Hst).
  exists bs, A. split; [exact He|]. destruct Hst as [Hl1|Hc].
  - eapply finalize_readable; [exact Hl1|exact Hfin|exact Hlast].
  - exfalso. destruct (run_call_closed fin w1 Hc) as (er & E & _). rewrite E in Hlast. discriminate.
Qed.

End Run.
