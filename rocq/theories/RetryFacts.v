(** Where a failing Finalize leaves the file offset. *)
From Verif Require Import Machine MachineFacts Encoding EncodingFacts FileIO Sroar Writer Spec FileFacts
  WriterFacts BlockFacts FinalFacts Reader ReaderFacts DecodeFacts HistoryFacts RunFacts ReachFacts WriterProps.

Section Retry.
Context {Srr : Sroar}.

(** ** Appending only *)
Definition at_end (w : writer) : Prop := f_open (w_file w) = true /\ offset_at_end w.
(** [m], started at the end of the file, ends there, whether it fails or not. *)
Definition stays {A} (m : M A) : Prop :=
  forall w, at_end w -> match m w with (Panic, _) => True | (_, w') => at_end w' end.
Lemma stays_ret {A} (a : A) : stays (mret a).
Proof. intros w H. exact H. Qed.
Lemma stays_fail {A} e : stays (@mfail _ A e).
Proof. intros w H. exact H. Qed.
Lemma stays_get : stays mget.
Proof. intros w H. exact H. Qed.
Lemma stays_bind {A B} (m : M A) (k : A -> M B) : stays m -> (forall a, stays (k a)) -> stays (mbind m k).
Proof.
  intros H1 H2 w Hw. unfold mbind. specialize (H1 w Hw). destruct (m w) as [[a|e|] w']; [|exact H1|exact I].
  apply H2. exact H1.
Qed.
Lemma end_write D p bs : p = zlen D -> p + zlen bs = zlen (overwrite D p bs).
Proof. intros ->. rewrite overwrite_end by reflexivity. rewrite zlen_app. reflexivity. Qed.
Lemma stays_write bs : stays (write bs).
Proof.
  intros w [Ho Hp]. destruct w as [[D p o fs] c e t ps ss st ids]. unfold offset_at_end in Hp. cbn in Ho, Hp. subst o.
  unfold write, mfile, file_write. cbn. destruct fs as [|[|k] fs]; cbn; (split; [reflexivity|]); apply end_write; exact Hp.
Qed.
Lemma stays_seek_cur : stays (seek 0 SeekCurrent).
Proof.
  intros w [Ho Hp]. destruct w as [[D p o fs] c e t ps ss st ids]. unfold offset_at_end in Hp. cbn in Ho, Hp. subst o.
  unfold seek, mfile, file_seek. cbn. destruct fs as [|[|k] fs]; cbn.
  - destruct (p <? 0); (split; [reflexivity|exact Hp]).
  - destruct (p <? 0); (split; [reflexivity|exact Hp]).
  - split; [reflexivity|exact Hp].
Qed.
Lemma stays_sync : stays sync.
Proof.
  intros w [Ho Hp]. destruct w as [[D p o fs] c e t ps ss st ids]. unfold offset_at_end in Hp. cbn in Ho, Hp. subst o.
  unfold sync, mfile, file_sync. cbn. destruct fs as [|[|k] fs]; cbn; (split; [reflexivity|exact Hp]).
Qed.
Lemma stays_writeAll l : forall acc, stays (writeAll l acc).
Proof.
  induction l as [|bs l IH]; intros acc; cbn [writeAll]; [apply stays_ret|].
  apply stays_bind; [apply stays_write|]. intros n. apply IH.
Qed.
Lemma stays_footer p s st : stays (writeBlockFooter p s st).
Proof.
  unfold writeBlockFooter. apply stays_bind; [apply stays_seek_cur|]. intros a.
  apply stays_bind; [apply stays_writeAll|]. intros _. apply stays_bind; [apply stays_seek_cur|]. intros b.
  destruct (_ =? _); [apply stays_ret|apply stays_fail].
Qed.
Lemma stays_entries l : stays (writeFooterEntries l).
Proof.
  induction l as [|i l IH]; cbn [writeFooterEntries]; [apply stays_ret|].
  apply stays_bind; [apply stays_get|]. intros w.
  destruct (nth_error (w_positions w) (Z.to_nat i)); [|intros v H; exact I].
  destruct (nth_error (w_sizes w) (Z.to_nat i)); [|intros v H; exact I].
  destruct (nth_error (w_stats w) (Z.to_nat i)); [|intros v H; exact I].
  apply stays_bind; [apply stays_footer|]. intros _. apply IH.
Qed.

(** ** Counting system calls *)
Variable fs0 : list fault.
(** [i] system calls were made, none of which failed. *)
Definition clean (i : nat) (w : writer) : Prop :=
  f_open (w_file w) = true /\ f_faults (w_file w) = skipn i fs0 /\ Forall (eq NoFault) (firstn i fs0)
  /\ 64 <= zlen (f_data (w_file w)).
(** Call number [i] was the first to fail. *)
Definition broken (i : nat) : Prop := exists k, nth_error fs0 i = Some (Fault k) /\ Forall (eq NoFault) (firstn i fs0).

Lemma broken_unique i j : broken i -> broken j -> i = j.
Proof.
  assert (W : forall i j, broken i -> broken j -> ~ (i < j)%nat).
  { intros a b (k & Hk & _) (k' & _ & Hc) Hlt. rewrite Forall_forall in Hc.
    assert (Hin : In (Fault k) (firstn b fs0)).
    { apply nth_error_In with (n := a). rewrite <- Hk. clear - Hlt. revert a fs0 Hlt.
      induction b as [|b IH]; intros a l Hlt; [lia|]. destruct l as [|x l]; [destruct a; reflexivity|].
      destruct a; [reflexivity|]. cbn. apply IH. lia. }
    specialize (Hc _ Hin). discriminate. }
  intros Hi Hj. pose proof (W i j Hi Hj). pose proof (W j i Hj Hi). lia.
Qed.
Lemma broken_header i : broken i -> (header_fault fs0 <-> (5 <= i <= 15)%nat).
Proof.
  intros Hi. split.
  - intros (j & k & Hj & Hn & Hc). assert (i = j) as -> by (apply broken_unique; [exact Hi|exists k; auto]). exact Hj.
  - intros H. destruct Hi as (k & Hn & Hc). exists i, k. auto.
Qed.
Lemma clean_header w : clean 16 w -> ~ header_fault fs0.
Proof.
  intros (_ & _ & Hc & _) (i & k & Hi & Hn & _). rewrite Forall_forall in Hc.
  assert (Hin : In (Fault k) (firstn 16 fs0)).
  { apply nth_error_In with (n := i). rewrite <- Hn. clear - Hi.
    assert (Hlt : (i < 16)%nat) by lia. clear Hi. revert i fs0 Hlt. generalize 16%nat as b.
    induction b as [|b IH]; intros a l Hlt; [lia|]. destruct l as [|x l]; [destruct a; reflexivity|].
    destruct a; [reflexivity|]. cbn. apply IH. lia. }
  specialize (Hc _ Hin). discriminate.
Qed.

Lemma skipn_next {A} i (l : list A) : skipn (S i) l = tl (skipn i l).
Proof. revert l. induction i as [|i IH]; intros [|x l]; try reflexivity. cbn [skipn]. rewrite <- IH. reflexivity. Qed.
Lemma skipn_head {A} i (l : list A) x t : skipn i l = x :: t -> nth_error l i = Some x.
Proof. revert l. induction i as [|i IH]; intros [|y l] H; try discriminate; cbn in *; [congruence|auto]. Qed.
Lemma firstn_next (i : nat) (l : list fault) : Forall (eq NoFault) (firstn i l) ->
  (skipn i l = [] \/ exists t, skipn i l = NoFault :: t) -> Forall (eq NoFault) (firstn (S i) l).
Proof.
  revert l. induction i as [|i IH]; intros [|x l] H1 H2; try constructor.
  - destruct H2 as [H2|[t H2]]; [discriminate|]. cbn in H2. congruence.
  - constructor.
  - cbn in H1. inversion H1. assumption.
  - cbn [firstn] in H1. inversion H1. apply IH; assumption.
Qed.

(** One step of each kind, from call number [i]. *)
Lemma cut_write i p bs : 0 <= p ->
  triple (fun w => clean i w /\ f_pos (w_file w) = p) (write bs)
    (fun _ w => clean (S i) w /\ f_pos (w_file w) = p + zlen bs)
    (fun _ w => broken i /\ f_open (w_file w) = true /\ 64 <= zlen (f_data (w_file w))
                /\ p <= f_pos (w_file w) <= p + zlen bs).
Proof.
  intros Hp0 w [(Ho & Hf & Hc & Hl) Hp]. destruct w as [[D q o fs] c e t ps ss st ids]. cbn in *. subst o q.
  unfold write, mfile, file_write. cbn. destruct fs as [|[|k] fs]; cbn.
  - split; [|reflexivity]. split; [reflexivity|]. cbn [w_file f_open f_faults f_data f_pos write_at set_pos tl set_file]. rewrite skipn_next, <- Hf. split; [reflexivity|].
    split; [apply firstn_next; auto|]. pose proof (overwrite_len_ge D p bs Hp0). lia.
  - split; [|reflexivity]. split; [reflexivity|]. cbn [w_file f_open f_faults f_data f_pos write_at set_pos tl set_file]. rewrite skipn_next, <- Hf. split; [reflexivity|].
    split; [apply firstn_next; eauto|]. pose proof (overwrite_len_ge D p bs Hp0). lia.
  - split; [exists k; split; [eapply skipn_head; symmetry; exact Hf|exact Hc]|]. split; [reflexivity|].
    pose proof (overwrite_len_ge D p (ztake k bs) Hp0). pose proof (zlen_nonneg (ztake k bs)). pose proof (zlen_ztake k bs).
    pose proof (zlen_nonneg bs). lia.
Qed.
Lemma cut_seek i p off wh : 0 <= off + match wh with SeekStart => 0 | SeekCurrent => p | SeekEnd => 0 end ->
  triple (fun w => clean i w /\ f_pos (w_file w) = p) (seek off wh)
    (fun a w => clean (S i) w /\ f_pos (w_file w) = a
       /\ a = off + match wh with SeekStart => 0 | SeekCurrent => p | SeekEnd => zlen (f_data (w_file w)) end)
    (fun _ w => broken i /\ f_open (w_file w) = true /\ 64 <= zlen (f_data (w_file w)) /\ f_pos (w_file w) = p).
Proof.
  intros Hp0 w [(Ho & Hf & Hc & Hl) Hp]. destruct w as [[D q o fs] c e t ps ss st ids]. cbn in *. subst o q.
  set (a := off + match wh with SeekStart => 0 | SeekCurrent => p | SeekEnd => zlen D end).
  assert (Ha : (a <? 0) = false) by (unfold a; destruct wh; lia).
  unfold seek, mfile, file_seek. cbn. fold a. destruct fs as [|[|k] fs]; cbn; rewrite ?Ha; cbn.
  - split; [|auto]. split; [reflexivity|]. cbn [w_file f_open f_faults f_data f_pos write_at set_pos tl set_file]. rewrite skipn_next, <- Hf. split; [reflexivity|].
    split; [apply firstn_next; auto|lia].
  - split; [|auto]. split; [reflexivity|]. cbn [w_file f_open f_faults f_data f_pos write_at set_pos tl set_file]. rewrite skipn_next, <- Hf. split; [reflexivity|].
    split; [apply firstn_next; eauto|lia].
  - split; [exists k; split; [eapply skipn_head; symmetry; exact Hf|exact Hc]|]. split; [reflexivity|]. lia.
Qed.
Lemma cut_writeAll l : forall i p acc, 0 <= p ->
  triple (fun w => clean i w /\ f_pos (w_file w) = p) (writeAll l acc)
    (fun _ w => clean (i + length l) w /\ f_pos (w_file w) = p + zlen (concat l))
    (fun _ w => exists j, (i <= j < i + length l)%nat /\ broken j /\ f_open (w_file w) = true
                /\ 64 <= zlen (f_data (w_file w)) /\ f_pos (w_file w) <= p + zlen (concat l)).
Proof.
  induction l as [|bs l IH]; intros i p acc Hp; cbn [writeAll length concat].
  - apply triple_ret. intros w H. rewrite Nat.add_0_r. change (zlen (@nil Z)) with 0. rewrite Z.add_0_r. exact H.
  - pose proof (zlen_nonneg bs). pose proof (zlen_nonneg (concat l)). rewrite zlen_app.
    eapply triple_bind with (R := fun _ w => clean (S i) w /\ f_pos (w_file w) = p + zlen bs).
    + eapply triple_conseq; [apply (cut_write i p bs Hp)|auto|auto|].
      intros _ w (H1 & H2 & H3 & H4). exists i. split; [lia|]. repeat (split; [assumption|]). lia.
    + intros n. eapply triple_conseq; [apply (IH (S i) (p + zlen bs)); lia|auto| |].
      * intros _ w [H1 H2]. replace (i + S (length l))%nat with (S i + length l)%nat by lia. split; [exact H1|lia].
      * intros _ w (j & Hj & H1 & H2 & H3 & H4). exists j. split; [lia|]. repeat (split; [assumption|]). lia.
Qed.

End Retry.

(** What Finalize leaves when it fails. *)
Theorem finalize_offset {Srr : Sroar} now w e w' :
  f_open (w_file w) = true -> offset_at_end w -> 64 <= zlen (f_data (w_file w)) ->
  Finalize now w = (Err e, w') -> (offset_at_end w' <-> ~ header_fault (f_faults (w_file w))).
Proof.
  intros Ho He Hl HF. set (fs0 := f_faults (w_file w)).
  set (Good := fun w : writer => offset_at_end w /\ ~ header_fault fs0).
  set (X := fun (_ : err) (w' : writer) => offset_at_end w' <-> ~ header_fault fs0).
  (* early calls: the offset stays at the end *)
  assert (C0 : clean fs0 0 w). { split; [exact Ho|]. split; [reflexivity|]. split; [constructor|exact Hl]. }
  assert (XG : forall er v, Good v -> X er v) by (intros er v [H1 H2]; split; auto).
  assert (XL : forall er v i, broken fs0 i -> (i < 5)%nat -> offset_at_end v -> X er v).
  { intros er v i Hb Hi Hv. apply XG. split; [exact Hv|]. rewrite (broken_header fs0 i Hb). lia. }
  assert (XM : forall er v i, broken fs0 i -> (5 <= i <= 15)%nat -> f_pos (w_file v) < zlen (f_data (w_file v)) -> X er v).
  { intros er v i Hb Hi Hv. unfold X, offset_at_end. rewrite (broken_header fs0 i Hb). lia. }
  assert (EW : forall i bs, (i < 4)%nat -> triple (fun v => clean fs0 i v /\ at_end v) (write bs)
     (fun _ v => clean fs0 (S i) v /\ at_end v) X).
  { intros i bs Hi v [Hc Hv]. pose proof (stays_write bs v Hv) as S1.
    assert (P0 : 0 <= f_pos (w_file v)) by (destruct Hv as [_ Hv]; unfold offset_at_end in Hv; rewrite Hv; apply zlen_nonneg).
    pose proof (cut_write fs0 i (f_pos (w_file v)) bs P0 v (conj Hc eq_refl)) as S2.
    destruct (write bs v) as [[a|er|] v']; [|
      |contradiction].
    - destruct S2. auto.
    - destruct S2 as (S2 & _). eapply XL; [exact S2|lia|apply S1]. }
  assert (ES : forall i, (i < 4)%nat -> triple (fun v => clean fs0 i v /\ at_end v) (seek 0 SeekCurrent)
     (fun _ v => clean fs0 (S i) v /\ at_end v) X).
  { intros i Hi v [Hc Hv]. pose proof (stays_seek_cur v Hv) as S1.
    assert (P0 : 0 <= f_pos (w_file v)) by (destruct Hv as [_ Hv]; unfold offset_at_end in Hv; rewrite Hv; apply zlen_nonneg).
    pose proof (cut_seek fs0 i (f_pos (w_file v)) 0 SeekCurrent P0 v (conj Hc eq_refl)) as S2.
    destruct (seek 0 SeekCurrent v) as [[a|er|] v']; [|
      |contradiction].
    - destruct S2. auto.
    - destruct S2 as (S2 & _). eapply XL; [exact S2|lia|apply S1]. }
  change (X e w'). revert HF. unfold Finalize.
  unfold mbind at 1.
  assert (B : triple (fun v => clean fs0 0 v /\ at_end v) writeGlobalIDBitmap (fun _ v => clean fs0 4 v /\ at_end v) X).
  { unfold writeGlobalIDBitmap. eapply triple_bind; [apply ES; lia|]. intros a. cbv beta.
    eapply triple_bind with (R := fun _ v => clean fs0 1 v /\ at_end v); [apply triple_get; intros v Hv; exact Hv|]. intros w0. cbv beta.
    eapply triple_bind; [apply EW; lia|]. intros b. cbv beta.
    eapply triple_bind; [apply EW; lia|]. intros c. cbv beta.
    eapply triple_bind; [apply ES; lia|]. intros d. cbv beta. apply triple_ret. auto. }
  specialize (B w (conj C0 (conj Ho He))). destruct (writeGlobalIDBitmap w) as [[[bo bsz]|er|] w1]; [| |contradiction].
  2:{ intros H. injection H as <- <-. exact B. }
  destruct B as [C4 [Ho1 He1]]. unfold mbind at 1.
  assert (P0 : 0 <= f_pos (w_file w1)) by (unfold offset_at_end in He1; rewrite He1; apply zlen_nonneg).
  pose proof (cut_seek fs0 4 (f_pos (w_file w1)) 0 SeekStart ltac:(lia) w1 (conj C4 eq_refl)) as S4.
  assert (S4' : forall er v, seek 0 SeekStart w1 = (Err er, v) -> at_end v).
  { intros er v. unfold seek, mfile, file_seek. rewrite Ho1. destruct (f_faults (w_file w1)) as [|[|k] fs]; cbn;
    intros H; inversion H; subst; cbn. split; [exact Ho1|exact He1]. }
  destruct (seek 0 SeekStart w1) as [[a2|er|] w2]; [| |contradiction].
  2:{ intros H. injection H as <- <-. destruct S4 as (S4 & _). eapply XL; [exact S4|lia|]. apply (S4' _ _ eq_refl). }
  destruct S4 as (C5 & Hp2 & ->). cbn in Hp2. unfold mbind at 1. unfold mget at 1.
  match goal with |- context [writeAll ?l 0] => set (HF := l) end.
  assert (LF : length HF = 10%nat) by reflexivity.
  assert (LC : zlen (concat HF) = 60).
  { unfold HF, headerFields. cbn [concat]. rewrite !zlen_app, !zlen_le_bytes. reflexivity. }
  unfold mbind at 1.
  pose proof (cut_writeAll fs0 HF 5 0 0 ltac:(lia) w2 (conj C5 Hp2)) as S5. rewrite LF, LC in S5.
  destruct (writeAll HF 0 w2) as [[a3|er|] w3]; [| |contradiction].
  2:{ intros H. injection H as <- <-. destruct S5 as (j & Hj & Hb & _ & H1 & H2). eapply XM; [exact Hb|lia|lia]. }
  destruct S5 as [C15 Hp3]. cbn in C15. unfold mbind at 1.
  pose proof (cut_seek fs0 15 _ 0 SeekEnd ltac:(lia) w3 (conj C15 Hp3)) as S15.
  destruct (seek 0 SeekEnd w3) as [[a4|er|] w4]; [| |contradiction].
  2:{ intros H. injection H as <- <-. destruct S15 as (Hb & _ & H1 & H2). eapply XM; [exact Hb|lia|lia]. }
  destruct S15 as (C16 & Hp4 & Ha4). assert (Hh := clean_header fs0 w4 C16).
  assert (A4 : at_end w4). { split; [apply C16|]. unfold offset_at_end. rewrite Hp4, Ha4. lia. }
  match goal with |- ?m w4 = _ -> _ => assert (T : stays m) end.
  { apply stays_bind; [apply stays_seek_cur|]. intros cp. apply stays_bind.
    { destruct (_ >? _); [apply stays_write|apply stays_ret]. }
    intros _. apply stays_bind; [apply stays_seek_cur|]. intros fsb. apply stays_bind; [apply stays_write|]. intros _.
    apply stays_bind.
    { destruct (_ >? _); [|apply stays_ret]. destruct (negb _); [apply stays_fail|apply stays_entries]. }
    intros _. apply stays_bind; [apply stays_seek_cur|]. intros fe.
    apply stays_bind; [apply stays_write|]. intros _. apply stays_bind; [apply stays_write|]. intros _.
    apply stays_bind; [apply stays_write|]. intros _. apply stays_bind; [apply stays_seek_cur|]. intros me.
    destruct (negb _); [apply stays_fail|]. destruct (negb _); [apply stays_fail|apply stays_sync]. }
  specialize (T w4 A4). intros HR. rewrite HR in T. apply XG. split; [apply T|exact Hh].
Qed.

Section Again.
Context {Srr : Sroar}.

Lemma run_Finalize_err now w e w1 : Finalize now w = (Err e, w1) -> run_call (CFinalize now) w = (Err e, w1).
Proof. intros H. cbn [run_call]. unfold mbind, mret. rewrite H. reflexivity. Qed.

Lemma finalizes_ok_app cs1 cs2 : forall w, finalizes_ok cs1 w -> finalizes_ok cs2 (snd (run_calls cs1 w)) ->
  finalizes_ok (cs1 ++ cs2) w.
Proof.
  induction cs1 as [|c cs1 IH]; intros w H1 H2; [exact H2|]. cbn [app finalizes_ok run_calls] in *.
  destruct H1 as [H1 H3]. split; [exact H1|]. apply IH; [exact H3|].
  destruct (run_call c w) as [r w1]. cbn [snd] in *. destruct (run_calls cs1 w1) as [rs w2]. exact H2.
Qed.

Theorem offset_after_failure options faults h w now e w1 :
  running options faults h w -> no_torn_block h -> f_open (w_file w) = true -> Finalize now w = (Err e, w1) ->
  (offset_at_end w1 <-> ~ header_fault (f_faults (w_file w))).
Proof.
  intros Hrun Hnt Ho HF. destruct (running_good options faults h w Hrun (or_introl Hnt)) as [(L & A & _ & Hg)|Hc].
  - destruct Hg as (wg & D & (fs & -> & _) & HD & _). eapply finalize_offset; [reflexivity|reflexivity|exact HD|exact HF].
  - unfold closed in Hc. congruence.
Qed.

Theorem retry_run options faults h w now1 e w1 :
  running options faults h w -> no_torn_block h -> f_open (w_file w) = true ->
  Finalize now1 w = (Err e, w1) -> ~ header_fault (f_faults (w_file w)) ->
  running options faults (h ++ [(CFinalize now1, Err e)]) w1.
Proof.
  intros Hrun Hnt Ho HF Hh. pose proof (proj2 (offset_after_failure _ _ _ _ _ _ _ Hrun Hnt Ho HF) Hh) as Hend.
  pose proof (run_Finalize_err _ _ _ _ HF) as HF'.
  destruct Hrun as [now0 w0 f0 cs outs Hnew Hopt Hty Hr -> Hok].
  apply running_intro with (now0 := now0) (w0 := w0) (f0 := f0) (cs := cs ++ [CFinalize now1]) (outs := outs ++ [Err e]);
    [exact Hnew|exact Hopt| | | |].
  - apply Forall_app. split; [exact Hty|]. constructor; [|constructor]. exact I.
  - rewrite run_calls_app, Hr. cbn [run_calls]. rewrite HF'. reflexivity.
  - rewrite combine_app' by (symmetry; eapply run_calls_length; exact Hr). reflexivity.
  - apply finalizes_ok_app; [exact Hok|]. rewrite Hr. cbn [snd finalizes_ok]. split; [|exact I].
    intros _. right. rewrite HF'. exact Hend.
Qed.

Lemma running_finished options faults h w now w' : running options faults h w ->
  Finalize now w = (Ok tt, w') -> fits w' (bytes_of w') -> finished_run options faults h now w'.
Proof.
  intros [now0 w0 f0 cs outs Hnew Hopt Hty Hr -> Hok] HF Hfit.
  econstructor; [exact Hnew|exact Hopt|exact Hty|exact Hr|reflexivity|exact Hok|left; reflexivity| |exact Hfit].
  cbn [run_call]. unfold mbind, mret. rewrite HF. reflexivity.
Qed.

Theorem retry_reads_back options faults h w now1 e w1 cs outs w2 now2 w3 :
  running options faults h w -> no_torn_block h -> f_open (w_file w) = true -> faithful (encoding_of options) ->
  Finalize now1 w = (Err e, w1) -> ~ header_fault (f_faults (w_file w)) ->
  Forall typed_call cs -> run_calls cs w1 = (outs, w2) -> (forall c, In c cs -> is_finalize c = false) ->
  Finalize now2 w2 = (Ok tt, w3) -> fits w3 (bytes_of w3) ->
  exists r blocks, stored (h ++ combine cs outs) blocks /\ NewReader (bytes_of w3) = Ok r /\ BlockCount r = zlen blocks
    /\ forall i, is_u64 i ->
         GetPairs r i = match nth_error blocks (Z.to_nat i) with
                        | Some b => Ok b
                        | None => Err ErrIndex
                        end.
Proof.
  intros Hrun Hnt Ho He HF Hh Hcs Hr2 Hnf HF2 Hfit.
  pose proof (retry_run _ _ _ _ _ _ _ Hrun Hnt Ho HF Hh) as R1.
  assert (R2 : running options faults ((h ++ [(CFinalize now1, Err e)]) ++ combine cs outs) w2).
  { destruct R1 as [now0 w0 f0 cs0 outs0 Hnew Hopt Hty Hr Hh' Hok]. rewrite Hh'.
    apply running_intro with (now0 := now0) (w0 := w0) (f0 := f0) (cs := cs0 ++ cs) (outs := outs0 ++ outs);
      [exact Hnew|exact Hopt| | | |].
    - apply Forall_app. split; [exact Hty|exact Hcs].
    - rewrite run_calls_app, Hr, Hr2. reflexivity.
    - rewrite combine_app' by (symmetry; eapply run_calls_length; exact Hr). reflexivity.
    - apply finalizes_ok_app; [exact Hok|]. rewrite Hr. cbn [snd]. clear - Hnf. revert w1.
      induction cs as [|c cs IH]; intros w1; [exact I|]. cbn [finalizes_ok]. split.
      + rewrite (Hnf c (or_introl eq_refl)). discriminate.
      + apply IH. intros c' Hc. apply Hnf. right. exact Hc. }
  pose proof (running_finished _ _ _ _ _ _ R2 HF2 Hfit) as Hfin.
  destruct (blocks_read_back _ _ _ _ _ Hfin He) as (r & blocks & Hs & HR & HC & HG).
  exists r, blocks. split; [|auto].
  rewrite <- app_assoc in Hs. destruct (stored_split _ _ _ Hs) as (b1 & b2 & -> & S1 & S2). cbn [app] in S2.
  inversion S2 as [|c' r' h' m b2' Hm Hb]; subst. inversion Hm; subst. cbn [app].
  clear - S1 Hb. induction S1 as [|c r h x y Hx _ IH]; [exact Hb|]. rewrite <- app_assoc. cbn [app]. constructor; assumption.
Qed.
End Again.
