(** Concrete runs, by computation with the list-based bitmap: used to show that the
    hypotheses of the property theorems are met and for counterexamples. *)
From Verif Require Import Machine MachineFacts Encoding FileIO Sroar SroarFacts Writer SimpleWriter Reader Spec.

Definition u64b (x : Z) : bool := (0 <=? x) && (x <? two64).
Definition u32b (x : Z) : bool := (0 <=? x) && (x <? two32).
Definition i64b (x : Z) : bool := (- two63 <=? x) && (x <? two63).
Definition typed_blockb (ids vals : list Z) : bool :=
  forallb u64b ids && forallb i64b vals && (zlen ids <=? max_items) && (zlen vals <=? max_items).
Definition typed_callb (c : wcall) : bool :=
  match c with
  | CWriteBlock ids vals | CEstimate ids vals => typed_blockb ids vals
  | _ => true
  end.
Definition typed_optionb (o : writerOption) : bool :=
  match o with WithEncoding e => u32b e | WithBlockSize s => u32b s end.
Definition is_ok {A} (r : res A) : bool := match r with Ok _ => true | _ => false end.

Lemma forallb_Forall' {A} (f : A -> bool) (P : A -> Prop) l :
  (forall x, f x = true -> P x) -> forallb f l = true -> Forall P l.
Proof. intros H. induction l as [|x l IH]; cbn; [constructor|]. rewrite andb_true_iff. intros [H1 H2]. constructor; auto. Qed.
Lemma typed_blockb_sound ids vals : typed_blockb ids vals = true -> typed_block ids vals.
Proof.
  unfold typed_blockb. rewrite !andb_true_iff. intros [[[H1 H2] H3] H4]. repeat split; try lia.
  - eapply forallb_Forall'; [|exact H1]. unfold u64b, is_u64. intros; lia.
  - eapply forallb_Forall'; [|exact H2]. unfold i64b, is_i64. intros; lia.
Qed.
Lemma typed_callb_sound c : typed_callb c = true -> typed_call c.
Proof. destruct c; cbn; try exact (fun _ => I); apply typed_blockb_sound. Qed.
Lemma typed_optionb_sound o : typed_optionb o = true -> typed_option o.
Proof. destruct o; cbn; unfold u32b, is_u32; lia. Qed.

Section Runs.
Context {Srr : Sroar}.

Definition dummy : writer := mkWriter (mkFile [] 0 false []) 0 0 0 [] [] [] bm_new.
(** The writer created at time 0. *)
Definition new_w (options : list writerOption) (faults : list fault) : writer :=
  match fst (NewWriter 0 options faults) with Ok w => w | _ => dummy end.
(** The history of a list of calls on it, and the writer afterwards. *)
Definition hist (options : list writerOption) (faults : list fault) (cs : list wcall) : list (wcall * res Z) :=
  combine cs (fst (run_calls cs (new_w options faults))).
Definition state (options : list writerOption) (faults : list fault) (cs : list wcall) : writer :=
  snd (run_calls cs (new_w options faults)).
Definition final (options : list writerOption) (faults : list fault) (cs : list wcall) (now : Z) : writer :=
  snd (run_call (CFinalize now) (state options faults cs)).

Definition check_running (options : list writerOption) (faults : list fault) (cs : list wcall) : bool :=
  is_ok (fst (NewWriter 0 options faults)) && forallb typed_optionb options && forallb typed_callb cs
  && forallb (fun '(c, r) => negb (is_finalize c) || is_ok r) (hist options faults cs).
Definition check_finished (options : list writerOption) (faults : list fault) (cs : list wcall) (now : Z) : bool :=
  let w0 := new_w options faults in
  let '(outs, w1) := run_calls cs w0 in
  let '(r, w) := run_call (CFinalize now) w1 in
  is_ok (fst (NewWriter 0 options faults)) && forallb typed_optionb options && forallb typed_callb cs
  && forallb (fun '(c, r) => negb (is_finalize c) || is_ok r) (combine cs outs)
  && is_ok r
  && (zlen (bytes_of w) <? two63)
  && (56 * w_blockCount w <? two32)
  && (zlen (bm_ser (w_ids w)) <? two32).

Lemma all_ok_finalizes cs : forall w,
  forallb (fun '(c, r) => negb (is_finalize c) || is_ok r) (combine cs (fst (run_calls cs w))) = true -> finalizes_ok cs w.
Proof.
  induction cs as [|c cs IH]; intros w H; [exact I|]. cbn [run_calls finalizes_ok] in *.
  destruct (run_call c w) as [r w1]. specialize (IH w1). destruct (run_calls cs w1) as [rs w2]. cbn [fst snd combine forallb] in *.
  apply andb_true_iff in H. destruct H as [H1 H2]. split; [|apply IH; exact H2].
  intros Hf. rewrite Hf in H1. destruct r; try discriminate. left. eauto.
Qed.
Lemma check_running_sound options faults cs :
  check_running options faults cs = true -> running options faults (hist options faults cs) (state options faults cs).
Proof.
  unfold check_running, hist, state. rewrite !andb_true_iff. intros [[[H1 H2] H3] H4].
  unfold new_w in *. destruct (NewWriter 0 options faults) as [[w0|e|] f0] eqn:E; try discriminate. cbn [fst] in *.
  destruct (run_calls cs w0) as [outs w1] eqn:Er. cbn [fst snd] in *.
  econstructor; [exact E|eapply forallb_Forall'; [apply typed_optionb_sound|exact H2]|
    eapply forallb_Forall'; [apply typed_callb_sound|exact H3]|exact Er|reflexivity|].
  apply all_ok_finalizes. rewrite Er. exact H4.
Qed.
Lemma check_finished_sound options faults cs now :
  check_finished options faults cs now = true ->
  finished_run options faults (hist options faults cs) now (final options faults cs now).
Proof.
  unfold check_finished. intros HC.
  assert (H0 : check_running options faults cs = true /\ is_ok (fst (run_call (CFinalize now) (state options faults cs))) = true
    /\ (zlen (bytes_of (final options faults cs now)) <? two63) = true
    /\ (56 * w_blockCount (final options faults cs now) <? two32) = true
    /\ (zlen (bm_ser (w_ids (final options faults cs now))) <? two32) = true).
  { unfold check_running, final, state, hist. destruct (run_calls cs (new_w options faults)) as [outs w1]. cbn [fst snd].
    destruct (run_call (CFinalize now) w1) as [r w]. cbn [fst snd]. rewrite !andb_true_iff in *. tauto. }
  clear HC. destruct H0 as (H0 & H1 & H2 & H3 & H4).
  pose proof (check_running_sound options faults cs H0) as R.
  destruct R as [now0 w0 f0 cs' outs Hnew Hopt Hty Hrun Hh Hok].
  unfold check_running in H0. rewrite !andb_true_iff in H0. destruct H0 as [[[G1 G2] G3] G4].
  assert (E : exists w0 f0, NewWriter 0 options faults = (Ok w0, f0) /\ new_w options faults = w0).
  { unfold new_w. destruct (NewWriter 0 options faults) as [[x|e|] y]; try discriminate. eauto. }
  destruct E as (v0 & g0 & E1 & E2). unfold final, state in *.
  destruct (run_call (CFinalize now) (snd (run_calls cs (new_w options faults)))) as [[n|e|] w] eqn:Ef; try discriminate.
  cbn [snd] in *.
  eapply finished with (now0 := 0) (cs := cs) (fin := CFinalize now) (outs := fst (run_calls cs (new_w options faults)))
    (w1 := snd (run_calls cs (new_w options faults))) (n := n) (w0 := v0) (f0 := g0);
    [exact E1|exact Hopt| |rewrite E2; apply surjective_pairing|reflexivity|rewrite <- E2; apply all_ok_finalizes; exact G4|left; reflexivity|exact Ef|].
  - eapply forallb_Forall'; [apply typed_callb_sound|exact G3].
  - constructor; lia.
Qed.
End Runs.

(** A fault stream in which only system call number [n] (from 0) fails, after [k] bytes. *)
Definition fault_at (n : nat) (k : Z) : list fault := repeat NoFault n ++ [Fault k].
