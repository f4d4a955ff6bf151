(** Property C44: reproducible files.  Only statements and concrete cases; proofs are in
    ReproFacts.v and ReproRead.v. *)
From Verif Require Import Machine Encoding FileIO Sroar SroarFacts Writer SimpleWriter Reader Aggregate Parallel Spec SimpleSpec ReproFacts ReproRead Examples PAggregate.

(** C44: the same calls at other times, under the same faults, have the same outcomes and
    leave files that differ at most in bytes 36 to 43. *)
Theorem C44_reproducible : forall {Srr : Sroar} now1 now2 options faults cs1 cs2, Forall2 same_call cs1 cs2 ->
  match NewWriter now1 options faults, NewWriter now2 options faults with
  | (Ok w1, _), (Ok w2, _) =>
      fst (run_calls cs1 w1) = fst (run_calls cs2 w2)
      /\ same_but_time (bytes_of (snd (run_calls cs1 w1))) (bytes_of (snd (run_calls cs2 w2)))
  | (Err e1, f1), (Err e2, f2) => e1 = e2 /\ same_but_time (f_data f1) (f_data f2)
  | (Panic, f1), (Panic, f2) => same_but_time (f_data f1) (f_data f2)
  | _, _ => False
  end.
Proof. exact @reproducible. Qed.
Print Assumptions C44_reproducible.
Theorem C44_simple_reproducible : forall {Srr : Sroar} srt now1 now2 options faults cs1 cs2, Forall2 same_scall cs1 cs2 ->
  match NewSimpleWriter now1 options faults, NewSimpleWriter now2 options faults with
  | Ok sw1, Ok sw2 =>
      fst (run_scalls srt cs1 sw1) = fst (run_scalls srt cs2 sw2)
      /\ same_but_time (file_of (snd (run_scalls srt cs1 sw1))) (file_of (snd (run_scalls srt cs2 sw2)))
  | Err e1, Err e2 => e1 = e2
  | Panic, Panic => True
  | _, _ => False
  end.
Proof. exact @simple_reproducible. Qed.
Print Assumptions C44_simple_reproducible.

(** ... and whatever bytes 36 to 43 of a finalized file are, every answer is the same. *)
Theorem C44_reads_back : forall {Srr : Sroar} options faults h now w data,
  finished_run options faults h now w -> same_but_time (bytes_of w) data ->
  exists r1 r2, NewReader (bytes_of w) = Ok r1 /\ NewReader data = Ok r2
    /\ RVersion r1 = RVersion r2 /\ EncodingType r1 = EncodingType r2 /\ BlockCount r1 = BlockCount r2
    /\ (forall i, GetPairs r1 i = GetPairs r2 i)
    /\ (forall gomaxprocs sched opts, AggregateWithOptions gomaxprocs sched r1 opts = AggregateWithOptions gomaxprocs sched r2 opts)
    /\ (forall hp, fst (fst (GetGlobalIDBitmap r1 hp)) = fst (fst (GetGlobalIDBitmap r2 hp))
          /\ snd (GetGlobalIDBitmap r1 hp) = snd (GetGlobalIDBitmap r2 hp)).
Proof.
  intros Srr options faults h now w data F S. destruct (finished_alike _ _ _ _ _ _ F S) as (r1 & r2 & H1 & H2 & R).
  exists r1, r2. destruct (ra_fields _ _ R) as (E1 & E2 & E3 & _). unfold RVersion, EncodingType, BlockCount. rewrite E1, E2, E3.
  repeat (split; [assumption || reflexivity|]). split; [intros i; symmetry; apply alike_GetPairs, R|].
  split; [intros; symmetry; apply alike_options, R|]. intros hp. destruct (alike_global r1 r2 hp R) as (p & a & b & hp' & -> & -> & _). auto.
Qed.
Print Assumptions C44_reads_back.

(** Two runs at different times, whose files do differ. *)
Definition later_writer : writer := final agg_options [] agg_calls 1700000000.
Lemma agg_same : Forall2 same_call (agg_calls ++ [CFinalize 12]) (agg_calls ++ [CFinalize 1700000000]).
Proof. repeat constructor. Qed.
Example C44_case : finished_run agg_options [] agg_history 12 agg_writer
  /\ bytes_of agg_writer <> bytes_of later_writer /\ same_but_time (bytes_of agg_writer) (bytes_of later_writer).
Proof.
  split; [apply agg_finished|]. split; [vm_compute; discriminate|].
  split; [vm_compute; reflexivity|]. intros i Hi.
  assert (E : firstn 36 (bytes_of agg_writer) = firstn 36 (bytes_of later_writer) /\ skipn 44 (bytes_of agg_writer) = skipn 44 (bytes_of later_writer)).
  { split; vm_compute; reflexivity. }
  revert E. generalize (bytes_of agg_writer) (bytes_of later_writer). intros l1 l2 [E1 E2].
  destruct (Nat.lt_ge_cases i 36) as [H|H].
  - apply (f_equal (fun l => nth_error l i)) in E1. rewrite !nth_error_firstn' in E1. apply Nat.ltb_lt in H. rewrite H in E1. exact E1.
  - apply (f_equal (fun l => nth_error l (i - 44))) in E2. rewrite !nth_error_skipn' in E2. replace (44 + (i - 44))%nat with i in E2 by lia. exact E2.
Qed.
