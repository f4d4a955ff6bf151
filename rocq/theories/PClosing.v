(** Closing shared Readers (C82).  Only statements and concrete cases; proofs are in
    ClosingFacts.v. *)
From Verif Require Import Machine MachineFacts Encoding FileIO Sroar SroarFacts Writer Reader Aggregate Multi Shared SharedMulti
  Spec SimpleSpec MultiSpec SharedSpec SharedMultiSpec ClosingSpec SharedFacts SharedMultiFacts ClosingFacts Examples PAggregate PMulti PShared PSharedMulti.

Section Props.
Context {Srr : Sroar}.

(** Any goroutines make any calls, interleaved in any way: of all the calls that close
    reader [i] - its own Close, and Close of the MultiReaders that have it - at most one
    reports success. *)
Theorem C82_one_close_wins : forall datas rs programs sched ts w,
  Forall2 (fun data r => NewReader data = Ok r) datas rs -> all_together rs programs sched = (ts, w) ->
  forall i, (i < length rs)%nat -> forall n1 k1 c1 a1 n2 k2 c2 a2,
  call_of ts n1 k1 c1 a1 -> covers i c1 -> succeeded a1 ->
  call_of ts n2 k2 c2 a2 -> covers i c2 -> succeeded a2 -> n1 = n2 /\ k1 = k2.
Proof. intros datas rs programs sched ts w HN HT. exact (one_close_wins rs programs sched ts w (proj1 (all_open _ _ HN)) HT). Qed.

(** And an error is never invented: a Close that names its readers once each and reports
    an error does so because the programs have another call that closes one of them. *)
Theorem C82_error_is_a_lost_race : forall datas rs programs sched ts w,
  Forall2 (fun data r => NewReader data = Ok r) datas rs -> all_together rs programs sched = (ts, w) ->
  forall n k c a, call_of ts n k c a -> proper_close rs c -> ~ succeeded a ->
  exists i n' k' p' c', covers i c /\ nth_error programs n' = Some p' /\ nth_error p' k' = Some c' /\ covers i c' /\ (n', k') <> (n, k).
Proof. intros datas rs programs sched ts w HN HT. exact (error_is_a_lost_race rs programs sched ts w (proj1 (all_open _ _ HN)) HT). Qed.

(** Closed is closed: once any call that closes reader [i] has returned, with or without
    an error, a call that begins later never returns pairs of that reader, and no later
    call that closes it reports success. *)
Theorem C82_closed_for_good : forall datas rs programs before_ later_ ts1 w1 ts2 w2,
  Forall2 (fun data r => NewReader data = Ok r) datas rs ->
  all_together rs programs before_ = (ts1, w1) -> all_together rs programs (before_ ++ later_) = (ts2, w2) ->
  forall i, (i < length rs)%nat -> forall n k c a, call_of ts1 n k c a -> covers i c ->
  forall n2 t1, nth_error ts1 n2 = Some t1 -> m_now t1 = None ->
  forall k2 c2 a2, call_of ts2 n2 k2 c2 a2 -> (length (m_log t1) <= k2)%nat ->
  (covers i c2 -> ~ succeeded a2) /\ (forall m p, c2 = OnReader i (OGetPairs m) -> a2 <> OneAnswer (APairs (Ok p))).
Proof.
  intros datas rs programs s1 s2 ts1 w1 ts2 w2 HN H1 H2 i V n k c a C1 C2 n2 t1 T1 T2 k2 c2 a2 C3 L.
  destruct (closed_for_good rs programs s1 s2 ts1 w1 ts2 w2 (proj1 (all_open _ _ HN)) H1 H2 i V n k c a C1 C2 n2 t1 T1 T2 k2 c2 a2 C3 L) as [R1 R2].
  split; [exact R1|]. intros m p E. apply (R2 m E).
Qed.
End Props.
Print Assumptions C82_one_close_wins.
Print Assumptions C82_error_is_a_lost_race.
Print Assumptions C82_closed_for_good.

(** Three goroutines close the two files of C27_case: a MultiReader over both, the first
    reader alone, and the second reader, from which pairs are then read. *)
Definition closing_programs : list (list mop) :=
  [ [MCloseAll both]; [OnReader 0 OClose; OnReader 1 (OGetPairs 0)]; [OnReader 1 (OGetPairs 0); OnReader 1 OClose] ].
Definition success_of (a : manswer) : bool :=
  match a with OneAnswer (AClosed (Ok tt)) | MClosed None | OneAnswer (APairs (Ok _)) => true | _ => false end.
Example C82_case : Forall2 file_with [agg_reader; s_reader] two_files
  /\ Forall (proper_close [agg_reader; s_reader]) [MCloseAll both; OnReader 0 OClose; OnReader 1 OClose]
  /\ mlogs success_of (all_together [agg_reader; s_reader] closing_programs (repeat 0%nat 20 ++ repeat 1%nat 20 ++ repeat 2%nat 20))
     = [[true]; [false; false]; [false; false]]
  /\ mlogs success_of (all_together [agg_reader; s_reader] closing_programs (repeat 2%nat 4 ++ repeat 1%nat 20 ++ repeat 0%nat 20 ++ repeat 2%nat 20))
     = [[false]; [true; true]; [true; false]].
Proof.
  split; [exact two_readers|]. split.
  { repeat (apply Forall_cons); [|cbn; lia|cbn; lia|apply Forall_nil]. split; [repeat constructor; cbn; intros H; intuition discriminate|repeat constructor]. }
  split; vm_compute; reflexivity.
Qed.
