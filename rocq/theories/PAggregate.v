(** Properties of aggregation (C19-C26).  Only statements and concrete cases; proofs
    are in AggProps.v. *)
From Coq Require Import Sorting.Sorted Floats.SpecFloat.
From Verif Require Import Machine Encoding FileIO Sroar SroarFacts Writer Reader Aggregate Parallel Spec AggProps Examples.

(** The concrete case used below: two blocks, one of them unsorted, varint-delta coded. *)
Definition agg_options : list writerOption := [WithEncoding EncodingVarIntBoth].
Definition agg_calls : list wcall := [ CWriteBlock [5; 2] [10; -3]; CWriteBlock [7] [4] ].
Definition agg_blocks : list block := [([5; 2], [10; -3]); ([7], [4])].
Definition agg_history : list (wcall * res Z) := hist agg_options [] agg_calls.
Definition agg_writer : writer := final agg_options [] agg_calls 12.
Definition no_reader : reader := mkReader [] false (mkHeader 0 0 0 0 0 0 0 0 0 0) (mkMeta 0 0 0) [] None false.
Definition opened (x : res reader) : reader := match x with Ok r => r | _ => no_reader end.
Lemma opened_ok x : is_ok x = true -> x = Ok (opened x).
Proof. destruct x; [reflexivity|discriminate|discriminate]. Qed.
Definition agg_reader : reader := opened (NewReader (bytes_of agg_writer)).
Lemma agg_finished : finished_run agg_options [] agg_history 12 agg_writer /\ NewReader (bytes_of agg_writer) = Ok agg_reader.
Proof.
  split.
  - unfold agg_history, agg_writer. apply check_finished_sound. vm_compute. reflexivity.
  - unfold agg_reader. apply opened_ok. vm_compute. reflexivity.
Qed.
Lemma agg_stored : stored agg_history agg_blocks.
Proof.
  assert (H : map snd agg_history = [Ok 0; Ok 0]) by (vm_compute; reflexivity).
  unfold agg_history, hist in *. revert H. generalize (fst (run_calls agg_calls (new_w agg_options []))). intros outs H. unfold agg_calls in *.
  destruct outs as [|o1 outs]; [discriminate|]. destruct outs as [|o2 outs]; [discriminate|]. cbn [combine map snd] in *. injection H as -> ->.
  apply (stored_cons _ _ _ [_] [_]); [constructor|]. apply (stored_cons _ _ _ [_] []); [constructor|]. constructor.
Qed.
Lemma agg_faithful : faithful (encoding_of agg_options).
Proof. vm_compute. tauto. Qed.

(** C19: Aggregate over any finalized file, in any encoding, is the aggregate of all
    the values that were stored. *)
Theorem C19_footer_exact : forall {Srr : Sroar} options faults h now w,
  finished_run options faults h now w ->
  exists r blocks, NewReader (bytes_of w) = Ok r /\ stored h blocks
    /\ (Forall no_min_stat blocks ->
        exists res, Aggregate r = Ok res /\ aggregate_of (map snd (all_pairs blocks)) res).
Proof. exact @footer_exact. Qed.
Print Assumptions C19_footer_exact.
Example C19_case : finished_run agg_options [] agg_history 12 agg_writer /\ stored agg_history agg_blocks
  /\ Forall no_min_stat agg_blocks
  /\ exists avg, Aggregate agg_reader = Ok (mkAgg 3 (-3) 10 11 avg).
Proof.
  split; [apply agg_finished|]. split; [exact agg_stored|]. split.
  - repeat constructor; cbn; intros H; repeat destruct H as [H|H]; try discriminate; try contradiction.
  - eexists. vm_compute. reflexivity.
Qed.

(** C20: the scan that ignores the footer is always exact, and Aggregate agrees with
    it when no statistic of a block is the minimum int64 ... *)
Theorem C20_footer_scan_agree : forall {Srr : Sroar} {Laws : SroarLaws Srr} options faults h now w,
  finished_run options faults h now w -> faithful (encoding_of options) ->
  exists r blocks, NewReader (bytes_of w) = Ok r /\ contents h r blocks
    /\ (Forall no_min_stat blocks -> Aggregate r = aggregateSequential r (mkOpts true None None 0))
    /\ exists res, aggregateSequential r (mkOpts true None None 0) = Ok res
         /\ aggregate_of (map snd (all_pairs blocks)) res.
Proof. exact @footer_scan_agree. Qed.
Print Assumptions C20_footer_scan_agree.
(** ... and otherwise need not: with one value, the minimum int64, and with the
    delta-ID encoding, the two answers differ. *)
Theorem C20_min_value_refuted : exists options h now w r,
  finished_run options [] h now w /\ faithful (encoding_of options) /\ NewReader (bytes_of w) = Ok r
  /\ Aggregate r <> aggregateSequential r (mkOpts true None None 0).
Proof.
  exists [], (hist [] [] [CWriteBlock [1] [min_int64]]), 5, (final [] [] [CWriteBlock [1] [min_int64]] 5),
    (opened (NewReader (bytes_of (final [] [] [CWriteBlock [1] [min_int64]] 5)))).
  split; [apply check_finished_sound; vm_compute; reflexivity|]. split; [vm_compute; tauto|].
  split; [apply opened_ok; vm_compute; reflexivity|]. vm_compute. discriminate.
Qed.
Print Assumptions C20_min_value_refuted.
Theorem C20_delta_id_refuted : exists options h now w r,
  finished_run options [] h now w /\ encoding_of options = EncodingDeltaID /\ NewReader (bytes_of w) = Ok r
  /\ Aggregate r <> aggregateSequential r (mkOpts true None None 0).
Proof.
  exists [WithEncoding 1], (hist [WithEncoding 1] [] [CWriteBlock [1; 2] [5; 5]]), 5, (final [WithEncoding 1] [] [CWriteBlock [1; 2] [5; 5]] 5),
    (opened (NewReader (bytes_of (final [WithEncoding 1] [] [CWriteBlock [1; 2] [5; 5]] 5)))).
  split; [apply check_finished_sound; vm_compute; reflexivity|]. split; [vm_compute; tauto|].
  split; [apply opened_ok; vm_compute; reflexivity|]. vm_compute. discriminate.
Qed.
Print Assumptions C20_delta_id_refuted.

(** C21: with an allow set, a deny set or both, exactly the pairs whose ID passes are
    aggregated. *)
Theorem C21_filtered_exact : forall {Srr : Sroar} {Laws : SroarLaws Srr} options faults h now w,
  finished_run options faults h now w -> faithful (encoding_of options) ->
  exists r blocks, NewReader (bytes_of w) = Ok r /\ contents h r blocks
    /\ forall skip allow deny, allow <> None \/ deny <> None ->
         exists res, aggregateSequential r (mkOpts skip allow deny 0) = Ok res
           /\ aggregate_of (chosen allow deny blocks) res.
Proof. exact @filtered_exact. Qed.
Print Assumptions C21_filtered_exact.
Example C21_case : finished_run agg_options [] agg_history 12 agg_writer /\ faithful (encoding_of agg_options)
  /\ chosen (Some [2; 6; 7]) (Some [7]) agg_blocks = [-3]
  /\ exists avg, aggregateSequential agg_reader (mkOpts false (Some [2; 6; 7]) (Some [7]) 0) = Ok (mkAgg 1 (-3) (-3) (-3) avg).
Proof.
  split; [apply agg_finished|]. split; [exact agg_faithful|]. split; [vm_compute; reflexivity|].
  eexists. vm_compute. reflexivity.
Qed.

(** C22: FilteredBlockIterator lists, in ascending order, every block that holds an ID
    that passes, and with a non-empty allow set only blocks whose ID range meets the
    allow set's. *)
Theorem C22_pruning : forall {Srr : Sroar} {Laws : SroarLaws Srr} options faults h now w,
  finished_run options faults h now w ->
  exists r blocks, NewReader (bytes_of w) = Ok r /\ stored h blocks
    /\ forall allow deny, exists l, FilteredBlockIterator r allow deny = Ok l
         /\ StronglySorted Z.lt l
         /\ (forall i, In i l -> 0 <= i < zlen blocks)
         /\ (forall i b id, nth_error blocks i = Some b -> In id (fst b) -> passes allow deny id = true -> In (Z.of_nat i) l)
         /\ (forall a, allow = Some a -> bm_nonempty a -> forall i, In i l ->
               exists b, nth_error blocks (Z.to_nat i) = Some b
                 /\ (exists id y, In id (fst b) /\ is_u64 y /\ bm_contains a y = true /\ y <= id)
                 /\ (exists id y, In id (fst b) /\ is_u64 y /\ bm_contains a y = true /\ id <= y)).
Proof.
  intros Srr Laws options faults h now w H. destruct (pruning options faults h now w H) as (r & blocks & HR & HS & HP).
  exists r, blocks. split; [exact HR|]. split; [exact HS|]. intros allow deny. exists (matchingBlocks r allow deny).
  destruct (AggFacts.finished_indexed options faults h now w H) as (r2 & bl & HR2 & _ & HI & _). rewrite HR in HR2. injection HR2 as <-.
  split; [apply (AggFacts.iterator_ok r bl); exact HI|apply HP].
Qed.
Print Assumptions C22_pruning.
Example C22_case : finished_run agg_options [] agg_history 12 agg_writer
  /\ FilteredBlockIterator agg_reader (Some [3; 4]) None = Ok [0] /\ FilteredBlockIterator agg_reader (Some [6]) None = Ok []
  /\ FilteredBlockIterator agg_reader (Some [6; 9]) None = Ok [1] /\ FilteredBlockIterator agg_reader None (Some [6]) = Ok [0; 1].
Proof. split; [apply agg_finished|]. vm_compute. tauto. Qed.

(** C23: filters add up, are monotone, and matter only through their members. *)
Theorem C23_filter_algebra : forall {Srr : Sroar} {Laws : SroarLaws Srr} options faults h now w,
  finished_run options faults h now w -> faithful (encoding_of options) ->
  exists r, NewReader (bytes_of w) = Ok r
    /\ (forall skip deny a1 a2 a res1 res2 res,
          (forall y, is_u64 y -> bm_contains a y = bm_contains a1 y || bm_contains a2 y) ->
          (forall y, is_u64 y -> bm_contains a1 y && bm_contains a2 y = false) ->
          aggregateSequential r (mkOpts skip (Some a1) deny 0) = Ok res1 ->
          aggregateSequential r (mkOpts skip (Some a2) deny 0) = Ok res2 ->
          aggregateSequential r (mkOpts skip (Some a) deny 0) = Ok res ->
          a_count res = a_count res1 + a_count res2
          /\ a_sum res = i64 (a_sum res1 + a_sum res2)
          /\ (0 < a_count res1 -> 0 < a_count res2 ->
              a_min res = Z.min (a_min res1) (a_min res2) /\ a_max res = Z.max (a_max res1) (a_max res2))
          /\ (0 < a_count res1 -> a_count res2 = 0 -> a_min res = a_min res1 /\ a_max res = a_max res1)
          /\ (a_count res1 = 0 -> 0 < a_count res2 -> a_min res = a_min res2 /\ a_max res = a_max res2))
    /\ (forall skip deny a1 a2 res1 res2,
          (forall y, is_u64 y -> bm_contains a1 y = true -> bm_contains a2 y = true) ->
          aggregateSequential r (mkOpts skip (Some a1) deny 0) = Ok res1 ->
          aggregateSequential r (mkOpts skip (Some a2) deny 0) = Ok res2 ->
          a_count res1 <= a_count res2)
    /\ (forall skip a a' d d', bm_equiv a a' -> bm_equiv d d' ->
          aggregateSequential r (mkOpts skip (Some a) None 0) = aggregateSequential r (mkOpts skip (Some a') None 0)
          /\ aggregateSequential r (mkOpts skip None (Some d) 0) = aggregateSequential r (mkOpts skip None (Some d') 0)
          /\ aggregateSequential r (mkOpts skip (Some a) (Some d) 0) = aggregateSequential r (mkOpts skip (Some a') (Some d') 0)).
Proof. exact @filter_algebra. Qed.
Print Assumptions C23_filter_algebra.
Example C23_case : finished_run agg_options [] agg_history 12 agg_writer /\ faithful (encoding_of agg_options)
  /\ (forall y, bm_contains [2; 7] y = bm_contains [2] y || bm_contains [7] y)
  /\ (forall y, bm_contains [2] y && bm_contains [7] y = false)
  /\ (exists avg1 avg2 avg, aggregateSequential agg_reader (mkOpts true (Some [2]) None 0) = Ok (mkAgg 1 (-3) (-3) (-3) avg1)
      /\ aggregateSequential agg_reader (mkOpts true (Some [7]) None 0) = Ok (mkAgg 1 4 4 4 avg2)
      /\ aggregateSequential agg_reader (mkOpts true (Some [2; 7]) None 0) = Ok (mkAgg 2 (-3) 4 1 avg))
  /\ bm_equiv [2; 7] [2; 7; 7].
Proof.
  assert (E2 : u64 2 = 2) by reflexivity. assert (E7 : u64 7 = 7) by reflexivity.
  split; [apply agg_finished|]. split; [exact agg_faithful|]. cbn [bm_contains list_sroar existsb bm_equiv]. rewrite E2, E7.
  split; [intros y; destruct (2 =? y), (7 =? y); reflexivity|].
  split; [intros y; destruct (Z.eqb_spec 2 y), (Z.eqb_spec 7 y); subst; try reflexivity; discriminate|].
  split; [do 3 eexists; split; [vm_compute; reflexivity|]; split; [vm_compute; reflexivity|]; vm_compute; reflexivity|].
  intros y _. cbn [bm_contains list_sroar existsb]. rewrite E2, E7. destruct (2 =? y), (7 =? y); reflexivity.
Qed.

(** C24: whatever the number of workers, the options, the encoding and the schedule,
    a parallel aggregation that has returned has returned what the sequential one
    returns; and it has not panicked. *)
Theorem C24_parallel_is_sequential : forall {Srr : Sroar} options faults h now w,
  finished_run options faults h now w ->
  exists r, NewReader (bytes_of w) = Ok r
    /\ forall gomaxprocs sched opts x, AggregateWithOptions gomaxprocs sched r opts = Some x ->
         AggregateWithOptions gomaxprocs [] r (sequential opts) = Some x /\ x <> Panic.
Proof. exact @parallel_same. Qed.
Print Assumptions C24_parallel_is_sequential.
Example C24_case : finished_run agg_options [] agg_history 12 agg_writer
  /\ exists avg, AggregateWithOptions 4 [0; 0; 1; 0; 0; 2; 0; 2; 1; 2; 1; 2; 2; 1; 1; 0; 0; 0; 0; 0]%nat agg_reader (mkOpts true None None (-1))
                 = Some (Ok (mkAgg 3 (-3) 10 11 avg)).
Proof. split; [apply agg_finished|]. eexists. vm_compute. reflexivity. Qed.

(** C25: a call either returns without starting workers, or runs workers over exactly
    the blocks it needs, each block given to exactly one worker; then no goroutine
    panics, some goroutine can always move until the call returns, a worker that wants
    to send its result never waits, and no schedule has more than a fixed number of
    steps. *)
Theorem C25_parallel_terminates : forall {Srr : Sroar} options faults h now w,
  finished_run options faults h now w ->
  exists r, NewReader (bytes_of w) = Ok r
    /\ forall gomaxprocs opts,
      (exists x, forall sched, AggregateWithOptions gomaxprocs sched r opts = Some x)
      \/ exists blk n, let idx := blocks_needed r opts in
           (forall sched, AggregateWithOptions gomaxprocs sched r opts = outcome (run blk idx n sched (pinit n)))
           /\ (forall ts s, execution blk idx n (pinit n) ts s ->
                 p_crashed s = false
                 /\ (outcome s = None -> exists t s', step blk idx n s t = Some s')
                 /\ (forall w a, nth_error (p_workers s) w = Some (WSend a) -> exists s', step blk idx n s (S w) = Some s'))
           /\ (exists bound, forall ts s, execution blk idx n (pinit n) ts s -> (length ts <= bound)%nat)
           /\ concat (map (workerBlocks idx n) (seq 0 n)) = idx /\ NoDup idx.
Proof. exact @parallel_terminates. Qed.
Print Assumptions C25_parallel_terminates.
Example C25_case : finished_run agg_options [] agg_history 12 agg_writer
  /\ AggregateWithOptions 4 [] agg_reader (mkOpts true None None (-1)) = None
  /\ AggregateWithOptions 4 [] agg_reader (mkOpts false None None 5) = None
  /\ AggregateWithOptions 1 [] agg_reader (mkOpts true None None (-1)) <> None.
Proof. split; [apply agg_finished|]. vm_compute. repeat split; discriminate. Qed.

(** C26: an aggregation that selects nothing has Count, Sum and Avg zero on every
    path; its Min and Max are both 0 or both the sentinels ... *)
Theorem C26_empty_results : forall {Srr : Sroar} {Laws : SroarLaws Srr} options faults h now w,
  finished_run options faults h now w -> faithful (encoding_of options) ->
  exists r blocks, NewReader (bytes_of w) = Ok r /\ contents h r blocks
    /\ forall gomaxprocs sched opts x, chosen (o_filter opts) (o_deny opts) blocks = [] ->
         AggregateWithOptions gomaxprocs sched r opts = Some x ->
         exists res, x = Ok res /\ a_count res = 0 /\ a_sum res = 0 /\ a_avg res = S754_zero false
           /\ ((a_min res = 0 /\ a_max res = 0) \/ (a_min res = max_int64 /\ a_max res = min_int64)).
Proof. exact @empty_results. Qed.
Print Assumptions C26_empty_results.
(** ... and both happen, in the same file. *)
Theorem C26_min_max_refuted : exists options h now w r,
  finished_run options [] h now w /\ faithful (encoding_of options) /\ NewReader (bytes_of w) = Ok r
  /\ (exists res, aggregateSequential r (mkOpts false (Some [8]) None 0) = Ok res /\ a_count res = 0 /\ a_min res = 0 /\ a_max res = 0)
  /\ (exists res, aggregateSequential r (mkOpts false (Some [3]) None 0) = Ok res /\ a_count res = 0 /\ a_min res = max_int64 /\ a_max res = min_int64).
Proof.
  exists agg_options, agg_history, 12, agg_writer, agg_reader. destruct agg_finished as [H1 H2].
  split; [exact H1|]. split; [exact agg_faithful|]. split; [exact H2|].
  split; eexists; (split; [vm_compute; reflexivity|vm_compute; tauto]).
Qed.
Print Assumptions C26_min_max_refuted.
