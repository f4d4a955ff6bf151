(** Reading when reads fail (C61).  Only statements and concrete cases; proofs are in
    ReadFaultFacts.v. *)
From Coq Require Import Floats.SpecFloat.
From Verif Require Import Machine Encoding FileIO Sroar SroarFacts Writer SimpleWriter Reader Aggregate Parallel Multi Spec SimpleSpec MultiSpec
  AggFacts ReadFault ReadFaultSpec ReadFaultFacts Examples PAggregate PSimple PMulti.

(** C61.  Opening a file, reading a block and fetching the ID bitmap, on any bytes and
    whichever reads fail, give the answer that they give without failures, or an I/O
    error; a failed fetch changes nothing. *)
Theorem C61_reads_right_or_error : forall {Srr : Sroar} io,
  (forall opens data, NewReaderIO io opens data = NewReader data \/ NewReaderIO io opens data = Err ErrIO)
  /\ (forall r i, GetPairsIO io r i = GetPairs r i \/ GetPairsIO io r i = Err ErrIO)
  /\ (forall r hp, GetGlobalIDBitmapIO io r hp = GetGlobalIDBitmap r hp \/ GetGlobalIDBitmapIO io r hp = (Err ErrIO, r, hp)).
Proof.
  intros Srr io. split; [intros; apply open_right|]. split; [intros; apply pairs_right|intros; apply bitmap_right].
Qed.
Print Assumptions C61_reads_right_or_error.

(** An aggregation that reads data (one with a filter or with SkipPreCalculated),
    sequential or parallel under any schedule, on any finished file: whichever reads fail,
    it returns the aggregate of exactly those pairs that pass the filters and lie in a
    block whose read did not fail.  It never reports that some failed. *)
Theorem C61_aggregate_of_what_was_read : forall {Srr : Sroar} {Laws : SroarLaws Srr} options faults h now w r io gomaxprocs sched opts x,
  finished_run options faults h now w -> faithful (encoding_of options) -> NewReader (bytes_of w) = Ok r ->
  has_filter opts = true \/ o_skip opts = true ->
  AggregateWithOptionsIO io gomaxprocs sched r opts = Some x ->
  exists res, x = Ok res
    /\ aggregate_of (map snd (filter (fun p => passes (o_filter opts) (o_deny opts) (fst p)) (pairs_read io r))) res.
Proof. exact @finished_read. Qed.
Print Assumptions C61_aggregate_of_what_was_read.

(** An aggregation from the footer reads nothing and is not affected; and if no read
    fails, everything is as in the rest of the model. *)
Theorem C61_unaffected : forall {Srr : Sroar} r io gomaxprocs sched opts,
  (has_filter opts = false /\ o_skip opts = false /\ 0 < zlen (r_index r)) \/ (forall offset size, io offset size = true) ->
  AggregateWithOptionsIO io gomaxprocs sched r opts = AggregateWithOptions gomaxprocs sched r opts.
Proof.
  intros Srr r io g sched opts [(H1 & H2 & H3)|H]; [apply footer_unread; assumption|].
  rewrite <- aggregate_mask, mask_fine by exact H. reflexivity.
Qed.
Print Assumptions C61_unaffected.

(** Several files read together, [ios] saying what fails in each: Aggregate reports an
    I/O error, or returns the aggregate of those pairs that could be read and whose ID is
    in no newer file.  So a pair that could not be read is missing, but an outdated one
    never takes its place ([incl]).  Nothing lasts: the readers, used again when nothing
    fails, give the exact answer of C27. *)
Theorem C61_no_outdated_values : forall {Srr : Sroar} {Laws : SroarLaws Srr} rs0 files rs (ios : list (Z -> Z -> bool)) hp own opts out rs' hp',
  Forall2 file_with rs0 files -> session rs0 rs hp own -> length ios = length rs0 -> zlen (concat files) < two63 ->
  MultiAggregateIO opts (combine rs ios) hp = (out, rs', hp') ->
  let reads := map (fun '(r, io) => pairs_read io r) (combine rs0 ios) in
  (out = Err ErrIO \/ exists res, out = Ok res
     /\ aggregate_of (map snd (filter (allowed (mo_filter opts)) (visible_read (combine files reads)))) res)
  /\ incl (visible_read (combine files reads)) (visible files)
  /\ forall opts', exists res rs'' hp'', MultiAggregate opts' rs' hp' = (Ok res, rs'', hp'')
       /\ aggregate_of (map snd (filter (allowed (mo_filter opts')) (visible files))) res.
Proof. exact @multi_read. Qed.
Print Assumptions C61_no_outdated_values.

(** The file of C19_case: the second block cannot be read. *)
Definition second_fails (offset size : Z) : bool := negb (offset =? 4160).
(** The same, and the bitmap cannot be read either. *)
Definition late_fails (offset size : Z) : bool := offset <? 4160.
Definition nothing_fails (offset size : Z) : bool := true.
Definition bitmap_failed (x : res nat * reader * heap) : bool :=
  match x with (Err ErrIO, _, _) => true | _ => false end.
Example C61_case : finished_run agg_options [] agg_history 12 agg_writer /\ NewReader (bytes_of agg_writer) = Ok agg_reader
  /\ GetPairsIO second_fails agg_reader 0 = Ok ([5; 2], [10; -3]) /\ GetPairsIO second_fails agg_reader 1 = Err ErrIO
  /\ pairs_read second_fails agg_reader = [(5, 10); (2, -3)]
  /\ bitmap_failed (GetGlobalIDBitmapIO late_fails agg_reader []) = true
  /\ is_ok (NewReaderIO second_fails true (bytes_of agg_writer)) = true
  /\ NewReaderIO late_fails true (bytes_of agg_writer) = Err ErrIO
  /\ option_map counts (AggregateWithOptionsIO second_fails 4 [] agg_reader (mkOpts false (Some [5; 7]) None 0)) = Some (Some (1, 10, 10, 10)).
Proof.
  split; [apply agg_finished|]. split; [apply agg_finished|]. split; [vm_compute; reflexivity|]. split; [vm_compute; reflexivity|].
  split; [vm_compute; reflexivity|]. split; [vm_compute; reflexivity|]. split; [vm_compute; reflexivity|].
  split; vm_compute; reflexivity.
Qed.
(** The two files of C27_case. *)
Example C61_multi_case : Forall2 file_with [agg_reader; s_reader] two_files
  /\ visible_read (combine two_files (map (fun '(r, io) => pairs_read io r) (combine [agg_reader; s_reader] [second_fails; nothing_fails])))
     = [(5, 10); (2, 7); (9, -5); (4, 1); (4, max_int64)]
  /\ counts (fst (fst (MultiAggregateIO (mkMOpts false (Some [2; 5; 7; 9])) (combine [agg_reader; s_reader] [second_fails; nothing_fails]) []))) = Some (3, -5, 10, 12)
  /\ fst (fst (MultiAggregateIO (mkMOpts false (Some [2; 5; 7; 9])) (combine [agg_reader; s_reader] [late_fails; nothing_fails]) [])) = Err ErrIO.
Proof.
  split; [exact two_readers|]. split; [vm_compute; reflexivity|]. split; vm_compute; reflexivity.
Qed.

(** Hence the claim "an aggregation that could not read all the data does not return a
    result" is false: of three pairs, one lies in a block that cannot be read, and the
    answer counts two. *)
Theorem C61_errors_reported_refuted : exists options h now w r io, finished_run options [] h now w /\ NewReader (bytes_of w) = Ok r
  /\ is_ok (GetPairsIO io r 1) = false
  /\ option_map counts (AggregateWithOptionsIO nothing_fails 4 [] r (mkOpts true None None 0)) = Some (Some (3, -3, 10, 11))
  /\ option_map counts (AggregateWithOptionsIO io 4 [] r (mkOpts true None None 0)) = Some (Some (2, -3, 10, 7)).
Proof.
  exists agg_options, agg_history, 12, agg_writer, agg_reader, second_fails. split; [apply agg_finished|]. split; [apply agg_finished|].
  split; [vm_compute; reflexivity|]. split; vm_compute; reflexivity.
Qed.
Print Assumptions C61_errors_reported_refuted.
