(** What a call reads (C81).  Only statements and concrete cases; proofs are in
    TracedFacts.v, TracedFile.v, TracedSame.v and TracedFault.v. *)
From Coq Require Import Permutation.
From Verif Require Import Machine MachineFacts Encoding FileIO Sroar SroarFacts Writer Reader Aggregate Parallel Multi Spec AnySpec DamageSpec RacingSpec
  ArbFacts AnyFacts ReadFault TracedFacts TracedFile TracedSame TracedFault Examples PAggregate PReader PMulti PRacing.
From Verif Require Import Traced TracedSpec.
From Coq Require Import Lia.
Local Open Scope Z_scope.

(** The functions that also report their reads return what the functions of the model
    return, on all inputs. *)
Theorem C81_same_answers : forall {Srr : Sroar},
  (forall data, fst (NewReaderT data) = NewReader data)
  /\ (forall r i, fst (GetPairsT r i) = GetPairs r i)
  /\ (forall r h, fst (GetGlobalIDBitmapT r h) = GetGlobalIDBitmap r h)
  /\ (forall gomaxprocs sched r opts, fst (AggregateWithOptionsT gomaxprocs sched r opts) = AggregateWithOptions gomaxprocs sched r opts)
  /\ (forall opts readers h, fst (MultiAggregateT opts readers h) = MultiAggregate opts readers h).
Proof.
  intros Srr. split; [exact open_fst|]. split; [exact pairs_fst|]. split; [exact bitmap_fst|]. split; [exact aggregate_fst|exact multi_fst].
Qed.
Print Assumptions C81_same_answers.

(** The reported reads are all that matters: if another file has the same bytes there (and,
    for opening, the same length), then every call returns the same and reads the same. *)
Theorem C81_determined : forall {Srr : Sroar} data',
  (forall data, zlen data' = zlen data -> agree_on (snd (NewReaderT data)) data data' ->
     snd (NewReaderT data') = snd (NewReaderT data)
     /\ NewReader data' = match NewReader data with Ok r => Ok (on_bytes r data') | Err e => Err e | Panic => Panic end)
  /\ (forall r i, agree_on (snd (GetPairsT r i)) (r_data r) data' -> GetPairsT (on_bytes r data') i = GetPairsT r i)
  /\ (forall r h, agree_on (snd (GetGlobalIDBitmapT r h)) (r_data r) data' ->
       snd (GetGlobalIDBitmapT (on_bytes r data') h) = snd (GetGlobalIDBitmapT r h)
       /\ fst (fst (GetGlobalIDBitmap (on_bytes r data') h)) = fst (fst (GetGlobalIDBitmap r h))
       /\ snd (GetGlobalIDBitmap (on_bytes r data') h) = snd (GetGlobalIDBitmap r h))
  /\ (forall gomaxprocs sched r opts, agree_on (snd (AggregateWithOptionsT gomaxprocs sched r opts)) (r_data r) data' ->
       AggregateWithOptionsT gomaxprocs sched (on_bytes r data') opts = AggregateWithOptionsT gomaxprocs sched r opts).
Proof.
  intros Srr data'. split; [intros data L H; apply open_same_bytes; assumption|]. split; [intros r i H; apply same_pairs; exact H|].
  split; [intros r h H; rewrite <- !bitmap_fst; apply same_bitmap; exact H|]. intros g sched r opts H. apply same_aggregate. exact H.
Qed.
Print Assumptions C81_determined.

(** Opening any file that is accepted reads the file header, the last 24 bytes and the
    index, and nothing else: no block and no bitmap. *)
Theorem C81_opening : forall data r, NewReader data = Ok r -> snd (NewReaderT data) = opening_reads r.
Proof. exact opening. Qed.
Print Assumptions C81_opening.

(** GetPairs of any reader makes at most one read: behind the header of that block, to the
    end the index gives for it. *)
Theorem C81_get_pairs : forall r i, snd (GetPairsT r i) = []
  \/ exists e, nth_error (r_index r) (Z.to_nat (i64 i)) = Some e /\ snd (GetPairsT r i) = [(i64 (i64 (e_offset e) + 64), e_size e - 64)].
Proof.
  intros r i. unfold GetPairsT. rewrite block_reads. destruct (_ || _); [left; reflexivity|].
  destruct (nth_error (r_index r) (Z.to_nat (i64 i))) as [e|]; [|left; reflexivity]. cbv zeta. destruct (_ && _); [right; eauto|left; reflexivity].
Qed.
Print Assumptions C81_get_pairs.

(** A bitmap that is in the cache is not read again. *)
Theorem C81_cached : forall {Srr : Sroar} r p h, r_globalIDs r = Some p -> r_cacheGlobalIDs r = true ->
  snd (GetGlobalIDBitmapT r h) = [].
Proof. intros Srr r p h H1 H2. unfold GetGlobalIDBitmapT. rewrite H1, H2. reflexivity. Qed.
Print Assumptions C81_cached.

(** A closed reader reads nothing. *)
Theorem C81_closed : forall {Srr : Sroar} r, r_open r = false ->
  (forall i, snd (GetPairsT r i) = []) /\ (forall h, snd (GetGlobalIDBitmapT r h) = [])
  /\ (forall gomaxprocs sched opts, snd (AggregateWithOptionsT gomaxprocs sched r opts) = []).
Proof.
  intros Srr r Ho.
  assert (B : forall i, snd (readBlockT r i) = []).
  { intros i. rewrite block_reads. destruct (_ || _); [reflexivity|]. destruct (nth_error _ _); [|reflexivity]. cbv zeta. rewrite Ho, Bool.andb_false_r. reflexivity. }
  assert (N : forall off n, snd (readBytesT (r_data r) (r_open r) off n) = []) by (intros; unfold readBytesT; cbn [snd]; rewrite Ho, Bool.andb_false_r; reflexivity).
  assert (L : snd (loadGlobalIDBitmapT r) = []).
  { unfold loadGlobalIDBitmapT. destruct (_ || _); [reflexivity|]. cbv zeta. rewrite snd_quiet; [apply N|]. intros b. rewrite snd_quiet; [reflexivity|].
    intros c. rewrite snd_quiet; [apply N|]. reflexivity. }
  assert (S : forall (get : Z -> traced (list Z * list Z)), (forall i, snd (get i) = []) -> forall idx a, snd (scanT get idx a) = []).
  { intros get H. induction idx as [|i idx IH]; intros a; [reflexivity|]. cbn [scanT]. rewrite snd_quiet; [apply H|exact IH]. }
  split; [intros i; apply B|]. split.
  - intros h. unfold GetGlobalIDBitmapT. destruct (loadGlobalIDBitmapT r) as [m t]. cbn [snd] in L. subst t.
    destruct (r_globalIDs r), (r_cacheGlobalIDs r), m; reflexivity.
  - intros g sched opts. assert (Q : snd (aggregateSequentialT r opts) = []).
    { unfold aggregateSequentialT, aggregateWithFilterT. destruct (has_filter opts).
      - rewrite snd_quiet; [reflexivity|]. intros l. destruct (_ =? 0); [reflexivity|]. rewrite snd_quiet; [|reflexivity]. apply S.
        intros i. rewrite filtered_reads_same. apply B.
      - destruct (_ && _); [reflexivity|]. rewrite snd_quiet; [|reflexivity]. apply S. intros i. apply B. }
    unfold AggregateWithOptionsT. cbv zeta. rewrite Q. destruct (_ =? 0); [reflexivity|]. destruct (parallelPlan g r opts); try reflexivity.
    cbn [snd]. induction (worker_reads _ _ _ _ _) as [|i l IH]; [reflexivity|]. cbn [flat_map]. rewrite B. exact IH.
Qed.
Print Assumptions C81_closed.

(** Any accepted file, any aggregation that needs data, with any number of workers and any
    schedule: when it returns, it has read each block that the index does not rule out once,
    and nothing else; a sequential aggregation has read them in the order of the file. *)
Theorem C81_aggregate : forall {Srr : Sroar} data r opts gomaxprocs sched x rs, Forall is_byte data -> NewReader data = Ok r ->
  Forall (fun e => 80 <= e_size e) (r_index r) -> BlockCount r < 2 ^ 31 -> reads_data r opts ->
  AggregateWithOptionsT gomaxprocs sched r opts = (Some x, rs) ->
  Permutation rs (flat_map (fun i => snd (GetPairsT r i)) (candidates r opts))
  /\ (o_parallel opts = 0 -> rs = flat_map (fun i => snd (GetPairsT r i)) (candidates r opts)).
Proof. exact @any_reads. Qed.
Print Assumptions C81_aggregate.

(** An aggregation without filters, and not told to skip the index, reads nothing if there
    is an index: any reader, number of workers and schedule. *)
Theorem C81_index_only : forall {Srr : Sroar} r opts gomaxprocs sched, ~ reads_data r opts ->
  snd (AggregateWithOptionsT gomaxprocs sched r opts) = [].
Proof. exact @footer_reads_nothing. Qed.
Print Assumptions C81_index_only.

(** A file that a Writer finalized: the reads of opening it, of its blocks and of its bitmap
    are inside the file, no two of them have a byte in common, and so all of them together
    read no more bytes than the file has; GetPairs reads inside its block; aggregations read
    the sections of the blocks that the index does not rule out, once each, or nothing. *)
Theorem C81_finished : forall {Srr : Sroar} options faults h now w, finished_run options faults h now w -> never_finalized h ->
  exists r, NewReader (bytes_of w) = Ok r
    /\ snd (NewReaderT (bytes_of w)) = opening_reads r
    /\ (forall i, 0 <= i < BlockCount r -> snd (GetPairsT r i) = sections_of r i
          /\ exists e, nth_error (r_index r) (Z.to_nat i) = Some e /\ Forall (within (e_offset e) (e_offset e + e_size e)) (sections_of r i))
    /\ (forall hp, snd (GetGlobalIDBitmapT r hp) = bitmap_reads r)
    /\ (forall opts gomaxprocs sched x rs, AggregateWithOptionsT gomaxprocs sched r opts = (Some x, rs) ->
          (reads_data r opts -> Permutation rs (flat_map (sections_of r) (candidates r opts)))
          /\ (~ reads_data r opts -> rs = []))
    /\ Forall (within 0 (zlen (bytes_of w))) (all_parts r) /\ ForallOrdPairs apart (all_parts r)
    /\ bytes_read (all_parts r) <= zlen (bytes_of w).
Proof. exact @finished_reads. Qed.
Print Assumptions C81_finished.

(** Several files, newest first: of each, the blocks that its index does not rule out for
    the allow filter, and its bitmap.  (IDs that newer files hold do not save a read.) *)
Theorem C81_multi : forall {Srr : Sroar} opts readers h res rs' h' ts, Forall fresh_file readers ->
  MultiAggregateT opts readers h = ((Ok res, rs', h'), ts) ->
  ts = map (fun r => flat_map (fun i => snd (GetPairsT r i)) (candidates r (mkOpts (mo_skip opts) (mo_filter opts) None 0))
                     ++ snd (loadGlobalIDBitmapT r)) (rev readers).
Proof. exact @multi_reads. Qed.
Print Assumptions C81_multi.

(** A read that fails matters only to the calls that make it.  If all reads that a call makes
    succeed, the call returns what it returns when no read fails; opening, GetPairs and
    GetGlobalIDBitmap return the error, and leave reader and heap alone, if one of theirs
    fails.  ([io off n] says whether the read of [n] bytes at [off] succeeds.) *)
Theorem C81_reads_that_fail : forall {Srr : Sroar} (io : Z -> Z -> bool),
  (forall data, (works io (snd (NewReaderT data)) -> NewReaderIO io true data = NewReader data)
             /\ (fails io (snd (NewReaderT data)) -> NewReaderIO io true data = Err ErrIO))
  /\ (forall r i, (works io (snd (GetPairsT r i)) -> GetPairsIO io r i = GetPairs r i)
               /\ (fails io (snd (GetPairsT r i)) -> GetPairsIO io r i = Err ErrIO))
  /\ (forall r h, (works io (snd (GetGlobalIDBitmapT r h)) -> GetGlobalIDBitmapIO io r h = GetGlobalIDBitmap r h)
               /\ (fails io (snd (GetGlobalIDBitmapT r h)) -> GetGlobalIDBitmapIO io r h = (Err ErrIO, r, h)))
  /\ (forall gomaxprocs sched r opts, works io (snd (AggregateWithOptionsT gomaxprocs sched r opts)) ->
       AggregateWithOptionsIO io gomaxprocs sched r opts = AggregateWithOptions gomaxprocs sched r opts).
Proof.
  intros Srr io. split; [intros data; rewrite <- open_fst; exact (open_follows io data)|]. split; [intros r i; rewrite <- pairs_fst; exact (pairs_follows io r i)|].
  split; [intros r h; rewrite <- bitmap_fst; exact (bitmap_follows io r h)|]. intros g sched r opts. rewrite <- aggregate_fst. apply aggregate_unhurt.
Qed.
Print Assumptions C81_reads_that_fail.

(** The same for several files, each with reads of its own that fail (the traces, and so
    [rev ios], are newest first). *)
Theorem C81_multi_reads_that_fail : forall {Srr : Sroar} opts readers ios h, length ios = length readers ->
  all_work (rev ios) (snd (MultiAggregateT opts readers h)) ->
  MultiAggregateIO opts (combine readers ios) h = MultiAggregate opts readers h.
Proof. exact @multi_unhurt. Qed.
Print Assumptions C81_multi_reads_that_fail.

(** ** Cases *)
(** Only the sections of block 0 cannot be read. *)
Definition bad_spot (off n : Z) : bool := negb ((off <? 4096) && (128 <? off + n)).
Example C81_fault_case :
  works bad_spot (snd (GetPairsT agg_reader 1)) /\ fails bad_spot (snd (GetPairsT agg_reader 0))
  /\ works bad_spot (snd (NewReaderT (bytes_of agg_writer)))
  /\ works bad_spot (snd (AggregateWithOptionsT 4 [] agg_reader (mkOpts false (Some [7; 8]) None 0)))
  /\ GetPairsIO bad_spot agg_reader 0 = Err ErrIO /\ GetPairsIO bad_spot agg_reader 1 = GetPairs agg_reader 1
  /\ all_work (rev [bad_spot; fun _ _ => true]) (snd (MultiAggregateT (mkMOpts false (Some [7; 8])) [agg_reader; agg_reader] [])).
Proof.
  assert (T1 : snd (GetPairsT agg_reader 1) = [(4160, 4032)]) by (vm_compute; reflexivity).
  assert (T0 : snd (GetPairsT agg_reader 0) = [(128, 3968)]) by (vm_compute; reflexivity).
  assert (T2 : snd (NewReaderT (bytes_of agg_writer)) = [(0, 64); (12404, 24); (12288, 4); (12292, 112)]) by (vm_compute; reflexivity).
  assert (T3 : snd (AggregateWithOptionsT 4 [] agg_reader (mkOpts false (Some [7; 8]) None 0)) = [(4160, 4032)]) by (vm_compute; reflexivity).
  assert (W : forall l, forallb (fun x => bad_spot (fst x) (snd x)) l = true -> works bad_spot l).
  { intros l H off n I. exact (proj1 (forallb_forall _ _) H (off, n) I). }
  assert (T4 : snd (MultiAggregateT (mkMOpts false (Some [7; 8])) [agg_reader; agg_reader] []) = [[(4160, 4032); (8192, 4); (8196, 24)]; [(4160, 4032); (8192, 4); (8196, 24)]])
    by (vm_compute; reflexivity).
  rewrite T0, T1, T2, T3, T4. split; [apply W; reflexivity|]. split; [exists 128, 3968; split; [left; reflexivity|reflexivity]|].
  split; [apply W; reflexivity|]. split; [apply W; reflexivity|]. split; [vm_compute; reflexivity|]. split; [vm_compute; reflexivity|].
  constructor; [|constructor; [|constructor]]; [intros ? ? _; reflexivity|apply W; reflexivity].
Qed.
Example C81_case : finished_run agg_options [] agg_history 12 agg_writer /\ NewReader (bytes_of agg_writer) = Ok agg_reader
  /\ Forall is_byte (bytes_of agg_writer) /\ Forall (fun e => 80 <= e_size e) (r_index agg_reader) /\ BlockCount agg_reader = 2
  /\ snd (NewReaderT (bytes_of agg_writer)) = [(0, 64); (12404, 24); (12288, 4); (12292, 112)]
  /\ snd (GetPairsT agg_reader 1) = [(4160, 4032)]
  /\ snd (AggregateWithOptionsT 4 race_order agg_reader race_opts) = [(4160, 4032); (128, 3968)]
  /\ option_map counts (fst (AggregateWithOptionsT 4 race_order agg_reader race_opts)) = Some (Some (3, -3, 10, 11))
  /\ snd (AggregateWithOptionsT 4 [] agg_reader (mkOpts false (Some [7; 8]) None 0)) = [(4160, 4032)]
  /\ snd (AggregateWithOptionsT 4 [] agg_reader (mkOpts false None None 0)) = []
  /\ snd (GetGlobalIDBitmapT agg_reader []) = [(8192, 4); (8196, 24)].
Proof.
  split; [apply agg_finished|]. split; [apply agg_finished|].
  split; [apply bytesb_sound; vm_compute; reflexivity|]. split; [apply sizesb_sound; vm_compute; reflexivity|]. vm_compute. tauto.
Qed.
