(** Model of an aggregation during which reads may stop working, or fail now and then: the
    file is closed by another goroutine (pkg/col/reader.go:94-96), or the disk fails.  The
    machine of Parallel.v (pkg/col/reader_aggregate.go:269-543), and the sequential loops
    (reader_aggregate.go:99-118, 226-252), in which every step carries a flag that says
    whether a read made in that step works. *)
From Verif Require Import Machine Encoding Sroar Writer Reader Aggregate Parallel Shared.

Section Machine.
(** [blk ok] processes one block when reads work ([ok]) or not (pkg/col/reader_aggregate.go:463-491). *)
Variable blk : bool -> Z -> acc -> res acc.
Variable blockIndices : list Z.
Variable numWorkers : nat.

(** One step of a goroutine, as in Parallel.v (pkg/col/reader_aggregate.go:432-542). *)
Definition step_at (s : pstate) (e : nat * bool) : option pstate := step (blk (snd e)) blockIndices numWorkers s (fst e).

(** Running a schedule of goroutines and flags (no code: the Go scheduler and the outside world). *)
Fixpoint run_at (sched : list (nat * bool)) (s : pstate) : pstate :=
  match sched with
  | [] => s
  | e :: sched' => run_at sched' (match step_at s e with Some s' => s' | None => s end)
  end.

(** The block that goroutine [t] reads if it moves next: the read at
    pkg/col/reader_aggregate.go:471-476. *)
Definition reads_next (s : pstate) (t : nat) : option Z :=
  if p_crashed s then None
  else match t with
       | O => None
       | S w => match nth_error (p_workers s) w with Some (WLoop (i :: _) _) => Some i | _ => None end
       end.

(** The reads that are made, each with its flag (pkg/col/reader_aggregate.go:471-476). *)
Fixpoint reads_at (sched : list (nat * bool)) (s : pstate) : list (Z * bool) :=
  match sched with
  | [] => []
  | e :: sched' =>
      match reads_next s (fst e) with Some i => [(i, snd e)] | None => [] end
      ++ reads_at sched' (match step_at s e with Some s' => s' | None => s end)
  end.
End Machine.

Section Aggregate.
Context {Srr : Sroar}.

(** pkg/col/reader_aggregate.go:463-491: one block, when reads work or not. *)
Definition blk_at (r : reader) (opts : aggOptions) (ok : bool) : Z -> acc -> res acc := blk_read (at_open r ok) opts.

(** The loops of pkg/col/reader_aggregate.go:99-118 and 226-252: one read per block; [None]
    while the schedule has not come to the end. *)
Fixpoint scan_at (blk : bool -> Z -> acc -> res acc) (idx : list Z) (sched : list (nat * bool)) (a : acc) : option (res aggResult) :=
  match idx, sched with
  | [], _ => Some (Ok (result_of a))
  | _ :: _, [] => None
  | i :: idx', (_, ok) :: sched' =>
      match blk ok i a with
      | Ok a' => scan_at blk idx' sched' a'
      | Err e => Some (Err e)
      | Panic => Some Panic
      end
  end.

(** pkg/col/reader_aggregate.go:45-133 and 213-267, Parallel = 0. *)
Definition sequential_at (sched : list (nat * bool)) (r : reader) (opts : aggOptions) : option (res aggResult) :=
  if has_filter opts then
    match FilteredBlockIterator r (o_filter opts) (o_deny opts) with
    | Ok matchingBlocks =>
        if zlen matchingBlocks =? 0 then Some (Ok zeroResult)
        else scan_at (blk_at r opts) matchingBlocks sched acc0
    | Err e => Some (Err e)
    | Panic => Some Panic
    end
  else if (zlen (r_index r) >? 0) && negb (o_skip opts) then
    Some (Ok (result_of (fold_left add_entry (r_index r) acc0)))
  else scan_at (blk_at r opts) (zseq (BlockCount r)) sched acc0.

(** pkg/col/reader_aggregate.go:45-49 [AggregateWithOptions]. *)
Definition AggregateDuring (gomaxprocs : Z) (sched : list (nat * bool)) (r : reader) (opts : aggOptions) : option (res aggResult) :=
  if o_parallel opts =? 0 then sequential_at sched r opts
  else match parallelPlan gomaxprocs r opts with
       | PlanSequential => sequential_at sched r opts
       | PlanEmpty => Some (Ok zeroResult)
       | PlanPanic => Some Panic
       | PlanFooter idx n => outcome (run (blk_footer r) idx n (map fst sched) (pinit n))
       | PlanReading idx n => outcome (run_at (blk_at r opts) idx n sched (pinit n))
       end.

(** The reads the call made: pkg/col/reader_aggregate.go:103, 235-239 and 471-476. *)
Definition reads_during (gomaxprocs : Z) (sched : list (nat * bool)) (r : reader) (opts : aggOptions) : list (Z * bool) :=
  let sequential :=
    if has_filter opts then combine (matchingBlocks r (o_filter opts) (o_deny opts)) (map snd sched)
    else if (zlen (r_index r) >? 0) && negb (o_skip opts) then []
    else combine (zseq (BlockCount r)) (map snd sched) in
  if o_parallel opts =? 0 then sequential
  else match parallelPlan gomaxprocs r opts with
       | PlanSequential => sequential
       | PlanReading idx n => reads_at (blk_at r opts) idx n sched (pinit n)
       | _ => []
       end.
End Aggregate.
