(** Model of the parallel paths of pkg/col/reader_aggregate.go (269-543): worker
    goroutines, a buffered channel and a wait group, as a machine whose steps are
    chosen by a schedule. *)
From Verif Require Import Machine Encoding Sroar Writer Reader Aggregate.

(** A worker goroutine (reader_aggregate.go:337-392, 441-508). *)
Inductive worker : Type :=
| WIdle                                  (* not started yet *)
| WStart                                 (* before line 341 *)
| WLoop (todo : list Z) (a : acc)        (* in the loop over its blocks *)
| WSend (result : aggResult)             (* at [resultChan <- ...] *)
| WDefer                                 (* at the deferred [wg.Done()] *)
| WExit.

(** The calling goroutine (pkg/col/reader_aggregate.go:334-426, 438-542). *)
Inductive mainpc : Type :=
| MAdd (w : nat)                         (* [wg.Add(1)] for worker [w] *)
| MGo (w : nat)                          (* [go func ...(w)] *)
| MWait                                  (* [wg.Wait()] *)
| MClose                                 (* [close(resultChan)] *)
| MMerge (fin : aggResult) (totalCount totalSum : Z)   (* [for result := range resultChan] *)
| MDone (result : aggResult).

(** What the goroutines of pkg/col/reader_aggregate.go:328-426 and 432-542 share. *)
Record pstate : Type := mkP {
  p_main : mainpc;
  p_workers : list worker;
  p_chan : list aggResult;               (* buffered results, oldest first *)
  p_closed : bool;
  p_wg : Z;
  p_crashed : bool                       (* a goroutine panicked: the program is gone *)
}.

(** No code: replaces one worker in the list. *)
Fixpoint set_nth {A} (n : nat) (x : A) (l : list A) : list A :=
  match l, n with
  | [], _ => []
  | _ :: l', O => x :: l'
  | y :: l', S n' => y :: set_nth n' x l'
  end.

Section Machine.
(** [blk] processes one block; [blockIndices] and [numWorkers] as in the code. *)
Variable blk : Z -> acc -> res acc.
Variable blockIndices : list Z.
Variable numWorkers : nat.

(** reader_aggregate.go:331 and 435. *)
Definition blocksPerWorker : Z :=
  (zlen blockIndices + Z.of_nat numWorkers - 1) / Z.of_nat numWorkers.

(** reader_aggregate.go:341-350, 358: the blocks of worker [w]. *)
Definition workerBlocks (w : nat) : list Z :=
  let startIdx := Z.of_nat w * blocksPerWorker in
  let endIdx := (Z.of_nat w + 1) * blocksPerWorker in
  let endIdx := if endIdx >? zlen blockIndices then zlen blockIndices else endIdx in
  if startIdx >=? endIdx then [] else slice blockIndices startIdx (endIdx - startIdx).

(** Updates of that state: [wg.Add], [wg.Done], sending, receiving and closing
    (pkg/col/reader_aggregate.go:336, 338, 385, 397, 404). *)
Definition set_main (s : pstate) (m : mainpc) : pstate :=
  mkP m (p_workers s) (p_chan s) (p_closed s) (p_wg s) (p_crashed s).
(** A worker moves on (pkg/col/reader_aggregate.go:337-392). *)
Definition set_worker (s : pstate) (w : nat) (x : worker) : pstate :=
  mkP (p_main s) (set_nth w x (p_workers s)) (p_chan s) (p_closed s) (p_wg s) (p_crashed s).
(** [wg.Add], [wg.Done] (pkg/col/reader_aggregate.go:336, 338). *)
Definition set_wg (s : pstate) (n : Z) : pstate :=
  mkP (p_main s) (p_workers s) (p_chan s) (p_closed s) n (p_crashed s).
(** Sending and receiving (pkg/col/reader_aggregate.go:385, 404). *)
Definition set_chan (s : pstate) (c : list aggResult) : pstate :=
  mkP (p_main s) (p_workers s) c (p_closed s) (p_wg s) (p_crashed s).
(** pkg/col/reader_aggregate.go:397 *)
Definition close_chan (s : pstate) : pstate :=
  mkP (p_main s) (p_workers s) (p_chan s) true (p_wg s) (p_crashed s).
(** A panic in a worker (pkg/col/reader_aggregate.go:360) ends the process. *)
Definition crash (s : pstate) : pstate :=
  mkP (p_main s) (p_workers s) (p_chan s) (p_closed s) (p_wg s) true.

(** reader_aggregate.go:404-417 and 520-533: merging one worker's result. *)
Definition merge_result (fin r : aggResult) (totalCount totalSum : Z)
  : aggResult * Z * Z :=
  let mn := if (a_min r <? a_min fin) || (a_count fin =? 0) then a_min r else a_min fin in
  let mx := if (a_max r >? a_max fin) || (a_count fin =? 0) then a_max r else a_max fin in
  (mkAgg (i64 (a_count fin + a_count r)) mn mx (a_sum fin) (a_avg fin),
   i64 (totalCount + a_count r), i64 (totalSum + a_sum r)).

(** reader_aggregate.go:420-426. *)
Definition finish (fin : aggResult) (totalCount totalSum : Z) : aggResult :=
  mkAgg (a_count fin) (a_min fin) (a_max fin) totalSum
        (if totalCount >? 0 then average totalSum totalCount else a_avg fin).

(** One step of the calling goroutine; [None] means it is blocked or finished
    (pkg/col/reader_aggregate.go:335-337, 393-426 and 439-441, 509-542). *)
Definition step_main (s : pstate) : option pstate :=
  match p_main s with
  | MAdd w =>
      if Nat.ltb w numWorkers then Some (set_main (set_wg s (p_wg s + 1)) (MGo w))
      else Some (set_main s MWait)
  | MGo w => Some (set_main (set_worker s w WStart) (MAdd (S w)))
  | MWait => if p_wg s =? 0 then Some (set_main s MClose) else None
  | MClose => Some (set_main (close_chan s) (MMerge zeroResult 0 0))
  | MMerge fin tc ts =>
      match p_chan s with
      | r :: c =>
          let '(fin', tc', ts') := merge_result fin r tc ts in
          Some (set_main (set_chan s c) (MMerge fin' tc' ts'))
      | [] => if p_closed s then Some (set_main s (MDone (finish fin tc ts))) else None
      end
  | MDone _ => None
  end.

(** One step of worker [w] (pkg/col/reader_aggregate.go:337-392 and 441-508). *)
Definition step_worker (s : pstate) (w : nat) : option pstate :=
  match nth_error (p_workers s) w with
  | Some WStart =>
      match workerBlocks w with
      | [] => Some (set_worker s w WDefer)
      | l => Some (set_worker s w (WLoop l acc0))
      end
  | Some (WLoop [] a) => Some (set_worker s w (WSend (result_of a)))
  | Some (WLoop (i :: todo) a) =>
      match blk i a with
      | Ok a' => Some (set_worker s w (WLoop todo a'))
      | _ => Some (crash s)
      end
  | Some (WSend r) =>
      if p_closed s then Some (crash s)
      else if Nat.ltb (length (p_chan s)) numWorkers then
        Some (set_worker (set_chan s (p_chan s ++ [r])) w WDefer)
      else None
  | Some WDefer =>
      if p_wg s <=? 0 then Some (crash s)
      else Some (set_worker (set_wg s (p_wg s - 1)) w WExit)
  | _ => None
  end.

(** A schedule names the goroutine that moves next: 0 is the caller, [S w] is
    worker [w]. *)
Definition step (s : pstate) (t : nat) : option pstate :=
  if p_crashed s then None
  else match t with O => step_main s | S w => step_worker s w end.

(** Running a schedule; naming a goroutine that cannot move is a no-op (no code: the Go scheduler). *)
Fixpoint run (sched : list nat) (s : pstate) : pstate :=
  match sched with
  | [] => s
  | t :: sched' => run sched' (match step s t with Some s' => s' | None => s end)
  end.

(** pkg/col/reader_aggregate.go:328-335 and 432-439: before the first iteration. *)
Definition pinit : pstate := mkP (MAdd 0) (repeat WIdle numWorkers) [] false 0 false.

(** What the call returned after [sched]: [None] while it is still running
    (pkg/col/reader_aggregate.go:426, 542). *)
Definition outcome (s : pstate) : option (res aggResult) :=
  if p_crashed s then Some Panic
  else match p_main s with MDone r => Some (Ok r) | _ => None end.

End Machine.

Section Aggregate.
Context {Srr : Sroar}.

(** reader_aggregate.go:359-375: one block from the footer; the index expression
    panics outside the block index. *)
Definition blk_footer (r : reader) (i : Z) (a : acc) : res acc :=
  if (i <? 0) || (i >=? zlen (r_index r)) then Panic
  else match nth_error (r_index r) (Z.to_nat i) with
       | Some e => Ok (add_entry a e)
       | None => Panic
       end.

(** reader_aggregate.go:463-491: one block read from the file. *)
Definition blk_read (r : reader) (opts : aggOptions) (i : Z) (a : acc) : res acc :=
  add_block a (if has_filter opts then readBlockFiltered r (i64 i) (o_filter opts) (o_deny opts)
               else GetPairs r i).

(** pkg/col/reader_aggregate.go:270-323 [aggregateParallel]: either a sequential
    result or a machine to run. *)
Inductive plan : Type :=
| PlanSequential
| PlanEmpty
| PlanPanic                              (* a [make] panics *)
| PlanFooter (blockIndices : list Z) (numWorkers : nat)
| PlanReading (blockIndices : list Z) (numWorkers : nat).

(** pkg/col/reader_aggregate.go:270-323. *)
Definition parallelPlan (gomaxprocs : Z) (r : reader) (opts : aggOptions) : plan :=
  let numWorkers := if o_parallel opts <? 0 then gomaxprocs else o_parallel opts in
  let blockCount := i64 (BlockCount r) in
  let numWorkers := if numWorkers >? blockCount then blockCount else numWorkers in
  if (numWorkers <=? 1) || (blockCount <=? 1) then PlanSequential
  else
    let blockIndices := if has_filter opts
                        then FilteredBlockIterator r (o_filter opts) (o_deny opts)
                        else if make_panics blockCount 8 then Panic else Ok (zseq blockCount) in
    match blockIndices with
    | Ok blockIndices =>
        if zlen blockIndices =? 0 then PlanEmpty
        else if make_panics numWorkers 40 then PlanPanic  (* the channel *)
        else if (zlen (r_index r) >? 0) && negb (o_skip opts) && negb (has_filter opts)
        then PlanFooter blockIndices (Z.to_nat numWorkers)
        else PlanReading blockIndices (Z.to_nat numWorkers)
    | _ => PlanPanic
    end.

(** pkg/col/reader_aggregate.go:45-49 [AggregateWithOptions] under a schedule. *)
Definition AggregateWithOptions (gomaxprocs : Z) (sched : list nat) (r : reader)
    (opts : aggOptions) : option (res aggResult) :=
  if o_parallel opts =? 0 then Some (aggregateSequential r opts)
  else match parallelPlan gomaxprocs r opts with
       | PlanSequential => Some (aggregateSequential r opts)
       | PlanEmpty => Some (Ok zeroResult)
       | PlanPanic => Some Panic
       | PlanFooter idx n =>
           outcome (run (blk_footer r) idx n sched (pinit n))
       | PlanReading idx n =>
           outcome (run (blk_read r opts) idx n sched (pinit n))
       end.

End Aggregate.
