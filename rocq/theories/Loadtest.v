(** Model of cmd/loadtest/main.go: the import and aggregate commands.  Flag parsing,
    the creation of directories, error texts and everything printed about time are not
    modelled; what is printed is given as a record of the numbers. *)
From Verif Require Import Machine Encoding Sroar FileIO Writer SimpleWriter Reader Aggregate Parallel.

(** How a process ends: with status 0 and a report, with status 1, or by a panic
    ([os.Exit(1)] at cmd/loadtest/main.go:68, 81, 128 and so on; or the end of main). *)
Inductive ended (A : Type) : Type :=
| Finished (report : A)
| Stopped
| Crash.
Arguments Finished {A} report.
Arguments Stopped {A}.
Arguments Crash {A}.

Section Loadtest.
Context {Srr : Sroar}.

(** The random number generator: any sequence of numbers; [k] is the position in it.
    [rng.Float64() < p] is an arbitrary Boolean, [Intn] and [Int63n] are arbitrary in
    range (math/rand: [Int63n] panics if its argument is not positive). *)
Variable draws : nat -> Z.
(** cmd/loadtest/main.go:73, 107, 114: [rng.Float64() < p]; 108-121: [rng.Intn], [rng.Int63n]. *)
Definition below (tenths : Z) (k : nat) : bool := draws k mod 10 <? tenths.
(** [rng.Int63n(n)], which panics for n <= 0 (cmd/loadtest/main.go:110, 118, 121). *)
Definition Int63n (n : Z) (k : nat) : res Z := if n <=? 0 then Panic else Ok (draws k mod n).

(** cmd/loadtest/main.go:107-111: the ID of item [i]; [prev] is [ids[i-1]] if [i > 0]. *)
Definition nextID (maxID : Z) (prev : option Z) (k : nat) : res (Z * nat) :=
  match prev with
  | Some p =>
      if below 9 k then
        let? d := Int63n 10 (k + 1) in Ok (u64 (p + u64 (d + 1)), (k + 2)%nat)
      else
        let? x := Int63n (i64 maxID) (k + 1) in Ok (u64 x, (k + 2)%nat)
  | None => let? x := Int63n (i64 maxID) k in Ok (u64 x, (k + 1)%nat)
  end.

(** cmd/loadtest/main.go:114-122: its value.  Integer division truncates towards zero; [%] by zero
    panics. *)
Definition nextValue (maxValue id : Z) (k : nat) : res (Z * nat) :=
  if below 7 k then
    if u64 maxValue =? 0 then Panic
    else
      let v := i64 (id mod u64 maxValue) in
      let? noise := Int63n (Z.quot maxValue 10) (k + 1) in
      Ok (i64 (v + i64 (noise - Z.quot maxValue 20)), (k + 2)%nat)
  else
    let? v := Int63n maxValue (k + 1) in Ok (v, (k + 2)%nat).

(** cmd/loadtest/main.go:102-123: one batch. *)
Fixpoint makeBatch (maxValue maxID : Z) (size : nat) (prev : option Z) (k : nat)
  : res (list Z * list Z * nat) :=
  match size with
  | O => Ok ([], [], k)
  | S size' =>
      let? (id, k1) := nextID maxID prev k in
      let? (v, k2) := nextValue maxValue id k1 in
      let? (ids, values, k3) := makeBatch maxValue maxID size' (Some id) k2 in
      Ok (id :: ids, v :: values, k3)
  end.

(** cmd/loadtest/main.go:160-161: the numbers printed at the end. *)
Record importReport : Type := mkImport {
  im_values : Z;           (* "Total values" *)
  im_items : Z             (* "Total items written" *)
}.

(** cmd/loadtest/main.go:94-149: the loop.  [fuel] bounds the iterations; every iteration writes at
    least one item (unless [numValues] is within 10000 of 2^63, when the counter wraps; the
    theorems exclude that).  A panic of the generator runs the deferred [writer.Close]. *)
Fixpoint importLoop (srt : sorter) (fuel : nat) (now numValues maxValue maxID valuesWritten : Z) (k : nat)
    (sw : swriter) : ended Z * swriter :=
  if valuesWritten <? numValues then
    match fuel with
    | O => (Stopped, sw)
    | S fuel' =>
        let currentBatchSize := if i64 (valuesWritten + 10000) >? numValues then numValues - valuesWritten else 10000 in
        match makeBatch maxValue maxID (Z.to_nat currentBatchSize) None k with
        | Ok (ids, values, k') =>
            match SWrite srt ids values sw with
            | (Ok _, sw') => importLoop srt fuel' now numValues maxValue maxID (i64 (valuesWritten + currentBatchSize)) k' sw'
            | (Err _, sw') => (Stopped, sw')
            | (Panic, sw') => (Crash, snd (SClose now sw'))
            end
        | _ => (Crash, snd (SClose now sw))
        end
    end
  else (Finished valuesWritten, sw).

(** cmd/loadtest/main.go:60-171 [runImport]: how it ends, and the writer if it was made.  [now0] and
    [now] are the times of [NewSimpleWriter] and [Close]. *)
Definition runImport (srt : sorter) (now0 now : Z) (faults : list fault) (numValues blockSize maxValue maxID : Z)
  : ended importReport * option swriter :=
  match NewSimpleWriter now0 [WithBlockSize (u32 blockSize); WithEncoding EncodingVarIntBoth] faults with
  | Err _ => (Stopped, None)
  | Panic => (Crash, None)
  | Ok sw =>
      match importLoop srt (Z.to_nat numValues) now numValues maxValue maxID 0 0 sw with
      | (Finished valuesWritten, sw1) =>
          match SClose now sw1 with
          | (Ok _, sw2) => (Finished (mkImport valuesWritten (TotalItems sw2)), Some (snd (SClose now sw2)))
          | (Err _, sw2) => (Stopped, Some sw2)
          | (Panic, sw2) => (Crash, Some (snd (SClose now sw2)))
          end
      | (Stopped, sw1) => (Stopped, Some sw1)
      | (Crash, sw1) => (Crash, Some sw1)
      end
  end.

(** cmd/loadtest/main.go:185-187, 209-213, 222, 231, 237: the numbers printed. *)
Record aggReport : Type := mkReport {
  rp_version : Z;
  rp_encoding : Z;
  rp_blocks : Z;
  rp_result : aggResult;
  rp_workers : option Z;      (* "Parallel workers", if printed *)
  rp_scan : option Z          (* "Full scan", or an error was printed instead *)
}.

(** cmd/loadtest/main.go:225-235: the full scan; an int64 counter. *)
Fixpoint fullScan (r : reader) (idx : list Z) (totalValues : Z) : res (option Z) :=
  match idx with
  | [] => Ok (Some totalValues)
  | i :: idx' =>
      match GetPairs r i with
      | Ok (_, values) => fullScan r idx' (i64 (totalValues + i64 (zlen values)))
      | Err _ => Ok None
      | Panic => Panic
      end
  end.

(** cmd/loadtest/main.go:173-245 [runAggregate] and [runAggregations] under a schedule; [None] if the
    schedule ends before the aggregation does. *)
Definition runAggregate (gomaxprocs : Z) (sched : list nat) (data : list Z) (skipCache : bool) (parallel : Z)
  : option (ended aggReport) :=
  match NewReader data with
  | Err _ => Some Stopped
  | Panic => Some Crash
  | Ok r =>
      match AggregateWithOptions gomaxprocs sched r (mkOpts skipCache None None parallel) with
      | None => None
      | Some (Ok result) =>
          let workers := if negb (parallel =? 0) then Some (if parallel <? 0 then gomaxprocs else parallel) else None in
          match fullScan r (zseq (BlockCount r)) 0 with
          | Ok scan => Some (Finished (mkReport (RVersion r) (EncodingType r) (BlockCount r) result workers scan))
          | Err _ => Some Stopped
          | Panic => Some Crash
          end
      | Some _ => Some Crash
      end
  end.

End Loadtest.
