(** Model of pkg/col/simple_writer.go. *)
From Verif Require Import Machine Encoding Sroar FileIO Writer.

Section SimpleWriter.
Context {Srr : Sroar}.

(** [sort.Slice] (simple_writer.go:199) is not stable and its algorithm is not
    fixed: sorting is an argument, constrained only where a theorem says so. *)
Definition sorter : Type := list (Z * Z) -> list (Z * Z).

(** pkg/col/simple_writer.go:10-18.  [filename] is not modelled.
    [targetBlockSize] is written but never read by the code. *)
Record swriter : Type := mkSW {
  sw_writer : writer;
  sw_pendingIDs : list Z;
  sw_pendingValues : list Z;
  sw_targetBlockSize : Z;
  sw_closed : bool;
  sw_totalItems : Z
}.

(** pkg/col/simple_writer.go:21-40 [NewSimpleWriter]. *)
Definition NewSimpleWriter (now : Z) (options : list writerOption) (faults : list fault)
  : res swriter :=
  let? w := fst (NewWriter now options faults) in
  Ok (mkSW w [] [] 131072 false 0).

(** pkg/col/simple_writer.go:43-54 [SetTargetBlockSize]. *)
Definition SetTargetBlockSize (size : Z) (sw : swriter) : res unit * swriter :=
  if sw_closed sw then (Err ErrClosed, sw)
  else (Ok tt, mkSW (set_target (sw_writer sw) (u32 size)) (sw_pendingIDs sw) (sw_pendingValues sw)
                    size (sw_closed sw) (sw_totalItems sw)).

(** pkg/col/simple_writer.go:168-175 [isSorted]. *)
Fixpoint isSorted (ids : list Z) : bool :=
  match ids with
  | x :: (y :: _) as l => if y <? x then false else isSorted l
  | _ => true
  end.

(** pkg/col/simple_writer.go:178-208 [sortByID]. *)
Definition sortByID (srt : sorter) (ids values : list Z) : list Z * list Z :=
  split (srt (combine ids values)).

(** pkg/col/simple_writer.go:121-165 [flushIfNeeded].  The recursion of the code is
    on shrinking pending data; [fuel] bounds it and SimpleFacts.v proves that
    [S (length pending)] is always enough ([flush_enough_fuel]). *)
Fixpoint flushIfNeeded (fuel : nat) (force : bool) (sw : swriter) : res unit * swriter :=
  match fuel with
  | O => (Err ErrFuel, sw)
  | S fuel' =>
      if zlen (sw_pendingIDs sw) =? 0 then (Ok tt, sw)
      else
        let shouldWrite := if force then true else zlen (sw_pendingIDs sw) >=? 1000 in
        if shouldWrite then
          let '(r, w') := WriteBlock (sw_pendingIDs sw) (sw_pendingValues sw) (sw_writer sw) in
          match r with
          | Err (ErrBlockFull itemsWritten) =>
              flushIfNeeded fuel' force
                (mkSW w' (zdrop itemsWritten (sw_pendingIDs sw)) (zdrop itemsWritten (sw_pendingValues sw))
                      (sw_targetBlockSize sw) (sw_closed sw) (u64 (sw_totalItems sw + itemsWritten)))
          | Err e => (Err e, mkSW w' (sw_pendingIDs sw) (sw_pendingValues sw)
                                  (sw_targetBlockSize sw) (sw_closed sw) (sw_totalItems sw))
          | Panic => (Panic, mkSW w' (sw_pendingIDs sw) (sw_pendingValues sw)
                                  (sw_targetBlockSize sw) (sw_closed sw) (sw_totalItems sw))
          | Ok _ => (Ok tt, mkSW w' [] [] (sw_targetBlockSize sw) (sw_closed sw)
                                 (u64 (sw_totalItems sw + zlen (sw_pendingIDs sw))))
          end
        else (Ok tt, sw)
  end.

(** pkg/col/simple_writer.go:121-165 [flushIfNeeded]. *)
Definition flush (force : bool) (sw : swriter) : res unit * swriter :=
  flushIfNeeded (S (length (sw_pendingIDs sw))) force sw.

(** pkg/col/simple_writer.go:58-88 [Write]. *)
Definition SWrite (srt : sorter) (ids values : list Z) (sw : swriter) : res unit * swriter :=
  if sw_closed sw then (Err ErrClosed, sw)
  else if negb (zlen ids =? zlen values) then (Err ErrLength, sw)
  else if zlen ids =? 0 then (Ok tt, sw)
  else
    let '(newIDs, newValues) :=
      if negb (isSorted ids) then sortByID srt ids values else (ids, values) in
    flush false (mkSW (sw_writer sw) (sw_pendingIDs sw ++ newIDs) (sw_pendingValues sw ++ newValues)
                      (sw_targetBlockSize sw) (sw_closed sw) (sw_totalItems sw)).

(** pkg/col/simple_writer.go:91-108 [Close]. *)
Definition SClose (now : Z) (sw : swriter) : res unit * swriter :=
  if sw_closed sw then (Ok tt, sw)
  else
    match flush true sw with
    | (Ok _, sw1) =>
        match FinalizeAndClose now (sw_writer sw1) with
        | (Ok _, w') => (Ok tt, mkSW w' (sw_pendingIDs sw1) (sw_pendingValues sw1)
                                     (sw_targetBlockSize sw1) true (sw_totalItems sw1))
        | (Err e, w') => (Err e, mkSW w' (sw_pendingIDs sw1) (sw_pendingValues sw1)
                                      (sw_targetBlockSize sw1) (sw_closed sw1) (sw_totalItems sw1))
        | (Panic, w') => (Panic, mkSW w' (sw_pendingIDs sw1) (sw_pendingValues sw1)
                                      (sw_targetBlockSize sw1) (sw_closed sw1) (sw_totalItems sw1))
        end
    | (Err e, sw1) => (Err e, sw1)
    | (Panic, sw1) => (Panic, sw1)
    end.

(** pkg/col/simple_writer.go:111-118 *)
Definition IsClosed (sw : swriter) : bool := sw_closed sw.
(** pkg/col/simple_writer.go:111-118 [IsClosed], [TotalItems]. *)
Definition TotalItems (sw : swriter) : Z := sw_totalItems sw.

(** A client's calls on a SimpleWriter, and histories of them (pkg/col/simple_writer.go:43, 58, 91). *)
Inductive scall : Set :=
| SCWrite (ids values : list Z)
| SCSetTarget (size : Z)
| SCClose (now : Z).

(** pkg/col/simple_writer.go:43, 58, 91. *)
Definition run_scall (srt : sorter) (c : scall) (sw : swriter) : res unit * swriter :=
  match c with
  | SCWrite ids values => SWrite srt ids values sw
  | SCSetTarget size => SetTargetBlockSize size sw
  | SCClose now => SClose now sw
  end.

(** No code: any program that uses pkg/col/simple_writer.go:21-108. *)
Fixpoint run_scalls (srt : sorter) (cs : list scall) (sw : swriter) : list (res unit) * swriter :=
  match cs with
  | [] => ([], sw)
  | c :: cs' =>
      let '(r, sw1) := run_scall srt c sw in
      let '(rs, sw2) := run_scalls srt cs' sw1 in
      (r :: rs, sw2)
  end.

End SimpleWriter.
