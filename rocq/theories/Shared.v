(** Model of several goroutines that use one Reader at the same time
    (pkg/col/reader.go 59-61, 94-96, 128-179; reader_block.go 9-69;
    reader_aggregate.go 40-133, 213-267).

    What the goroutines share is the open file, the field [cacheGlobalIDs], the field
    [globalIDs] and the bitmaps in memory; the header and the block index are never
    written after NewReader.  Every access to a shared thing is one step; steps of
    different goroutines interleave in any order (the fields are single words: a step
    reads or writes one of them at once, which is an assumption about Go's memory
    model, since the code has no synchronisation there). *)
From Verif Require Import Machine Encoding Sroar Writer Reader Aggregate.

Section Shared.
Context {Srr : Sroar}.

(** The calls of a goroutine: GetPairs, AggregateWithOptions with Parallel = 0,
    GetGlobalIDBitmap, the two switches, and Close. *)
Inductive op : Type :=
| OGetPairs (i : Z)
| OAggregate (opts : aggOptions)
| OGetGlobalIDBitmap
| OEnable
| ODisable
| OClose.

(** Their answers; [ABitmap (Ok None)] is a nil bitmap without an error
    (the results of pkg/col/reader.go:59, 94, 128, 133, 141 and reader_aggregate.go:45). *)
Inductive answer : Type :=
| APairs (a : res (list Z * list Z))
| AAggregate (a : res aggResult)
| ABitmap (a : res (option nat))
| ASwitched
| AClosed (a : res unit).

(** What is left of a call: the next shared access and what follows
    (the accesses of pkg/col/reader.go:129-177 and of [ReadAt] at reader_io.go:10-20). *)
Inductive prog : Type :=
| Ret (a : answer)
| DoRead (k : bool -> prog)              (* one ReadAt: was the file open? *)
| GetFlag (k : bool -> prog)
| SetFlag (b : bool) (p : prog)
| GetPtr (k : option nat -> prog)
| SetPtr (q : option nat) (p : prog)
| NewBitmap (b : bm) (k : nat -> prog)
| DoClose (k : bool -> prog).            (* was the file open? *)

(** The reader with its file open or not: the field [file] of pkg/col/reader.go:13. *)
Definition at_open (r : reader) (o : bool) : reader :=
  mkReader (r_data r) o (r_header r) (r_meta r) (r_index r) (r_globalIDs r) (r_cacheGlobalIDs r).

(** The loops of reader_aggregate.go:99-118 and 226-252: one ReadAt per block.  A block
    number outside the index is rejected before the read (reader_block.go:11-13). *)
Fixpoint scan_prog (get : bool -> Z -> res (list Z * list Z)) (idx : list Z) (a : acc) : prog :=
  match idx with
  | [] => Ret (AAggregate (Ok (result_of a)))
  | i :: idx' =>
      DoRead (fun o => match add_block a (get o i) with
                       | Ok a' => scan_prog get idx' a'
                       | Err e => Ret (AAggregate (Err e))
                       | Panic => Ret (AAggregate Panic)
                       end)
  end.

(** reader_aggregate.go:45-133 and 213-267, Parallel = 0. *)
Definition aggregate_prog (r : reader) (opts : aggOptions) : prog :=
  if has_filter opts then
    match FilteredBlockIterator r (o_filter opts) (o_deny opts) with
    | Ok matchingBlocks =>
        if zlen matchingBlocks =? 0 then Ret (AAggregate (Ok zeroResult))
        else scan_prog (fun o i => readBlockFiltered (at_open r o) (i64 i) (o_filter opts) (o_deny opts))
                       matchingBlocks acc0
    | Err e => Ret (AAggregate (Err e))
    | Panic => Ret (AAggregate Panic)
    end
  else if (zlen (r_index r) >? 0) && negb (o_skip opts) then
    Ret (AAggregate (Ok (result_of (fold_left add_entry (r_index r) acc0))))
  else scan_prog (fun o => GetPairs (at_open r o)) (zseq (BlockCount r)) acc0.

(** reader.go:150-154 and 173-178: [if r.cacheGlobalIDs { r.globalIDs = bitmap }; return bitmap]. *)
Definition keep_prog (b : bm) : prog :=
  NewBitmap b (fun p => GetFlag (fun on =>
    if on then SetPtr (Some p) (Ret (ABitmap (Ok (Some p)))) else Ret (ABitmap (Ok (Some p))))).

(** reader.go:147-178. *)
Definition load_prog (r : reader) : prog :=
  if (h_bitmapOffset (r_header r) =? 0) || (h_bitmapSize (r_header r) =? 0) then keep_prog bm_new
  else
    let off := i64 (h_bitmapOffset (r_header r)) in
    DoRead (fun o1 =>
      match (let? sizeBuf := readBytesAt (r_data r) o1 off 4 in readBufferedUint32 sizeBuf 0) with
      | Err e => Ret (ABitmap (Err e))
      | Panic => Ret (ABitmap Panic)
      | Ok bitmapSize =>
          DoRead (fun o2 =>
            match (let? buf := readBytesAt (r_data r) o2 (i64 (off + 4)) bitmapSize in bm_deser buf) with
            | Err e => Ret (ABitmap (Err e))
            | Panic => Ret (ABitmap Panic)
            | Ok b => keep_prog b
            end)
      end).

(** reader.go:141-145: [if r.globalIDs != nil && r.cacheGlobalIDs { return r.globalIDs, nil }]. *)
Definition bitmap_prog (r : reader) : prog :=
  GetPtr (fun p =>
    match p with
    | None => load_prog r
    | Some _ => GetFlag (fun on => if on then GetPtr (fun p' => Ret (ABitmap (Ok p'))) else load_prog r)
    end).

(** reader.go:59-61, 94-96, 128-136. *)
Definition prog_of (r : reader) (c : op) : prog :=
  match c with
  | OGetPairs i => DoRead (fun o => Ret (APairs (GetPairs (at_open r o) i)))
  | OAggregate opts => aggregate_prog r opts
  | OGetGlobalIDBitmap => bitmap_prog r
  | OEnable => SetFlag true (Ret ASwitched)
  | ODisable => SetFlag false (SetPtr None (Ret ASwitched))
  | OClose => DoClose (fun o => Ret (AClosed (if o then Ok tt else Err ErrIO)))
  end.

(** The shared things (pkg/col/reader.go:13, 18, 19). *)
Record shared : Type := mkShared { s_open : bool; s_flag : bool; s_ptr : option nat; s_heap : heap }.

(** A goroutine: the calls it has yet to make, the one it is in, and the calls it made
    with their answers (oldest first) (no code: the client of pkg/col/reader.go). *)
Record thread : Type := mkThread { t_todo : list op; t_now : option (op * prog); t_log : list (op * answer) }.

(** One access (pkg/col/reader.go:95, 129, 134-135, 143-144, 149-152, 171-175; reader_io.go:10-20). *)
Definition access (p : prog) (s : shared) : prog * shared :=
  match p with
  | Ret a => (Ret a, s)
  | DoRead k => (k (s_open s), s)
  | GetFlag k => (k (s_flag s), s)
  | SetFlag b p' => (p', mkShared (s_open s) b (s_ptr s) (s_heap s))
  | GetPtr k => (k (s_ptr s), s)
  | SetPtr q p' => (p', mkShared (s_open s) (s_flag s) q (s_heap s))
  | NewBitmap b k => let '(q, h) := alloc (s_heap s) b in (k q, mkShared (s_open s) (s_flag s) (s_ptr s) h)
  | DoClose k => (k (s_open s), mkShared false (s_flag s) (s_ptr s) (s_heap s))
  end.

(** One step of a goroutine: begin the next call, return from the current one, or make
    its next access (no code: the Go scheduler). *)
Definition step_thread (r : reader) (t : thread) (s : shared) : thread * shared :=
  match t_now t with
  | None =>
      match t_todo t with
      | [] => (t, s)
      | c :: todo => (mkThread todo (Some (c, prog_of r c)) (t_log t), s)
      end
  | Some (c, Ret a) => (mkThread (t_todo t) None (t_log t ++ [(c, a)]), s)
  | Some (c, p) => let '(p', s') := access p s in (mkThread (t_todo t) (Some (c, p')) (t_log t), s')
  end.

(** No code: replaces one goroutine in the list. *)
Fixpoint update {A} (n : nat) (x : A) (l : list A) : list A :=
  match l, n with
  | [], _ => []
  | _ :: l', O => x :: l'
  | y :: l', S n' => y :: update n' x l'
  end.

(** A schedule names the goroutine that moves next (no code: the Go scheduler). *)
Fixpoint interleave (r : reader) (sched : list nat) (ts : list thread) (s : shared) : list thread * shared :=
  match sched with
  | [] => (ts, s)
  | n :: sched' =>
      match nth_error ts n with
      | None => interleave r sched' ts s
      | Some t =>
          let '(t', s') := step_thread r t s in
          interleave r sched' (update n t' ts) s'
      end
  end.

(** Goroutines with these calls, on a reader as it is now
    (no code: the client of pkg/col/reader.go:23-179). *)
Definition start (programs : list (list op)) : list thread := map (fun p => mkThread p None []) programs.
(** The fields of pkg/col/reader.go:12-20 that calls may change. *)
Definition shared_of (r : reader) (h : heap) : shared := mkShared (r_open r) (r_cacheGlobalIDs r) (r_globalIDs r) h.
(** No code: the client's goroutines on one Reader (pkg/col/reader.go:23-179). *)
Definition together (r : reader) (programs : list (list op)) (sched : list nat) : list thread * shared :=
  interleave r sched (start programs) (shared_of r []).

End Shared.
