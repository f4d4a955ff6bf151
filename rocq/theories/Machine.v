(** Machine integers, byte strings and outcomes used by the whole model.
    Go's fixed width integers are represented by [Z]; every place where the Go
    code can wrap around is written with [u64], [u32] or [i64]. *)
From Coq Require Export ZArith List Bool Lia.
From Coq Require Export ZifyBool ZifyNat.
Export ListNotations.
Global Open Scope Z_scope.
Global Open Scope list_scope.

(** Bounds of the Go types byte, uint32, int64 and uint64, used for instance at pkg/col/encoding.go:83-99 and format.go:33-88. *)
Definition two8 : Z := 256.
(** Bound of uint32 (pkg/col/format.go:33-88). *)
Definition two32 : Z := 4294967296.
(** Bound of int64 (pkg/col/encoding.go:83-99). *)
Definition two63 : Z := 9223372036854775808.
(** Bound of uint64 (pkg/col/encoding.go:83-99). *)
Definition two64 : Z := 18446744073709551616.

(** Go conversions [uint64(x)], [uint32(x)], [int64(x)] (wrap around)
    (pkg/col/encoding.go:83-99, 176-206, writer_block_io.go:111). *)
Definition u64 (x : Z) : Z := x mod two64.
(** [uint32(x)] (pkg/col/writer_block_io.go:303). *)
Definition u32 (x : Z) : Z := x mod two32.
(** [int64(x)] (pkg/col/encoding.go:93-99, 193-206). *)
Definition i64 (x : Z) : Z := (x + two63) mod two64 - two63.

(** The values a Go variable of the given type can hold (the fields of pkg/col/format.go:33-97). *)
Definition is_byte (x : Z) : Prop := 0 <= x < two8.
(** A uint32 (pkg/col/format.go:33-97). *)
Definition is_u32 (x : Z) : Prop := 0 <= x < two32.
(** A uint64 (pkg/col/format.go:33-97). *)
Definition is_u64 (x : Z) : Prop := 0 <= x < two64.
(** An int64 (pkg/col/format.go:33-97). *)
Definition is_i64 (x : Z) : Prop := - two63 <= x < two63.

(** pkg/col/reader_aggregate.go:59-60 *)
Definition max_int64 : Z := 9223372036854775807.
(** pkg/col/reader_aggregate.go:60 *)
Definition min_int64 : Z := -9223372036854775808.

(** Lists indexed by [Z]: [len(s)], [s[:n]], [s[n:]], [s[off:off+n]]
    (for instance pkg/col/reader_block.go:9-69, writer_block_io.go:21-68). *)
Definition zlen {A} (l : list A) : Z := Z.of_nat (length l).
(** [s[:n]] (pkg/col/writer_block_io.go:58-68). *)
Definition ztake {A} (n : Z) (l : list A) : list A := firstn (Z.to_nat n) l.
(** [s[n:]] (pkg/col/writer_block_io.go:58-68). *)
Definition zdrop {A} (n : Z) (l : list A) : list A := skipn (Z.to_nat n) l.
(** [s[off:off+n]] (pkg/col/reader_block.go:9-69). *)
Definition slice {A} (l : list A) (off n : Z) : list A := ztake n (zdrop off l).
(** [make([]byte, n)] (pkg/col/reader_io.go:10-20, writer_header.go:47-48). *)
Definition zeros (n : Z) : list Z := repeat 0 (Z.to_nat n).
(** [0, 1, ..., n-1] (pkg/col/reader_aggregate.go:101, 139-142, 298-301). *)
Definition zseq (n : Z) : list Z := map Z.of_nat (seq 0 (Z.to_nat n)).

(** [binary.Write(_, binary.LittleEndian, x)] for an integer of [n] bytes
    (two's complement for negative [x]), and [binary.LittleEndian.UintN]
    (pkg/col/writer_header.go:35-39, writer_block.go:18-41, writer_finalize.go:84-88). *)
Fixpoint le_bytes (n : nat) (x : Z) : list Z :=
  match n with
  | O => []
  | S n' => x mod 256 :: le_bytes n' (x / 256)
  end.

(** [binary.LittleEndian.Uint64], [Uint32]: pkg/col/reader_io.go:41-48. *)
Fixpoint le_val (bs : list Z) : Z :=
  match bs with
  | [] => 0
  | b :: bs' => b + 256 * le_val bs'
  end.

(** Error values.  Message texts are not modelled; the error type
    [*BlockFullError] (pkg/col/writer_block_io.go:10-16) keeps its payload. *)
Inductive err : Set :=
| ErrLength        (* "ids and values must have the same length" *)
| ErrEmpty         (* "cannot write empty block" / "cannot estimate empty block" *)
| ErrEncoding      (* "unsupported encoding type" *)
| ErrZeroSize      (* an encoded item or a section has size 0 *)
| ErrMismatch      (* a size verification failed *)
| ErrPositions     (* "block position tracking error" *)
| ErrIO            (* a failed Seek, Write, ReadAt or Close *)
| ErrSync          (* a failed Sync *)
| ErrClosed        (* SimpleWriter: "writer is already closed" *)
| ErrBlockFull (itemsWritten : Z)
| ErrMagic | ErrVersion | ErrFooter   (* NewReader validation *)
| ErrIndex         (* "invalid block index" *)
| ErrSection       (* section size 0 or out of the block *)
| ErrVarint        (* "failed to decode uvarint" *)
| ErrFuel.         (* model only: recursion fuel exhausted; proved unreachable *)

(** Outcome of a Go call: a result, an error, or a run-time panic
    (the pairs (value, error) of pkg/col, for instance pkg/col/reader.go:23-56). *)
Inductive res (A : Type) : Type :=
| Ok (a : A)
| Err (e : err)
| Panic.
Arguments Ok {A} a.
Arguments Err {A} e.
Arguments Panic {A}.

(** [if err != nil { return nil, err }], as at pkg/col/reader.go:44-53. *)
Definition rbind {A B} (m : res A) (k : A -> res B) : res B :=
  match m with
  | Ok a => k a
  | Err e => Err e
  | Panic => Panic
  end.

Notation "'let?' x ':=' m 'in' k" := (rbind m (fun x => k))
  (at level 200, x pattern, m at level 100, k at level 200).
