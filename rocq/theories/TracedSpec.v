(** Specification vocabulary for what a call reads (C81).  A read is (offset, size). *)
From Verif Require Import Machine Encoding Sroar Writer Reader Aggregate Spec AnySpec DamageSpec.

(** Where the sections of block [i] are: behind the block's header of 64 bytes, to its end. *)
Definition sections_of (r : reader) (i : Z) : list (Z * Z) :=
  match nth_error (r_index r) (Z.to_nat i) with
  | Some e => [(e_offset e + 64, e_size e - 64)]
  | None => []
  end.

(** What opening reads: the file header, the last 24 bytes, the number of index entries and
    the index, 56 bytes for each of its entries. *)
Definition opening_reads (r : reader) : list (Z * Z) :=
  [(0, 64); (zlen (r_data r) - 24, 24); (footer_start r, 4)]
  ++ match r_index r with [] => [] | _ => [(footer_start r + 4, 56 * zlen (r_index r))] end.

(** The numbers of the blocks that the index does not rule out. *)
Definition candidates {Srr : Sroar} (r : reader) (opts : aggOptions) : list Z :=
  filter (claimed_in_range r (o_filter opts)) (zseq (BlockCount r)).

(** A read of bytes between [lo] and [hi] only. *)
Definition within (lo hi : Z) (x : Z * Z) : Prop := lo <= fst x /\ 0 < snd x /\ fst x + snd x <= hi.
(** Two reads have no byte in common. *)
Definition apart (x y : Z * Z) : Prop := fst x + snd x <= fst y \/ fst y + snd y <= fst x.
(** How many bytes are read. *)
Definition bytes_read (l : list (Z * Z)) : Z := zsum (map snd l).
(** What loading the ID bitmap reads: its length in four bytes, and that many bytes. *)
Definition bitmap_reads (r : reader) : list (Z * Z) :=
  let off := h_bitmapOffset (r_header r) in
  let size := h_bitmapSize (r_header r) - 4 in
  (off, 4) :: (if size =? 0 then [] else [(off + 4, size)]).
(** The parts of a file: what opening reads, the sections of all blocks, the bitmap. *)
Definition all_parts (r : reader) : list (Z * Z) :=
  opening_reads r ++ flat_map (sections_of r) (zseq (BlockCount r)) ++ bitmap_reads r.
(** Two files have the same bytes wherever one of the reads [l] goes. *)
Definition agree_on (l : list (Z * Z)) (data data' : list Z) : Prop :=
  forall off n, In (off, n) l -> slice data' off n = slice data off n.
(** The same reader on another file. *)
Definition on_bytes (r : reader) (data : list Z) : reader :=
  mkReader data (r_open r) (r_header r) (r_meta r) (r_index r) (r_globalIDs r) (r_cacheGlobalIDs r).
(** A reader just opened, on any accepted file of fewer than 2^31 blocks whose entries leave
    room for a block header and layout. *)
Definition fresh_file (r : reader) : Prop := exists data, Forall is_byte data /\ NewReader data = Ok r
  /\ Forall (fun e => 80 <= e_size e) (r_index r) /\ BlockCount r < 2 ^ 31.

(** Let [io off n] say whether the read of [n] bytes at [off] succeeds. *)
Definition works (io : Z -> Z -> bool) (l : list (Z * Z)) : Prop := forall off n, In (off, n) l -> io off n = true.
Definition fails (io : Z -> Z -> bool) (l : list (Z * Z)) : Prop := exists off n, In (off, n) l /\ io off n = false.
(** The reads [ts] of several files work; [ios] are in the same order. *)
Definition all_work (ios : list (Z -> Z -> bool)) (ts : list (list (Z * Z))) : Prop :=
  Forall (fun '(io, t) => works io t) (combine ios ts).
