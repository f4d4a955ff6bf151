(** What /repo/column_format_spec.md says a column file looks like, as a predicate on its bytes.
    Nothing here mentions the code; [footerEntry] is only used as a tuple of eight numbers, and
    [true_entry] (Spec.v) says that they are the statistics of a block.

    Where the document is silent or contradicts itself, the reading is:
    - all integers are little endian;
    - the magic number is 0x5642455F434F4C00 ("VBE_COL" and a zero byte, in that order from the
      most significant byte); the document's "VIBE_COL" would be another number;
    - the header's reserved field is 4 bytes long (with the document's 8 the header would have 68
      bytes, not the 64 it announces), and index entries have 56 bytes (the sizes listed in
      section 5.1 add up to 56, not to the 48 it announces);
    - section offsets in the block layout count from the end of the layout;
    - without varints an element takes 8 bytes, also when it is a difference;
    - the statistics of values are stored as sign and magnitude;
    - "Footer Size" does not count the last 24 bytes;
    - checksums are not looked at: the two checksum fields may hold anything. *)
From Verif Require Import Machine Sroar Reader Spec.

(** An unsigned integer of [n] bytes at offset [o]. *)
Definition field (n : Z) (F : list Z) (o v : Z) : Prop :=
  0 <= o /\ o + n <= zlen F /\ 0 <= v < 2 ^ (8 * n) /\ le_val (slice F o n) = v.

Definition format_magic : Z := 0x5642455F434F4C00.

(** Section 3: the file header. *)
Record header_fields (F : list Z) (count target encoding time bitmap_offset bitmap_size : Z) : Prop := {
  hf_magic : field 8 F 0 format_magic;
  hf_version : field 4 F 8 1;
  hf_type : field 4 F 12 0;
  hf_count : field 8 F 16 count;
  hf_target : field 4 F 24 target;
  hf_compression : field 4 F 28 0;
  hf_encoding : field 4 F 32 encoding;
  hf_time : field 8 F 36 time;
  hf_bitmap_offset : field 8 F 44 bitmap_offset;
  hf_bitmap_size : field 8 F 52 bitmap_size;
  hf_length : 64 <= zlen F
}.

(** Section 3.1: the bitmap of all IDs, anywhere behind the header. *)
Definition bitmap_at {Srr : Sroar} (F : list Z) (offset size : Z) (b : bm) : Prop :=
  64 <= offset /\ size = 4 + zlen (bm_ser b) /\ offset + size <= zlen F
  /\ field 4 F offset (zlen (bm_ser b)) /\ slice F (offset + 4) (zlen (bm_ser b)) = bm_ser b.

(** Section 4.1: the header in front of a block repeats the index entry. *)
Record block_header_fields (F : list Z) (encoding : Z) (e : footerEntry) : Prop := {
  bf_minID : field 8 F (e_offset e) (e_minID e);
  bf_maxID : field 8 F (e_offset e + 8) (e_maxID e);
  bf_minValue : field 8 F (e_offset e + 16) (e_minValue e);
  bf_maxValue : field 8 F (e_offset e + 24) (e_maxValue e);
  bf_sum : field 8 F (e_offset e + 32) (e_sum e);
  bf_count : field 4 F (e_offset e + 40) (e_count e);
  bf_encoding : field 4 F (e_offset e + 44) encoding;
  bf_compression : field 4 F (e_offset e + 48) 0
}.

(** Section 8.1: base 128, least significant group first, the top bit set on all bytes but the
    last.  A number may be written with more groups than it needs, up to ten in all. *)
Inductive base128 : Z -> list Z -> Prop :=
| base128_last v : 0 <= v < 128 -> base128 v [v]
| base128_more low v bs : 0 <= low < 128 -> base128 v bs -> base128 (low + 128 * v) ((128 + low) :: bs).
Definition varints (numbers : list Z) (bytes : list Z) : Prop :=
  exists chunks, bytes = concat chunks /\ Forall2 base128 numbers chunks /\ Forall (fun c => zlen c <= 10) chunks.
Definition words (numbers : list Z) (bytes : list Z) : Prop := bytes = concat (map (le_bytes 8) numbers).

(** Section 8.2. *)
Definition zigzag_number (v : Z) : Z := if v <? 0 then - 2 * v - 1 else 2 * v.

(** Section 8.3: the first number as is, then differences in 64-bit arithmetic. *)
Definition differences (wrap : Z -> Z) (l : list Z) : list Z :=
  match l with
  | [] => []
  | x :: rest => x :: map (fun p => wrap (snd p - fst p)) (combine l rest)
  end.

(** Section 4.2: which sections are differences and which are varints.  1 = delta-ID,
    2 = delta-value, 3 = delta-both, 4 = varint, 5 = varint-ID, 6 = varint-value,
    7 = varint-both. *)
Definition id_section (encoding : Z) (ids : list Z) (bytes : list Z) : Prop :=
  let numbers := if existsb (Z.eqb encoding) [1; 3; 5; 7] then differences u64 ids else ids in
  if existsb (Z.eqb encoding) [4; 5; 7] then varints numbers bytes else words numbers bytes.
Definition val_section (encoding : Z) (vals : list Z) (bytes : list Z) : Prop :=
  let numbers := if existsb (Z.eqb encoding) [2; 3; 6; 7] then differences i64 vals else vals in
  if existsb (Z.eqb encoding) [4; 6; 7] then varints (map zigzag_number numbers) bytes else words numbers bytes.

(** Sections 4 and 4.2: the layout behind the block header and the two sections, in any order and
    with any gaps, inside the block. *)
Definition block_at (F : list Z) (encoding : Z) (e : footerEntry) (b : block) : Prop :=
  64 <= e_offset e /\ e_offset e + e_size e <= zlen F
  /\ exists idOffset idSize valOffset valSize,
       field 4 F (e_offset e + 64) idOffset /\ field 4 F (e_offset e + 68) idSize
       /\ field 4 F (e_offset e + 72) valOffset /\ field 4 F (e_offset e + 76) valSize
       /\ 80 + idOffset + idSize <= e_size e /\ 80 + valOffset + valSize <= e_size e
       /\ id_section encoding (fst b) (slice F (e_offset e + 80 + idOffset) idSize)
       /\ val_section encoding (snd b) (slice F (e_offset e + 80 + valOffset) valSize).

(** Section 5.1: one entry of the block index, at offset [o]. *)
Record entry_fields (F : list Z) (o : Z) (e : footerEntry) : Prop := {
  ef_offset : field 8 F o (e_offset e);
  ef_size : field 4 F (o + 8) (e_size e);
  ef_minID : field 8 F (o + 12) (e_minID e);
  ef_maxID : field 8 F (o + 20) (e_maxID e);
  ef_minValue : field 8 F (o + 28) (e_minValue e);
  ef_maxValue : field 8 F (o + 36) (e_maxValue e);
  ef_sum : field 8 F (o + 44) (e_sum e);
  ef_count : field 4 F (o + 52) (e_count e)
}.

(** Section 5: the footer starts at [start]. *)
Record footer_fields (F : list Z) (start : Z) (entries : list footerEntry) : Prop := {
  ff_start : 64 <= start;
  ff_length : zlen F = start + 4 + 56 * zlen entries + 24;
  ff_count : field 4 F start (zlen entries);
  ff_entries : forall i e, nth_error entries i = Some e -> entry_fields F (start + 4 + 56 * Z.of_nat i) e;
  ff_size : field 8 F (zlen F - 24) (4 + 56 * zlen entries);
  ff_magic : field 8 F (zlen F - 8) format_magic
}.

(** A file that holds [blocks]. *)
Definition conforms {Srr : Sroar} (F : list Z) (target encoding time : Z) (b : bm) (blocks : list block) : Prop :=
  exists bitmap_offset bitmap_size start entries,
    header_fields F (zlen blocks) target encoding time bitmap_offset bitmap_size
    /\ bitmap_at F bitmap_offset bitmap_size b
    /\ (forall id, In id (flat_map fst blocks) -> bm_contains b id = true)
    /\ footer_fields F start entries
    /\ Forall2 (fun e x => true_entry x e /\ block_header_fields F encoding e /\ block_at F encoding e x) entries blocks.

(** The sizes this model is about. *)
Definition format_limits (F : list Z) (blocks : list block) : Prop :=
  zlen F < 2 ^ 63 /\ 56 * zlen blocks < 2 ^ 32
  /\ Forall (fun b => typed_block (fst b) (snd b) /\ well_formed (fst b) (snd b)) blocks.
