(** Specification vocabulary for damage that stays where it is (C79). *)
From Verif Require Import Machine Encoding Sroar Writer Reader Aggregate Spec AnySpec.

(** Two files of the same length that agree on every byte outside [X]. *)
Definition same_outside (X : Z -> Prop) (data data' : list Z) : Prop :=
  zlen data' = zlen data
  /\ forall p, 0 <= p -> ~ X p -> nth_error data' (Z.to_nat p) = nth_error data (Z.to_nat p).

(** Nothing in [X] is in [Y]. *)
Definition avoids (X Y : Z -> Prop) : Prop := forall p, X p -> ~ Y p.

(** The parts of a file, as its header and footer describe them: the file header, the
    footer and the 24 bytes behind it; *)
Definition footer_start (r : reader) : Z := i64 (zlen (r_data r) - 24 - i64 (fm_size (r_meta r))).
Definition opening_part (r : reader) (p : Z) : Prop :=
  0 <= p < 64
  \/ footer_start r <= p < footer_start r + 4 + 56 * zlen (r_index r)
  \/ zlen (r_data r) - 24 <= p.
(** the sections of block [i], behind its header of 64 bytes; *)
Definition block_part (r : reader) (i p : Z) : Prop :=
  exists e, nth_error (r_index r) (Z.to_nat i) = Some e
    /\ i64 (e_offset e) + 64 <= p < i64 (e_offset e) + e_size e.
(** and the bitmap: its length in four bytes and that many bytes. *)
Definition bitmap_part (r : reader) (p : Z) : Prop :=
  let off := i64 (h_bitmapOffset (r_header r)) in
  off <= p < off + 4 + le_val (slice (r_data r) off 4).

Section Damage.
Context {Srr : Sroar}.

(** Block [i] matters to an aggregation: it reads data at all, and the index does not rule
    the block out. *)
Definition matters (r : reader) (opts : aggOptions) (i : Z) : Prop :=
  reads_data r opts /\ claimed_in_range r (o_filter opts) i = true.

(** All bytes of the blocks whose numbers are in [J], headers and padding included. *)
Definition in_blocks (r : reader) (J : Z -> Prop) (p : Z) : Prop :=
  exists i e, 0 <= i /\ J i /\ nth_error (r_index r) (Z.to_nat i) = Some e
    /\ e_offset e <= p < e_offset e + e_size e.

End Damage.
