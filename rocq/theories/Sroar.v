(** The external library github.com/weaviate/sroar (64-bit roaring bitmaps) is not
    part of /repo.  The model takes its operations as a record; the laws the
    library is trusted to satisfy are a separate predicate that appears as an
    explicit premise of the theorems that need it. *)
From Verif Require Import Machine.

(** The operations used: [NewBitmap] (pkg/col/writer.go:45, reader.go:149), [Set] (writer_block_io.go:74-76),
    [Contains], [Minimum], [Maximum] (reader_aggregate.go:161-162, 197-200), [Or] (pkg/multicol/aggregate.go:82),
    [ToBuffer] (writer_finalize.go:19), [FromBuffer] (reader.go:171). *)
Class Sroar : Type := {
  bm : Set;                          (* *sroar.Bitmap, as a value *)
  bm_new : bm;                       (* sroar.NewBitmap() *)
  bm_set : bm -> Z -> bm;            (* b.Set(x) *)
  bm_contains : bm -> Z -> bool;     (* b.Contains(x) *)
  bm_min : bm -> Z;                  (* b.Minimum() *)
  bm_max : bm -> Z;                  (* b.Maximum() *)
  bm_or : bm -> bm -> bm;            (* a.Or(b) *)
  bm_ser : bm -> list Z;             (* b.ToBuffer() *)
  bm_deser : list Z -> res bm        (* sroar.FromBuffer(buf) *)
}.

(** Same contents (not code: part of the laws). *)
Definition bm_equiv {S : Sroar} (a b : bm) : Prop :=
  forall y, is_u64 y -> bm_contains a y = bm_contains b y.

(** At least one element (not code: part of the laws). *)
Definition bm_nonempty {S : Sroar} (b : bm) : Prop :=
  exists y, is_u64 y /\ bm_contains b y = true.

(** What is trusted of the library at those call sites. *)
Class SroarLaws (S : Sroar) : Prop := {
  law_new : forall y, is_u64 y -> bm_contains bm_new y = false;
  law_set : forall b x y, is_u64 x -> is_u64 y ->
      bm_contains (bm_set b x) y = (x =? y) || bm_contains b y;
  law_or : forall a b y, is_u64 y ->
      bm_contains (bm_or a b) y = bm_contains a y || bm_contains b y;
  law_min : forall b y, is_u64 y -> bm_contains b y = true -> bm_min b <= y;
  law_max : forall b y, is_u64 y -> bm_contains b y = true -> y <= bm_max b;
  law_min_in : forall b, bm_nonempty b ->
      is_u64 (bm_min b) /\ bm_contains b (bm_min b) = true;
  law_max_in : forall b, bm_nonempty b ->
      is_u64 (bm_max b) /\ bm_contains b (bm_max b) = true;
  law_empty : forall b, ~ bm_nonempty b -> bm_min b = 0 /\ bm_max b = 0;
  law_ser_bytes : forall b, Forall is_byte (bm_ser b);
  law_ser : forall b, exists b', bm_deser (bm_ser b) = Ok b' /\ bm_equiv b' b
}.

(** A concrete instance, used for the examples and to show that the laws can be
    met: a bitmap is the list of its elements, serialised as 8-byte words. *)
Fixpoint words_of (n : nat) (bs : list Z) : list Z :=
  match n with
  | O => []
  | S n' => le_val (firstn 8 bs) :: words_of n' (skipn 8 bs)
  end.

#[global] Instance list_sroar : Sroar := {|
  bm := list Z;
  bm_new := [];
  bm_set b x := if existsb (fun y => u64 y =? u64 x) b then b else u64 x :: b;
  bm_contains b y := existsb (fun x => u64 x =? y) b;
  bm_min b := match map u64 b with [] => 0 | x :: b' => fold_left Z.min b' x end;
  bm_max b := match map u64 b with [] => 0 | x :: b' => fold_left Z.max b' x end;
  bm_or a b := a ++ b;
  bm_ser b := flat_map (fun x => le_bytes 8 x) b;
  bm_deser bs := Ok (words_of (Nat.div (length bs) 8) bs)
|}.
