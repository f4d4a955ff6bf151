(** Specification vocabulary for what an encoding costs (C80). *)
From Verif Require Import Machine Encoding Sroar Writer Spec.

(** Bytes of a varint: seven bits in each. *)
Definition varint_width (x : Z) : Z := Z.log2 x / 7 + 1.
(** Signed values alternate: 0, -1, 1, -2, 2, ... *)
Definition alternate (v : Z) : Z := if v <? 0 then -2 * v - 1 else 2 * v.
(** The first number, then what must be added to each to get the next, in 64 bits. *)
Definition steps (wrap : Z -> Z) (l : list Z) : list Z :=
  match l with
  | [] => []
  | x :: l' => x :: map (fun '(a, b) => wrap (b - a)) (combine l l')
  end.

(** Bytes of a block's header, layout and two sections, without padding. *)
Definition content (e : Z) (ids vals : list Z) : Z :=
  80 + (if e =? EncodingVarInt then
          zsum (map varint_width ids) + zsum (map (fun v => varint_width (alternate v)) vals)
        else if e =? EncodingVarIntBoth then
          zsum (map varint_width (steps u64 ids))
          + zsum (map (fun v => varint_width (alternate v)) (steps i64 vals))
        else 8 * zlen ids + 8 * zlen vals).

(** [s] is [n] rounded up so that a block that starts at [p] ends on a page boundary. *)
Definition padded (p n s : Z) : Prop := n <= s < n + 4096 /\ (p + s) mod 4096 = 0.

(** The next multiple of the page size. *)
Definition page_up (n : Z) : Z := (n + 4095) / 4096 * 4096.
(** Where blocks of these contents end when the first starts at [p]. *)
Fixpoint blocks_end (p : Z) (contents : list Z) : Z :=
  match contents with
  | [] => p
  | c :: cs => blocks_end (page_up (p + c)) cs
  end.
(** Bytes of the ID bitmap with its length: the library's serialization of a new bitmap in
    which the IDs of the blocks were set in order. *)
Definition bitmap_size {Srr : Sroar} (blocks : list block) : Z :=
  4 + zlen (bm_ser (fold_left bm_set (flat_map fst blocks) bm_new)).
