(** Vocabulary for C68: how well a SimpleWriter fills its blocks. *)
From Verif Require Import Machine Encoding Sroar FileIO Writer SimpleWriter.

(** Most bytes one pair takes in a block: two 8-byte integers, or two varints of up to
    ten bytes. *)
Definition pair_bytes (e : Z) : Z :=
  if (e =? EncodingRaw) || (e =? EncodingDeltaBoth) || (e =? EncodingDeltaID) || (e =? EncodingDeltaValue)
  then 16 else 20.

(** The client never calls SetTargetBlockSize. *)
Definition target_kept (h : list (scall * res unit)) : Prop := forall s r, ~ In (SCSetTarget s, r) h.

(** The block size targets in force at the Writes and Closes of a history: the one the
    writer was created with until a SetTargetBlockSize call succeeds, then the one set
    last.  The target is kept in 32 bits. *)
Fixpoint in_force (t : Z) (h : list (scall * res unit)) : list Z :=
  match h with
  | [] => []
  | (SCSetTarget size, r) :: h' => in_force (match r with Ok _ => size mod 2 ^ 32 | _ => t end) h'
  | _ :: h' => t :: in_force t h'
  end.
(** The target after the history. *)
Fixpoint settled (t : Z) (h : list (scall * res unit)) : Z :=
  match h with
  | [] => t
  | (SCSetTarget size, r) :: h' => settled (match r with Ok _ => size mod 2 ^ 32 | _ => t end) h'
  | _ :: h' => settled t h'
  end.
