(** What "the double nearest to a real number" means, for C43. *)
From Coq Require Import ZArith Reals Floats.SpecFloat.
From Verif Require Import Machine.

(** The real number that a float stands for (0 for infinities and NaN). *)
Definition value (d : spec_float) : R :=
  match d with
  | S754_finite s m e => (IZR (if s then Z.neg m else Z.pos m) * powerRZ 2 e)%R
  | _ => 0%R
  end.
Definition finite (d : spec_float) : Prop :=
  match d with S754_finite _ _ _ | S754_zero _ => True | _ => False end.

(** [m * 2^e] is a binary64 number: 53 bits of mantissa, no bits below 2^-1074.  (The
    largest exponent plays no role: averages of int64s are at most 2^63.) *)
Definition binary64 (m e : Z) : Prop := Z.abs m < 2 ^ 53 /\ -1074 <= e.
(** ... in its normal form: the mantissa has a full 53 bits, or the exponent is the
    smallest one, or the number is zero. *)
Definition normal (m e : Z) : Prop := binary64 m e /\ (2 ^ 52 <= Z.abs m \/ e = -1074 \/ m = 0).

(** [d] is a double, none is nearer to [q], and if another one is equally near then
    the mantissa of [d] is even. *)
Definition nearest_double (q : R) (d : spec_float) : Prop :=
  valid_binary 53 1024 d = true /\ finite d
  /\ (forall m e, binary64 m e -> (Rabs (value d - q) <= Rabs (IZR m * powerRZ 2 e - q))%R)
  /\ (forall m e, binary64 m e -> (IZR m * powerRZ 2 e)%R <> value d ->
        Rabs (value d - q)%R = Rabs (IZR m * powerRZ 2 e - q)%R ->
        exists m' e', normal m' e' /\ Z.even m' = true /\ value d = (IZR m' * powerRZ 2 e')%R).

(** The double nearest to an integer. *)
Definition nearest_to_integer (z : Z) (d : spec_float) : Prop := nearest_double (IZR z) d.
