(** Specification vocabulary for replacing files among several (C66). *)
From Coq Require Import Floats.SpecFloat.
From Verif Require Import Machine Encoding FileIO Sroar Writer Reader Aggregate Multi Spec MultiSpec.
Local Open Scope Z_scope.

(** The last pair put for [id], in the order given, has the value [v]. *)
Definition last_put (pairs : list (Z * Z)) (id v : Z) : Prop :=
  exists before after, pairs = before ++ (id, v) :: after /\ ~ In id (map fst after).

(** The result of an aggregation that matched nothing; Min and Max are not specified. *)
Definition nothing (res : aggResult) : Prop := a_count res = 0 /\ a_sum res = 0 /\ a_avg res = S754_zero false.

(** The same result. *)
Definition agree (a b : aggResult) : Prop := a = b \/ (nothing a /\ nothing b).
