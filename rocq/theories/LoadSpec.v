(** Specification vocabulary for the load test tool (C54). *)
From Verif Require Import Machine Encoding Sroar FileIO Writer SimpleWriter Reader Aggregate Parallel Spec Loadtest.

(** The batches of random pairs that the generator makes from position [k] of the random
    sequence on, when [total] pairs are asked for: batches of 10000, then the rest. *)
Inductive generated (draws : nat -> Z) (maxValue maxID : Z) : Z -> nat -> list (list (Z * Z)) -> Prop :=
| generated_none total k : total <= 0 -> generated draws maxValue maxID total k []
| generated_more total k ids vals k' rest :
    0 < total ->
    makeBatch draws maxValue maxID (Z.to_nat (Z.min 10000 total)) None k = Ok (ids, vals, k') ->
    generated draws maxValue maxID (total - Z.min 10000 total) k' rest ->
    generated draws maxValue maxID total k (combine ids vals :: rest).

(** What [-max-value] and [-max-id] have to be for the generator to work. *)
Definition sensible (maxValue maxID : Z) : Prop := 10 <= maxValue < two63 /\ 1 <= maxID < two63.

(** What the generator makes of the random numbers it draws, in the order in which it
    draws them.  An ID, from the ID before it (if there is one in the batch): *)
Definition id_drawn (maxID : Z) (before : option Z) (used : list Z) (id : Z) : Prop :=
  match before with
  | None => exists x, used = [x] /\ id = x mod maxID
  | Some p => exists c x, used = [c; x] /\ ((c mod 10 < 9 /\ id = (p + 1 + x mod 10) mod two64) \/ (9 <= c mod 10 /\ id = x mod maxID))
  end.
(** a value, from its ID: *)
Definition value_drawn (maxValue id : Z) (used : list Z) (v : Z) : Prop :=
  exists c x, used = [c; x] /\ ((c mod 10 < 7 /\ v = i64 (id mod maxValue + x mod (maxValue / 10) - maxValue / 20)) \/ (7 <= c mod 10 /\ v = x mod maxValue)).
(** the pairs of a batch: *)
Inductive pairs_drawn (maxValue maxID : Z) : option Z -> list Z -> list (Z * Z) -> Prop :=
| pairs_drawn_none before : pairs_drawn maxValue maxID before [] []
| pairs_drawn_more before u1 id u2 v used pairs :
    id_drawn maxID before u1 id -> value_drawn maxValue id u2 v -> pairs_drawn maxValue maxID (Some id) used pairs ->
    pairs_drawn maxValue maxID before (u1 ++ u2 ++ used) ((id, v) :: pairs).
(** and all batches, of 10000 pairs but for the last, [total] pairs together. *)
Inductive batches_drawn (maxValue maxID : Z) : Z -> list Z -> list (list (Z * Z)) -> Prop :=
| batches_drawn_none total : total <= 0 -> batches_drawn maxValue maxID total [] []
| batches_drawn_more total u batch used batches : 0 < total ->
    zlen batch = Z.min 10000 total -> pairs_drawn maxValue maxID None u batch ->
    batches_drawn maxValue maxID (total - Z.min 10000 total) used batches ->
    batches_drawn maxValue maxID total (u ++ used) (batch :: batches).
