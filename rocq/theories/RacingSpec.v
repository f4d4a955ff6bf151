(** Specification vocabulary for aggregations during which reads stop working (C77). *)
From Verif Require Import Machine Encoding Sroar Writer Reader Aggregate Parallel Spec AnySpec Racing.

(** Block [i] was read, and the read worked. *)
Definition worked (reads : list (Z * bool)) (i : Z) : bool := existsb (fun p => (fst p =? i) && snd p) reads.

(** Goroutine [t] moves while reads work, or after they stopped working. *)
Definition while_open (sched : list nat) : list (nat * bool) := map (fun t => (t, true)) sched.
Definition after_close (sched : list nat) : list (nat * bool) := map (fun t => (t, false)) sched.

Section Racing.
Context {Srr : Sroar}.
(** What the blocks contribute whose read worked. *)
Definition taken_when (reads : list (Z * bool)) (r : reader) (allow deny : option bm) : list Z :=
  flat_map (taken r allow deny) (filter (worked reads) (zseq (BlockCount r))).
End Racing.

(** A sequence of steps, each of which is possible. *)
Inductive execution_at (blk : bool -> Z -> acc -> res acc) (idx : list Z) (n : nat) : pstate -> list (nat * bool) -> pstate -> Prop :=
| ea_done s : execution_at blk idx n s [] s
| ea_step s e es s1 s2 : step_at blk idx n s e = Some s1 -> execution_at blk idx n s1 es s2 -> execution_at blk idx n s (e :: es) s2.

(** The blocks whose numbers [ok] accepts. *)
Definition blocks_where (ok : Z -> bool) (blocks : list block) : list block :=
  map snd (filter (fun p => ok (fst p)) (combine (zseq (zlen blocks)) blocks)).
