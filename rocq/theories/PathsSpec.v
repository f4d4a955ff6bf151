(** Specification vocabulary for several Writers (C83). *)
From Verif Require Import Machine Encoding FileIO Sroar Writer Paths.

Section Spec.
Context {Srr : Sroar}.
Definition who (a : act) : nat := match a with Create i _ _ _ | Do i _ => i end.
Definition creates (a : act) : bool := match a with Create _ _ _ _ => true | Do _ _ => false end.
(** The calls made on Writer [i], in order, and their outcomes. *)
Definition calls_of (i : nat) (acts : list act) : list wcall :=
  flat_map (fun a => match a with Do j c => if Nat.eqb j i then [c] else [] | _ => [] end) acts.
Definition outcomes_of (i : nat) (acts : list act) (outs : list (option (res Z))) : list (res Z) :=
  flat_map (fun '(a, o) => match a, o with Do j _, Some r => if Nat.eqb j i then [r] else [] | _, _ => [] end) (combine acts outs).

(** Close and EstimateBlockSize. *)
Definition only_looks (c : wcall) : bool := match c with CClose | CEstimate _ _ => true | _ => false end.
(** The variable [j] holds a Writer whose file is closed, or none. *)
Definition retired (d : disk) (j : nat) : Prop := forall w, writer_of d j = Some w -> f_open (w_file w) = false.

(** What others do, when Writer [i] is created on a disk [d], leaves its file alone: they
    work on other paths; or they use older Writers of this path to close them or for
    estimates; or these older Writers are closed already. *)
Definition leaves_alone (path_of : nat -> nat) (i : nat) (d : disk) (a : act) : Prop :=
  path_of (who a) <> path_of i
  \/ (creates a = false /\ (retired d (who a) \/ exists c, a = Do (who a) c /\ only_looks c = true)).
(** Others leave it alone and Writer [i] is not created anew. *)
Definition undisturbed (path_of : nat -> nat) (i : nat) (d : disk) (acts : list act) : Prop :=
  forall a, In a acts -> if Nat.eqb (who a) i then creates a = false else leaves_alone path_of i d a.
(** Nothing touches what is at path [p]: [leaves_alone] for everybody. *)
Definition spares (path_of : nat -> nat) (p : nat) (d : disk) (a : act) : Prop :=
  path_of (who a) <> p
  \/ (creates a = false /\ (retired d (who a) \/ exists c, a = Do (who a) c /\ only_looks c = true)).
End Spec.
