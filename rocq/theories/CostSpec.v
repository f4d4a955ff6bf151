(** Specification vocabulary for the number of system calls (C84). *)
From Verif Require Import Machine FileIO Sroar Writer SimpleWriter.

Section Spec.
Context {Srr : Sroar}.
(** Between [w] and [w'], [k] calls were made on the file: every Seek, Write, Sync and Close
    takes the next element of the stream that decides which of them fail, and nothing
    else does (FileIO.v). *)
Definition made (k : nat) (w w' : writer) : Prop := f_faults (w_file w') = skipn k (f_faults (w_file w)).
(** None of the next [k] fails. *)
Definition none_fails (k : nat) (w : writer) : Prop := Forall (eq NoFault) (firstn k (f_faults (w_file w))).

(** At most how many calls on the file a call makes, in terms of its arguments, its outcome and
    the number of blocks in the file. *)
Definition most_calls (blocks : nat) (c : wcall) (r : res Z) : nat :=
  match c with
  | CWriteBlock ids _ => match r with
                         | Ok _ => 22 + 2 * length ids
                         | Err (ErrBlockFull m) => 23 + 3 * Z.to_nat m
                         | _ => 21 + 3 * length ids
                         end
  | CEstimate _ _ => 1
  | CFinalize _ => 26 + 10 * blocks
  | CFinalizeAndClose _ => 27 + 10 * blocks
  | CClose => 1
  end%nat.
(** The items that a call stored, all that it was given if it failed otherwise. *)
Definition items_of (c : wcall) (r : res Z) : nat :=
  match c with
  | CWriteBlock ids _ => match r with Err (ErrBlockFull m) => Z.to_nat m | _ => length ids end
  | _ => 0
  end%nat.
Definition writes (c : wcall) : nat := match c with CWriteBlock _ _ => 1 | _ => 0 end.
Definition finalizes (c : wcall) : nat := match c with CFinalize _ | CFinalizeAndClose _ => 1 | _ => 0 end.
(** The call reported success. *)
Definition went_well {A} (r : res A) : bool := match r with Ok _ => true | _ => false end.
Definition total (l : list nat) : nat := fold_right Nat.add 0%nat l.

(** SimpleWriter: the items a call is given, and the items that wait to be written. *)
Definition given (c : scall) : nat := match c with SCWrite ids _ => length ids | _ => 0 end.
Definition waiting (sw : swriter) : nat := length (sw_pendingIDs sw).
End Spec.
