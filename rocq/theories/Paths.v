(** Model of several Writers, of one process or several, and the files they create
    (pkg/col/writer.go:31-60: [os.Create] truncates what is at the path, in place).

    A file is what its path leads to; every Writer has its own offset, its own flag that it
    is closed, and its own record of the blocks written, but Writers on one path share the
    bytes.  Calls of different Writers take place one after another, in any order.  (For
    different paths an interleaving of their system calls makes no difference, as they have
    nothing in common: the package has no variables outside of its structures.  Removing or
    renaming files and links are not modelled.) *)
From Verif Require Import Machine Encoding FileIO Sroar Writer.

Section Paths.
Context {Srr : Sroar}.
(** The path that the program passes to [NewWriter] for its [i]th variable. *)
Variable path_of : nat -> nat.

(** What clients do: [w_i, err = col.NewWriter(path, options...)]; a method of [w_i]
    (pkg/col/writer.go:31; the calls of Writer.v). *)
Inductive act : Type :=
| Create (i : nat) (now : Z) (options : list writerOption) (faults : list fault)
| Do (i : nat) (c : wcall).

(** The bytes of every file, and the Writer each variable holds: none before [NewWriter]
    and after one that failed (pkg/col/writer.go:34, 56). *)
Record disk : Type := mkDisk { on_path : nat -> list Z; writer_of : nat -> option writer }.

(** No code: one entry of a table changed. *)
Definition put {A} (i : nat) (x : A) (f : nat -> A) : nat -> A := fun j => if Nat.eqb j i then x else f j.
(** No code: the Writer [w] when its file holds [data]. *)
Definition finding (data : list Z) (w : writer) : writer :=
  set_file w (mkFile data (f_pos (w_file w)) (f_open (w_file w)) (f_faults (w_file w))).

(** pkg/col/writer.go:31-60, and the methods of Writer.v.  A method is not called if there is
    no Writer. *)
Definition perform (a : act) (d : disk) : option (res Z) * disk :=
  match a with
  | Create i now options faults =>
      match NewWriter now options faults with
      | (Ok w, f) => (Some (Ok 0), mkDisk (put (path_of i) (f_data f) (on_path d)) (put i (Some w) (writer_of d)))
      | (Err e, f) => (Some (Err e), mkDisk (put (path_of i) (f_data f) (on_path d)) (put i None (writer_of d)))
      | (Panic, f) => (Some Panic, mkDisk (put (path_of i) (f_data f) (on_path d)) (put i None (writer_of d)))
      end
  | Do i c =>
      match writer_of d i with
      | None => (None, d)
      | Some w =>
          let '(o, w') := run_call c (finding (on_path d (path_of i)) w) in
          (Some o, mkDisk (put (path_of i) (f_data (w_file w')) (on_path d)) (put i (Some w') (writer_of d)))
      end
  end.

(** No code: one thing after another. *)
Fixpoint perform_all (acts : list act) (d : disk) : list (option (res Z)) * disk :=
  match acts with
  | [] => ([], d)
  | a :: acts' => let '(o, d1) := perform a d in let '(os, d2) := perform_all acts' d1 in (o :: os, d2)
  end.
End Paths.
