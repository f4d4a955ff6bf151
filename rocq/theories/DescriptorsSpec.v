(** Specification vocabulary for descriptors (C85), in terms of calls and their results. *)
From Verif Require Import Machine Encoding Sroar FileIO Writer Descriptors.

(** The calls that open: NewReader and NewWriter. *)
Definition is_opening (c : pcall) : bool := match c with POpen _ _ _ _ | PCreate _ _ _ _ => true | _ => false end.
Definition openings (log : list (pcall * res Z)) : nat := length (filter (fun e => is_opening (fst e)) log).
(** [c], the [d]th opening call (from 0), had result [a]; afterwards came [post]. *)
Definition opening (log : list (pcall * res Z)) (d : nat) (c : pcall) (a : res Z) (post : list (pcall * res Z)) : Prop :=
  exists pre, log = pre ++ (c, a) :: post /\ is_opening c = true /\ openings pre = d.

(** [e] is a Close of what [c], the [d]th opening, returned; or, for a Writer, a
    FinalizeAndClose that was successful. *)
Definition closes (c : pcall) (d : nat) (e : pcall * res Z) : Prop :=
  match c with
  | POpen _ _ _ _ => fst e = PClose d \/ exists which, fst e = PCloseAll which /\ In d which
  | _ => fst e = PWriter d CClose \/ exists now, e = (PWriter d (CFinalizeAndClose now), Ok 0)
  end.
(** The same, or a FinalizeAndClose with an I/O error (which may be that of its Close). *)
Definition may_close (c : pcall) (d : nat) (e : pcall * res Z) : Prop :=
  closes c d e \/ match c with POpen _ _ _ _ => False | _ => exists now, e = (PWriter d (CFinalizeAndClose now), Err ErrIO) end.

(** All files consist of bytes. *)
Definition bytes_read (log : list (pcall * res Z)) : Prop :=
  Forall (fun e => match fst e with POpen _ _ _ data => Forall is_byte data | _ => True end) log.
