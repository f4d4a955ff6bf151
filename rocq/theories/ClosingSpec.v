(** Closing shared Readers (C82). *)
From Verif Require Import Machine Encoding Sroar Writer Reader Aggregate Multi Shared SharedMulti.

Section Spec.
Context {Srr : Sroar}.

(** A call that closes reader [i]: its own Close, or Close of a MultiReader that has it. *)
Definition covers (i : nat) (c : mop) : Prop :=
  match c with OnReader j OClose => j = i | MCloseAll which => In i which | _ => False end.

(** Close returned no error. *)
Definition succeeded (a : manswer) : Prop := a = OneAnswer (AClosed (Ok tt)) \/ a = MClosed None.

(** A Close that names existing readers, each once. *)
Definition proper_close (rs : list reader) (c : mop) : Prop :=
  match c with
  | OnReader j OClose => (j < length rs)%nat
  | MCloseAll which => NoDup which /\ Forall (fun i => (i < length rs)%nat) which
  | _ => False
  end.

(** Goroutine [n] made call [c] as its [k]-th, and [a] was the answer. *)
Definition call_of (ts : list mthread) (n k : nat) (c : mop) (a : manswer) : Prop :=
  exists t, nth_error ts n = Some t /\ nth_error (m_log t) k = Some (c, a).

End Spec.
