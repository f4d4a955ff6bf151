(** What goroutines that share Readers and MultiReaders may expect (C76). *)
From Verif Require Import Machine Encoding Sroar Writer Reader Aggregate Multi Shared SharedSpec SharedMulti.

Section Spec.
Context {Srr : Sroar}.

(** The readers numbered [which]. *)
Definition chosen_readers (rs : list reader) (which : list nat) : list reader :=
  flat_map (fun i => match nth_error rs i with Some r => [r] | None => [] end) which.

(** The answer that call [c] gets when nobody else uses the readers, newly opened; a
    bitmap is returned as a pointer into the memory [h]. *)
Definition right_manswer (rs : list reader) (h : heap) (c : mop) (a : manswer) : Prop :=
  match c with
  | OnReader i c =>
      match nth_error rs i with
      | Some r => exists x, a = OneAnswer x /\ right_answer r h c x
      | None => True
      end
  | MAggregate which opts => a = MResult (fst (fst (MultiAggregate opts (chosen_readers rs which) [])))
  | MCloseAll _ => exists e, a = MClosed e
  end.

(** The calls by which a goroutine disturbs others. *)
Definition closes (c : mop) : Prop := match c with OnReader _ OClose | MCloseAll _ => True | _ => False end.
Definition disables (c : mop) : Prop := match c with OnReader _ ODisable => True | _ => False end.
Definition enables (c : mop) : Prop := match c with OnReader _ OEnable => True | _ => False end.
Definition nobody (what : mop -> Prop) (programs : list (list mop)) : Prop := forall c, In c (concat programs) -> ~ what c.

(** The file of [r] has a bitmap. *)
Definition has_bitmap (r : reader) : Prop := h_bitmapOffset (r_header r) <> 0 /\ h_bitmapSize (r_header r) <> 0.

End Spec.
