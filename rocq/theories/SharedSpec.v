(** What goroutines that share a Reader may expect (C51). *)
From Verif Require Import Machine Encoding Sroar Writer Reader Aggregate Shared.

Section Spec.
Context {Srr : Sroar}.

(** The answer that call [c] gets when nobody else uses the reader; a bitmap is returned
    as a pointer into the memory [h]. *)
Definition right_answer (r : reader) (h : heap) (c : op) (a : answer) : Prop :=
  match c with
  | OGetPairs i => a = APairs (GetPairs r i)
  | OAggregate opts => a = AAggregate (aggregateSequential r opts)
  | OGetGlobalIDBitmap =>
      match loadGlobalIDBitmap r with
      | Ok b => exists p, a = ABitmap (Ok (Some p)) /\ nth_error h p = Some b
      | Err e => a = ABitmap (Err e)
      | Panic => a = ABitmap Panic
      end
  | OEnable | ODisable => a = ASwitched
  | OClose => exists x, a = AClosed x
  end.

(** The result of a scan that stopped reading after [n] of the blocks it has to read. *)
Definition after_blocks (r : reader) (opts : aggOptions) (n : nat) : res aggResult :=
  let? a := if has_filter opts
            then scan (fun i => readBlockFiltered r (i64 i) (o_filter opts) (o_deny opts))
                      (firstn n (matchingBlocks r (o_filter opts) (o_deny opts))) acc0
            else scan (GetPairs r) (firstn n (zseq (BlockCount r))) acc0 in
  Ok (result_of a).

(** What a Close by another goroutine can do to a call: an error, or, for an aggregation,
    the result of some of the blocks. *)
Definition cut_short (r : reader) (c : op) (a : answer) : Prop :=
  match c with
  | OGetPairs i => exists e, a = APairs (Err e)
  | OAggregate opts => exists n, a = AAggregate (after_blocks r opts n)
  | OGetGlobalIDBitmap => exists e, a = ABitmap (Err e)
  | _ => False
  end.

(** A goroutine's log is of its own calls in their order: finished ones, then the one it
    is in, then the others. *)
Definition calls_made (t : thread) : list op := map fst (t_log t).

Definition no_disable (programs : list (list op)) : Prop := ~ In ODisable (concat programs).
Definition no_close (programs : list (list op)) : Prop := ~ In OClose (concat programs).

End Spec.
