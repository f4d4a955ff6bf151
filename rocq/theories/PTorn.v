(** C50: a WriteBlock that failed half way cannot be recovered from. *)
From Verif Require Import Machine MachineFacts Encoding Sroar SroarFacts FileIO Writer Spec Examples TornFacts.
Local Open Scope Z_scope.

Section Props.
Context {Srr : Sroar}.

(** Some WriteBlock fails, neither because of the final sync nor because the block was
    full, after it changed the bytes of the file.  If any other WriteBlock of the writer's
    life, before it or after it, has written a block (entirely, or the first items of it),
    then no later Finalize and no later FinalizeAndClose succeeds, whatever calls are made
    in between and whether or not the disk works again: the written blocks never become
    readable. *)
Theorem C50_torn_block_poisons now0 options faults w0 f0 cs1 outs1 w1 ids vals e w2 cs2 outs2 w3 :
  NewWriter now0 options faults = (Ok w0, f0) ->
  run_calls cs1 w0 = (outs1, w1) ->
  run_call (CWriteBlock ids vals) w1 = (Err e, w2) ->
  e <> ErrSync -> (forall k, e <> ErrBlockFull k) ->
  bytes_of w2 <> bytes_of w1 ->
  run_calls cs2 w2 = (outs2, w3) ->
  (exists ids' vals' r, In (CWriteBlock ids' vals', r) (combine cs1 outs1 ++ combine cs2 outs2)
     /\ ((exists n, r = Ok n) \/ (exists k, r = Err (ErrBlockFull k)))) ->
  forall fin now n, finalizing fin now -> fst (run_call fin w3) <> Ok n.
Proof.
  intros H0 H1 H2 H3 H4 H5 H6 (ids' & vals' & r & Hin & Hr) fin now n Hf HF.
  destruct (run_call fin w3) as [r' w4] eqn:E. cbn [fst] in HF. subst r'.
  refine (torn_block_poisons _ _ _ _ _ _ _ _ _ _ _ _ _ _ _ _ _ _ _ H0 H1 H2 H3 H4 H5 H6 Hf E _ _ _ _ Hin eq_refl _).
  unfold written. exact Hr.
Qed.
End Props.
Print Assumptions C50_torn_block_poisons.

(** Met: the first block is written, the second fails in the middle (one fault, three
    bytes of a write get through), then the disk works again and a third block is written:
    and Finalize fails. *)
Definition torn_w1 := state [] (fault_at 45 3) [CWriteBlock [5] [1]].
Definition torn_w2 := snd (run_call (CWriteBlock [7] [4]) torn_w1).
Definition torn_w3 := snd (run_calls [CWriteBlock [9] [2]] torn_w2).
Example C50_case : fst (run_calls [CWriteBlock [5] [1]] (new_w [] (fault_at 45 3))) = [Ok 0]
  /\ fst (run_call (CWriteBlock [7] [4]) torn_w1) = Err ErrIO
  /\ zlen (bytes_of torn_w2) > zlen (bytes_of torn_w1)
  /\ fst (run_calls [CWriteBlock [9] [2]] torn_w2) = [Ok 0]
  /\ f_faults (w_file torn_w3) = []
  /\ fst (run_call (CFinalize 1) torn_w3) = Err ErrPositions.
Proof.
  split; [vm_compute; reflexivity|]. split; [vm_compute; reflexivity|]. split; [vm_compute; reflexivity|].
  split; [vm_compute; reflexivity|]. split; vm_compute; reflexivity.
Qed.
