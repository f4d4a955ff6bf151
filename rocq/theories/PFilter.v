(** C64: what the filter example prints.  Statements and cases; proofs in FilterFacts.v. *)
From Coq Require Import Ascii String Lia.
From Verif Require Import Machine MachineFacts Sroar SroarFacts FileIO Writer Spec Cli FilterExample FilterSpec FilterFacts.
Local Open Scope Z_scope.
Local Open Scope list_scope.

(** C64: whatever fails on the disk, whatever the clock and the name of the temporary file,
    the example stops with an error message or prints the text of [sample_output]; it does
    not crash. *)
Theorem C64_example_output : forall {Srr : Sroar} {Laws : SroarLaws Srr} now0 now faults filename e f,
  exampleMain now0 now faults filename = (e, f) ->
  zlen (f_data f) < two63 -> zlen (bm_ser (fold_left bm_set (map (fun i => i + 1) (zseq 300)) bm_new)) < two32 ->
  e = Failed \/ e = Exited (sample_output filename).
Proof.
  intros Srr Laws now0 now faults filename e f E H1 H2. destruct (createSampleData now0 now faults) as [c f'] eqn:C.
  pose proof (create_no_panic now0 now faults) as P. rewrite C in P. cbn [fst] in P. pose proof E as E'. unfold exampleMain in E'. rewrite C in E'. destruct c as [[]|er|]; [| |congruence].
  - right. assert (f' = f) by (apply (f_equal snd) in E'; exact E'). subst f'. apply (example_output _ _ _ _ _ _ E H1); [exact H2|]. exists tt. exact C.
  - left. apply (f_equal fst) in E'. symmetry. exact E'.
Qed.
Print Assumptions C64_example_output.

(** C64: and if nothing fails, it prints that text. *)
Theorem C64_example_succeeds : forall {Srr : Sroar} {Laws : SroarLaws Srr} now0 now faults filename e f,
  fault_free faults -> exampleMain now0 now faults filename = (e, f) ->
  zlen (f_data f) < two63 -> zlen (bm_ser (fold_left bm_set (map (fun i => i + 1) (zseq 300)) bm_new)) < two32 ->
  e = Exited (sample_output filename).
Proof.
  intros Srr Laws now0 now faults filename e f Hf E H1 H2. destruct (create_succeeds now0 now faults Hf) as [f' C].
  assert (f' = f) by (unfold exampleMain in E; rewrite C in E; apply (f_equal snd) in E; exact E). subst f'.
  apply (example_output _ _ _ _ _ _ E H1); [exact H2|]. exists tt. exact C.
Qed.
Print Assumptions C64_example_succeeds.

(** A case: run with bitmaps that are lists, the example meets the conditions, and it
    really runs; the second run has a disk that fails at the second block. *)
Definition ended_with (p : exit * file) (out : list Z) : bool :=
  match p with (Exited o, f) => (zlen (f_data f) <? 20000) && (if list_eq_dec Z.eq_dec o out then true else false) | _ => false end.
Definition ended_failed (p : exit * file) : bool := match p with (Failed, f) => zlen (f_data f) <? 20000 | _ => false end.
Example C64_case :
  ended_with (exampleMain (Srr := list_sroar) 1 2 [] (text "/tmp/example.col")) (sample_output (text "/tmp/example.col")) = true
  /\ ended_failed (exampleMain (Srr := list_sroar) 1 2 (repeat NoFault 300 ++ [Fault 0]) (text "/tmp/example.col")) = true
  /\ (zlen (bm_ser (Sroar := list_sroar) (fold_left bm_set (map (fun i => i + 1) (zseq 300)) bm_new)) <? two32) = true.
Proof. split; [vm_compute; reflexivity|]. split; vm_compute; reflexivity. Qed.
