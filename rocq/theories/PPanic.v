(** C65: no call on a writer crashes the program.  Statements and cases; proofs in PanicFacts.v. *)
From Coq Require Import Lia ZArith.
From Verif Require Import Machine MachineFacts Encoding Sroar SroarFacts FileIO Writer Spec SimpleWriter SimpleSpec SimpleFacts Examples PSimple PanicFacts.
Local Open Scope Z_scope.

(** C65: whatever fails on the disk and whatever is passed to it, NewWriter returns, and so
    does every call of every history of calls on the writer: WriteBlock, EstimateBlockSize,
    Finalize, FinalizeAndClose and Close, in any order, after failures and after Close too.
    There is no condition on the options, the arguments or the failures. *)
Theorem C65_writer_never_panics : forall {Srr : Sroar} now options faults,
  fst (NewWriter now options faults) <> Panic
  /\ forall w cs, fst (NewWriter now options faults) = Ok w -> Forall (fun r => r <> Panic) (fst (run_calls cs w)).
Proof.
  intros Srr now options faults. destruct (new_safe now options faults) as [P O]. split; [exact P|]. intros w cs H. apply run_calls_safe. apply O. exact H.
Qed.
Print Assumptions C65_writer_never_panics.

(** C65: the same of a SimpleWriter, whatever its sort does with a batch: no call crashes
    it, and none runs forever (the model's [flush] would report [ErrFuel]). *)
Theorem C65_simple_never_panics : forall {Srr : Sroar} srt now options faults,
  NewSimpleWriter now options faults <> Panic
  /\ forall sw cs, NewSimpleWriter now options faults = Ok sw -> Forall (fun r => r <> Panic /\ r <> Err ErrFuel) (fst (run_scalls srt cs sw)).
Proof.
  intros Srr srt now options faults. destruct (new_simple_fine now options faults) as [P O]. split; [exact P|]. intros sw cs H. apply scalls_fine. apply O. exact H.
Qed.
Print Assumptions C65_simple_never_panics.

(** C65: the count a BlockFullError carries can be used to slice off what was written: at
    any point of any history it is at least 1 and less than the length of both arguments. *)
Theorem C65_items_written : forall {Srr : Sroar} w ids values n w', WriteBlock ids values w = (Err (ErrBlockFull n), w') ->
  zlen ids = zlen values /\ 1 <= n < zlen ids.
Proof. intros Srr w ids values n w' H. exact (full_range ids values w n w' H). Qed.
Print Assumptions C65_items_written.

(** A case: a header write of the first Finalize fails; afterwards blocks are written over
    the start of the file, slices of different lengths and values out of range are passed,
    Finalize is retried and the closed writer is used. *)
Definition rough_calls : list wcall :=
  [CWriteBlock [1; 2; 3] [10; -20; 30]; CFinalize 9; CWriteBlock [5; 4] [7; 8]; CWriteBlock [1] [2; 3]; CWriteBlock [] []; CWriteBlock [-5; 2 ^ 70] [2 ^ 80; 1];
   CFinalize 9; CEstimate [1; 2] [3; 4]; CFinalizeAndClose 9; CWriteBlock [1] [1]; CFinalize 9; CClose].
Definition rough_faults : list fault := repeat NoFault 50 ++ [Fault 3].
Definition rough (r : res writer * file) : list (res Z) :=
  match r with (Ok w, _) => fst (run_calls rough_calls w) | _ => [] end.
Definition shown (r : res Z) : Z := match r with Ok _ => 0 | Err ErrIO => 1 | Err ErrLength => 2 | Err ErrEmpty => 3 | Err _ => 4 | Panic => 5 end.
Example C65_case : map shown (rough (NewWriter (Srr := list_sroar) 7 [WithBlockSize 4096] rough_faults)) = [0; 1; 0; 2; 3; 0; 0; 0; 0; 1; 1; 1].
Proof. vm_compute. reflexivity. Qed.
