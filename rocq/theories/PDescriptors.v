(** C85: descriptors.  Statements and cases; proofs in DescriptorsFacts.v. *)
From Coq Require Import Lia.
From Verif Require Import Machine MachineFacts Encoding Sroar SroarFacts FileIO Writer Reader Aggregate Parallel Multi ReadFault Descriptors DescriptorsSpec
  DescriptorsFacts Spec Examples PAggregate.
Local Open Scope Z_scope.
Local Open Scope list_scope.

(** C85: a process opens Readers and creates Writers, as many as it likes, and closes them,
    one by one or through MultiReaders, in any order; any open, create, stat, read and
    write may fail, and the files may contain anything.  Whenever a descriptor is open, it
    is that of a NewReader or NewWriter that succeeded and has not been closed since: an
    opening that fails leaves none behind. *)
Theorem C85_only_live : forall {Srr : Sroar} log p d, ran log p -> bytes_read log -> In d (p_table p) ->
  exists c post, opening log d c (Ok 0) post /\ Forall (fun e => ~ closes c d e) post.
Proof. intros Srr. exact only_live. Qed.
Print Assumptions C85_only_live.

(** C85: and conversely, what has not been closed is open: no call on another Reader or
    Writer takes its descriptor away. *)
Theorem C85_held : forall {Srr : Sroar} log p d c post, ran log p -> bytes_read log ->
  opening log d c (Ok 0) post -> Forall (fun e => ~ may_close c d e) post -> In d (p_table p).
Proof. intros Srr. exact held. Qed.
Print Assumptions C85_held.

(** C85: a program that closes everything it opened has no descriptor left, whatever
    failed in between. *)
Theorem C85_nothing_left : forall {Srr : Sroar} log p, ran log p -> bytes_read log ->
  (forall d c post, opening log d c (Ok 0) post -> Exists (closes c d) post) -> p_table p = [].
Proof. intros Srr. exact nothing_left. Qed.
Print Assumptions C85_nothing_left.

(** C85: a second Close is an error and touches no descriptor. *)
Theorem C85_close_twice : forall {Srr : Sroar} log p d c post a p', ran log p -> bytes_read log ->
  opening log d c (Ok 0) post -> Exists (closes c d) post ->
  (match c with POpen _ _ _ _ => pstep (PClose d) p | _ => pstep (PWriter d CClose) p end) = (a, p') -> a = Err ErrIO /\ p_table p' = p_table p.
Proof. intros Srr. exact close_twice. Qed.
Print Assumptions C85_close_twice.

(** Programs as lists of calls, to compute with. *)
Fixpoint fd_run (cs : list pcall) (log : list (pcall * res Z)) (p : process) : list (pcall * res Z) * process :=
  match cs with [] => (log, p) | c :: cs' => let '(a, p') := pstep c p in fd_run cs' (log ++ [(c, a)]) p' end.
Lemma fd_ran cs : forall log p, ran log p -> ran (fst (fd_run cs log p)) (snd (fd_run cs log p)).
Proof.
  induction cs as [|c cs IH]; intros log p H; cbn [fd_run]; [exact H|]. destruct (pstep c p) as [a p'] eqn:E. apply IH. exact (ran_step _ _ _ _ _ H E).
Qed.

(** "A program that calls FinalizeAndClose on every Writer has no descriptor left" is
    false: if its Finalize fails, the descriptor stays. *)
Theorem C85_finalize_and_close_refuted : exists log p, @ran list_sroar log p /\ bytes_read log
  /\ log = [(PCreate true 1 [] (repeat NoFault 13 ++ [Fault 0]), Ok 0); (PWriter 0 (CFinalizeAndClose 2), Err ErrIO)] /\ p_table p = [0%nat].
Proof.
  set (cs := [PCreate true 1 [] (repeat NoFault 13 ++ [Fault 0]); PWriter 0 (CFinalizeAndClose 2)]).
  exists (fst (fd_run cs [] (mkProcess [] []))), (snd (fd_run cs [] (mkProcess [] []))). split; [apply fd_ran, ran_start|].
  assert (E : fst (fd_run cs [] (mkProcess [] [])) = [(PCreate true 1 [] (repeat NoFault 13 ++ [Fault 0]), Ok 0); (PWriter 0 (CFinalizeAndClose 2), Err ErrIO)]) by (vm_compute; reflexivity).
  split; [rewrite E; repeat (constructor; [exact I|]); constructor|]. split; [exact E|vm_compute; reflexivity].
Qed.
Print Assumptions C85_finalize_and_close_refuted.

(** A case: a Reader; an open that fails late; a Writer; a stat that fails; a file that is
    none; then everything is closed, the Reader through a MultiReader. *)
Definition fd_calls : list pcall :=
  [POpen true true (fun _ _ => true) (bytes_of agg_writer); POpen true true (fun o _ => o <? 100) (bytes_of agg_writer); PCreate true 1 [] [];
   POpen true false (fun _ _ => true) (bytes_of agg_writer); POpen true true (fun _ _ => true) [1; 2; 3]; PCreate false 1 [] [];
   PWriter 2 (CWriteBlock [7] [8]); PCloseAll [0%nat]; PClose 0; PWriter 2 (CFinalizeAndClose 3)].
Definition fd_tables : list (list nat) := map (fun n => p_table (snd (fd_run (firstn n fd_calls) [] (mkProcess [] [])))) (seq 0 11).
Example C85_case : ran (fst (fd_run fd_calls [] (mkProcess [] []))) (snd (fd_run fd_calls [] (mkProcess [] [])))
  /\ bytes_read (fst (fd_run fd_calls [] (mkProcess [] [])))
  /\ map snd (fst (fd_run fd_calls [] (mkProcess [] []))) = [Ok 0; Err ErrIO; Ok 0; Err ErrIO; Err ErrMagic; Err ErrIO; Ok 0; Ok 0; Err ErrIO; Ok 0]
  /\ fd_tables = [[]; [0]; [0]; [2; 0]; [2; 0]; [2; 0]; [2; 0]; [2; 0]; [2]; [2]; []]%nat.
Proof.
  split; [apply fd_ran, ran_start|]. split.
  { assert (B : Forall is_byte (bytes_of agg_writer)).
    { apply Forall_forall. intros x Hx. assert (K : forallb (fun b => (0 <=? b) && (b <? 256)) (bytes_of agg_writer) = true) by (vm_compute; reflexivity).
      rewrite forallb_forall in K. specialize (K x Hx). apply andb_prop in K as [K1 K2]. apply Z.leb_le in K1. apply Z.ltb_lt in K2. unfold is_byte, two8. lia. }
    unfold bytes_read. apply (Forall_map fst (fun c => match c with POpen _ _ _ data => Forall is_byte data | _ => True end)).
    replace (map fst (fst (fd_run fd_calls [] (mkProcess [] [])))) with fd_calls.
    - unfold fd_calls. repeat (constructor; [first [exact B|exact I|repeat (constructor; [unfold is_byte, two8; lia|]); constructor]|]). constructor.
    - clear. assert (G : forall cs log p, map fst (fst (fd_run cs log p)) = map fst log ++ cs).
      { induction cs as [|c cs IH]; intros log p; cbn [fd_run]; [rewrite app_nil_r; reflexivity|]. destruct (pstep c p) as [a p']. rewrite IH, map_app, <- app_assoc. reflexivity. }
      rewrite G. reflexivity. }
  split; vm_compute; reflexivity.
Qed.
