(** Calling Finalize again after it failed (C38).  Only statements and concrete cases;
    proofs are in RetryFacts.v. *)
From Verif Require Import Machine Encoding FileIO Sroar SroarFacts Writer Reader Spec RetryFacts Examples PReader.

(** C38: when a Finalize fails, but not while it rewrites the header, then after any
    further calls a second Finalize that succeeds leaves a file with all blocks of
    before and after the failure. *)
Theorem C38_retry_reads_back : forall {Srr : Sroar} options faults h w now1 e w1 cs outs w2 now2 w3,
  running options faults h w -> no_torn_block h -> f_open (w_file w) = true -> faithful (encoding_of options) ->
  Finalize now1 w = (Err e, w1) -> ~ header_fault (f_faults (w_file w)) ->
  Forall typed_call cs -> run_calls cs w1 = (outs, w2) -> (forall c, In c cs -> is_finalize c = false) ->
  Finalize now2 w2 = (Ok tt, w3) -> fits w3 (bytes_of w3) ->
  exists r blocks, stored (h ++ combine cs outs) blocks /\ NewReader (bytes_of w3) = Ok r /\ BlockCount r = zlen blocks
    /\ forall i, is_u64 i ->
         GetPairs r i = match nth_error blocks (Z.to_nat i) with
                        | Some b => Ok b
                        | None => Err ErrIndex
                        end.
Proof. exact @retry_reads_back. Qed.
Print Assumptions C38_retry_reads_back.

(** The two ways to say that the header was not hit agree; so the runs of Spec.v allow
    every failure of Finalize outside the header. *)
Theorem C38_offset_after_failure : forall {Srr : Sroar} options faults h w now e w1,
  running options faults h w -> no_torn_block h -> f_open (w_file w) = true -> Finalize now w = (Err e, w1) ->
  (offset_at_end w1 <-> ~ header_fault (f_faults (w_file w))).
Proof. exact @offset_after_failure. Qed.
Print Assumptions C38_offset_after_failure.

Definition retry_ids : list Z := [1; 2; 3; 4; 5; 6; 7; 8; 9; 10; 11; 12].
Definition retry_calls : list wcall := [CWriteBlock retry_ids retry_ids].
(** The writer before the first Finalize, its state after, and after the second. *)
Definition before (n : nat) : writer := state [] (fault_at n 0) retry_calls.
Definition failed (n : nat) : writer := snd (Finalize 1 (before n)).
Definition retried (n : nat) : writer := snd (Finalize 2 (failed n)).
Definition pairs_in (w : writer) (i : Z) : res (list Z * list Z) :=
  match NewReader (bytes_of w) with Ok r => GetPairs r i | Err e => Err e | Panic => Panic end.
Definition ids_in (w : writer) : option (list Z) :=
  match NewReader (bytes_of w) with
  | Ok r => match GetGlobalIDBitmap r [] with (Ok p, _, hp) => nth_error hp p | _ => None end
  | _ => None
  end.
Lemma first_faults i k l : l = repeat NoFault i ++ [Fault k] -> ((i < 5)%nat \/ (15 < i)%nat) -> ~ header_fault l.
Proof.
  intros -> Hi (j & k' & Hj & Hn & Hc).
  assert (Hij : (j <= i)%nat).
  { destruct (Nat.le_gt_cases j i); [assumption|]. rewrite nth_error_app2 in Hn by (rewrite repeat_length; lia).
    rewrite repeat_length in Hn. destruct (j - i)%nat as [|[|q]] eqn:E; [lia|discriminate|discriminate]. }
  destruct (Nat.eq_dec i j) as [->|Ne]; [lia|].
  rewrite nth_error_app1 in Hn by (rewrite repeat_length; lia).
  apply nth_error_In in Hn. apply repeat_spec in Hn. discriminate.
Qed.
(** The first Finalize fails writing the page padding (its system call number 17); the
    second succeeds. *)
Example C38_case : running [] (fault_at 76 3) (hist [] (fault_at 76 3) retry_calls) (state [] (fault_at 76 3) retry_calls)
  /\ no_torn_block (hist [] (fault_at 76 3) retry_calls)
  /\ f_open (w_file (state [] (fault_at 76 3) retry_calls)) = true
  /\ fst (Finalize 1 (state [] (fault_at 76 3) retry_calls)) = Err ErrIO
  /\ ~ header_fault (f_faults (w_file (state [] (fault_at 76 3) retry_calls)))
  /\ fst (Finalize 2 (snd (Finalize 1 (state [] (fault_at 76 3) retry_calls)))) = Ok tt
  /\ pairs_in (snd (Finalize 2 (snd (Finalize 1 (state [] (fault_at 76 3) retry_calls))))) 0 = Ok (retry_ids, retry_ids).
Proof.
  split; [apply check_running_sound; vm_compute; reflexivity|]. split; [apply notorn_sound; vm_compute; reflexivity|].
  split; [vm_compute; reflexivity|]. split; [vm_compute; reflexivity|].
  split; [apply (first_faults 17 3); [vm_compute; reflexivity|lia]|].
  split; vm_compute; reflexivity.
Qed.

(** Without the condition the claim is false.  The seek back to the end of the file
    fails: the second Finalize reports success, but the block cannot be read. *)
Theorem C38_retry_refuted :
  running [] (fault_at 74 0) (hist [] (fault_at 74 0) retry_calls) (before 74)
  /\ stored (hist [] (fault_at 74 0) retry_calls) [(retry_ids, retry_ids)]
  /\ fst (Finalize 1 (before 74)) = Err ErrIO /\ fst (Finalize 2 (failed 74)) = Ok tt
  /\ pairs_in (retried 74) 0 = Err ErrSection.
Proof.
  split; [apply check_running_sound; vm_compute; reflexivity|].
  split.
  { replace (hist [] (fault_at 74 0) retry_calls) with [(CWriteBlock retry_ids retry_ids, @Ok Z 0)] by (vm_compute; reflexivity).
    change [(retry_ids, retry_ids)] with ([(retry_ids, retry_ids)] ++ []). constructor; constructor. }
  split; [vm_compute; reflexivity|]. split; vm_compute; reflexivity.
Qed.
Print Assumptions C38_retry_refuted.
(** The first write of the header fails: the second Finalize reports success, but the
    file then lists no IDs. *)
Theorem C38_retry_ids_refuted :
  running [] (fault_at 64 0) (hist [] (fault_at 64 0) retry_calls) (before 64)
  /\ hist [] (fault_at 64 0) retry_calls = [(CWriteBlock retry_ids retry_ids, Ok 0)]
  /\ fst (Finalize 1 (before 64)) = Err ErrIO /\ fst (Finalize 2 (failed 64)) = Ok tt
  /\ ids_in (retried 64) = Some [].
Proof.
  split; [apply check_running_sound; vm_compute; reflexivity|]. split; [vm_compute; reflexivity|].
  split; [vm_compute; reflexivity|]. split; vm_compute; reflexivity.
Qed.
Print Assumptions C38_retry_ids_refuted.
