(** The number of system calls of a Writer (C84).  Only statements and concrete cases; proofs
    are in CostFacts.v. *)
From Verif Require Import Machine MachineFacts Encoding FileIO Sroar SroarFacts Writer SimpleWriter CostSpec CostFacts.
From Coq Require Import Lia List.
Import ListNotations.
Local Open Scope nat_scope.

(** WriteBlock, for every Writer in whatever state, whatever fails: what it calls on the file is
    counted by the items, not by what the file holds.  When it reports success, exactly two
    Writes per item and 22 calls more (one fewer when there is no padding), none of which failed. *)
Theorem C84_write_block : forall {Srr : Sroar} ids values w r w', WriteBlock ids values w = (r, w') ->
  exists k, made k w w' /\
    match r with
    | Ok _ => 21 + 2 * length ids <= k <= 22 + 2 * length ids /\ none_fails k w
    | Err (ErrBlockFull m) => (1 <= m < Z.of_nat (length ids))%Z /\ 21 + 2 * Z.to_nat m <= k <= 23 + 3 * Z.to_nat m
    | _ => k <= 21 + 3 * length ids
    end.
Proof. intros Srr. exact c_WriteBlock. Qed.
Print Assumptions C84_write_block.

(** Finalize: counted by the blocks, not by the items. *)
Theorem C84_finalize : forall {Srr : Sroar} now w r w', Finalize now w = (r, w') ->
  let most := 26 + 10 * Z.to_nat (w_blockCount w) in
  exists k, made k w w' /\ k <= most /\ w_blockCount w' = w_blockCount w /\ (r = Ok tt -> most - 1 <= k /\ none_fails k w).
Proof.
  intros Srr now w r w' E most. destruct (c_Finalize now (w_blockCount w) w r w' eq_refl E) as (H & _ & k & K & T & O). exists k.
  split; [exact T|]. split; [exact K|]. split; [exact H|]. intros R. destruct (O tt R). split; [unfold most; lia|assumption].
Qed.
Print Assumptions C84_finalize.

(** NewWriter: 13 calls after the file was created, and one more to close it when it fails. *)
Theorem C84_new_writer : forall {Srr : Sroar} now options faults,
  match NewWriter now options faults with
  | (Ok w, _) => f_faults (w_file w) = skipn 13 faults /\ Forall (eq NoFault) (firstn 13 faults)
  | (_, f) => exists k, k <= 14 /\ f_faults f = skipn k faults
  end.
Proof. intros Srr. exact c_NewWriter. Qed.
Print Assumptions C84_new_writer.

(** EstimateBlockSize asks for the offset, no more; Close is one call. *)
Theorem C84_estimate_close : forall {Srr : Sroar} w r w',
  (forall ids values, EstimateBlockSize ids values w = (r, w') -> made 0 w w' \/ made 1 w w')
  /\ (forall u, Close w = (u, w') -> made 0 w w' \/ made 1 w w').
Proof.
  intros Srr w r w'. split.
  - intros ids values E. destruct (c_estimate (fun _ => True) (fun _ _ _ => I) ids values w r w' I E) as (_ & _ & [|[|k]] & K & T & _); [auto|auto|lia].
  - intros u E. destruct (c_close (fun _ => True) (fun _ _ _ => I) w u w' I E) as (_ & _ & [|[|k]] & K & T & _); [auto|auto|lia].
Qed.
Print Assumptions C84_estimate_close.

(** A whole session, for every list of calls, with any failures: [B] is the number of blocks the
    file can have in the end.  So a session that stores N items and finalizes once costs a
    number of system calls that is linear in its calls and in N. *)
Theorem C84_session : forall {Srr : Sroar} cs w outs w' B, run_calls cs w = (outs, w') ->
  Z.to_nat (w_blockCount w) + total (map writes cs) <= B ->
  exists k, made k w w'
    /\ k <= total (map (fun '(c, r) => most_calls B c r) (combine cs outs))
    /\ k <= 27 * length cs + 3 * total (map (fun '(c, r) => items_of c r) (combine cs outs)) + 10 * B * total (map finalizes cs).
Proof.
  intros Srr cs w outs w' B E L. destruct (session cs B w outs w' E L) as (k & K & T). exists k. split; [exact T|]. split; [exact K|].
  assert (length outs = length cs) as Lo.
  { clear - E. revert w outs w' E. induction cs as [|c cs IH]; intros w outs w' E; cbn [run_calls] in E; [injection E as <- _; reflexivity|].
    destruct (run_call c w) as [r w1]. destruct (run_calls cs w1) as [rs w2] eqn:Er. injection E as <- _. cbn [length]. f_equal. eapply IH. exact Er. }
  pose proof (linear cs B outs Lo). lia.
Qed.
Print Assumptions C84_session.

(** SimpleWriter.Write, with any sort that keeps the number of items: at most 26 calls for each
    item that leaves the queue, and when it fails 21 more and 3 for each item that still waits. *)
Theorem C84_simple_write : forall {Srr : Sroar} srt ids values sw r sw', (forall l, length (srt l) = length l) ->
  SWrite srt ids values sw = (r, sw') ->
  exists k, made k (sw_writer sw) (sw_writer sw') /\ waiting sw' <= waiting sw + length ids
    /\ k <= 26 * (waiting sw + length ids - waiting sw') + (if went_well r then 0 else 21 + 3 * waiting sw').
Proof.
  intros Srr srt ids values sw r sw' LS E. destruct (swrite_cost _ _ _ _ _ _ LS E) as (k & T & P & K & _). exists k. auto.
Qed.
Print Assumptions C84_simple_write.

(** A whole SimpleWriter session in which every call reports success: N items cost at most
    36 N + 40 system calls, in however many Writes they were given and with whatever target sizes. *)
Theorem C84_simple_session : forall {Srr : Sroar} srt now options faults sw cs outs sw', (forall l, length (srt l) = length l) ->
  NewSimpleWriter now options faults = Ok sw -> run_scalls srt cs sw = (outs, sw') -> Forall (fun r => r = Ok tt) outs ->
  exists k, f_faults (w_file (sw_writer sw')) = skipn k faults /\ k <= 36 * total (map given cs) + 40.
Proof.
  intros Srr srt now options faults sw cs outs sw' LS N E G. unfold NewSimpleWriter in N.
  pose proof (c_NewWriter now options faults) as A. pose proof (new_count now options faults) as C. destruct (NewWriter now options faults) as [[w|e|] f]; cbn [fst rbind] in N; try discriminate. injection N as <-.
  destruct A as [A _]. destruct (simple_session srt LS _ _ _ _ E G) as (k & T & K). unfold made in T. cbn [sw_writer] in *. rewrite A in T. rewrite C in K.
  cbn [waiting sw_pendingIDs length] in K. exists (13 + k). split; [rewrite T; apply skipn_plus|cbn in K; lia].
Qed.
Print Assumptions C84_simple_session.

(** Concrete: how many elements of a long stream are left after each call.  A block of 3 items
    costs 22 + 6. *)
Definition left_after (r : res writer * file) (cs : list wcall) : nat :=
  match r with (Ok w, _) => length (f_faults (w_file (snd (run_calls cs w)))) | (_, f) => length (f_faults f) end.
Example C84_case :
  let start := NewWriter 7 [WithBlockSize 4096] (repeat NoFault 200) in
  left_after start [] = 187
  /\ left_after start [CWriteBlock [1; 2; 3]%Z [4; 5; 6]%Z; CFinalize 9] = 187 - 28 - 36
  /\ left_after start [CEstimate [1; 2; 3]%Z [4; 5; 6]%Z; CEstimate [1]%Z []; CClose; CClose; CFinalize 9] = 187 - 2.
Proof. vm_compute. repeat split. Qed.

(** Five items in two Writes: they wait until Close. *)
Definition as_given (l : list (Z * Z)) : list (Z * Z) := l.
Example C84_simple_case :
  match NewSimpleWriter 7 [WithBlockSize 4096] (repeat NoFault 200) with
  | Ok sw => let '(outs, sw') := run_scalls as_given [SCWrite [1; 2; 3]%Z [4; 5; 6]%Z; SCSetTarget 8192; SCWrite [4; 5]%Z [8; 9]%Z; SCClose 9] sw in
      outs = [Ok tt; Ok tt; Ok tt; Ok tt] /\ w_blockCount (sw_writer sw') = 1%Z
      /\ 200 - length (f_faults (w_file (sw_writer sw'))) = 82
  | _ => False
  end.
Proof. vm_compute. repeat split. Qed.
