(** C58: the process is stopped at any point.  Statements and cases; proofs in StopBytes.v. *)
From Coq Require Import Lia ZArith.
From Verif Require Import Machine MachineFacts Encoding Sroar SroarFacts FileIO FileFacts Writer Spec FinalFacts Reader ArbFacts Examples PAggregate StopSpec StopFacts StopCalls StopBytes.
Local Open Scope Z_scope.

(** C58: whatever a writer is used for, and wherever the process is stopped after
    NewWriter -- between two system calls or in the middle of a write, in WriteBlock or in
    Finalize -- the file left behind is, apart from the 60 header bytes, the beginning of
    the file that would have been written, and it is refused by NewReader, or it is that
    complete file, or it ends just where the complete file has the magic number somewhere
    inside (in the user's data, or from an earlier Finalize). *)
Theorem C58_crash_anywhere : forall {Srr : Sroar} {Laws : SroarLaws Srr} now0 options w0 f0 cs outs w d,
  NewWriter now0 options [] = (Ok w0, f0) -> Forall typed_call cs -> run_calls cs w0 = (outs, w) -> zlen (bytes_of w) < two63 ->
  crash_state w0 cs d ->
  zdrop 60 d = slice (bytes_of w) 60 (zlen d - 60)
  /\ ((exists e, NewReader d = Err e)
      \/ d = bytes_of w
      \/ exists i, 0 < i /\ i + 8 < zlen (bytes_of w) /\ slice (bytes_of w) i 8 = le_bytes 8 MagicNumber /\ zlen d = i + 8).
Proof.
  intros Srr Laws now0 options w0 f0 cs outs w d HN HT HR HS (n & k & j & u & Eu & HF & Ed). subst u.
  pose proof (stop_anywhere now0 options w0 f0 cs n k j d HN HT) as K. cbv zeta in K. rewrite HR in K. cbn [snd] in K.
  destruct (K HS HF Ed) as (HB & [[PL [x PT]] _] & [y HZ] & HA). split.
  - assert (zlen d >= 64) by (apply (f_equal zlen) in HZ; rewrite zlen_zdrop, zlen_app, zlen_zeros in HZ; pose proof (zlen_nonneg y); lia).
    unfold slice. rewrite PT. rewrite ztake_app_exact by (rewrite zlen_zdrop; lia). reflexivity.
  - destruct (NewReader d) as [r|e|] eqn:E; [right; exact (HA r eq_refl)|left; eauto|destruct (NewReader_no_panic d HB E)].
Qed.
Print Assumptions C58_crash_anywhere.

(** C58: so if the magic number is nowhere inside, writing a file is atomic: after a crash
    it is refused or complete. *)
Theorem C58_atomic : forall {Srr : Sroar} {Laws : SroarLaws Srr} now0 options w0 f0 cs outs w d r,
  NewWriter now0 options [] = (Ok w0, f0) -> Forall typed_call cs -> run_calls cs w0 = (outs, w) -> zlen (bytes_of w) < two63 ->
  only_at_the_ends (bytes_of w) -> crash_state w0 cs d -> NewReader d = Ok r -> d = bytes_of w.
Proof.
  intros Srr Laws now0 options w0 f0 cs outs w d r HN HT HR HS HO HC H.
  destruct (C58_crash_anywhere now0 options w0 f0 cs outs w d HN HT HR HS HC) as [_ [[e E]|[E|(i & I1 & I2 & I3 & _)]]]; [congruence|exact E|].
  destruct (HO i I1 I2 I3).
Qed.
Print Assumptions C58_atomic.

(** C32, what is true of it: a file left by a crash is refused if the complete file does not
    have the magic number anywhere but in front (so it was not finalized, and the data does
    not spell it). *)
Theorem C32_torn_rejected : forall {Srr : Sroar} {Laws : SroarLaws Srr} now0 options w0 f0 cs outs w d,
  NewWriter now0 options [] = (Ok w0, f0) -> Forall typed_call cs -> run_calls cs w0 = (outs, w) -> zlen (bytes_of w) < two63 ->
  (forall i, 0 < i -> slice (bytes_of w) i 8 <> le_bytes 8 MagicNumber) -> crash_state w0 cs d -> exists e, NewReader d = Err e.
Proof.
  intros Srr Laws now0 options w0 f0 cs outs w d HN HT HR HS HO HC.
  destruct (C58_crash_anywhere now0 options w0 f0 cs outs w d HN HT HR HS HC) as [_ [H|[E|(i & I1 & I2 & I3 & _)]]]; [exact H| |destruct (HO i I1 I3)].
  destruct HC as (n & k & j & u & Eu & HF & Ed). subst u.
  pose proof (stop_anywhere now0 options w0 f0 cs n k j d HN HT) as K. cbv zeta in K. rewrite HR in K. cbn [snd] in K. destruct (K HS HF Ed) as (HB & _ & _ & _).
  destruct (NewReader d) as [r|e|] eqn:ER; [|eauto|destruct (NewReader_no_panic d HB ER)]. exfalso.
  assert (S2 : zlen d < two63) by (rewrite E; exact HS). destruct (NewReader_accepts d r HB S2 ER) as (L & _ & _ & M3 & _).
  apply (HO (zlen d - 8)); [lia|]. rewrite <- E. exact M3.
Qed.
Print Assumptions C32_torn_rejected.

(** C58: and if the process is stopped while NewWriter still writes the header, what is
    there -- some first bytes of the header -- is refused, whatever the options.  (The clock
    is in seconds: 2^37 is the year 6325.) *)
Theorem C58_crash_in_create : forall {Srr : Sroar} {Laws : SroarLaws Srr} now options n k j f,
  0 <= now < 2 ^ 37 -> snd (NewWriter now options (stop n k j)) = f -> f_faults f <> [] ->
  zlen (f_data f) <= 64 /\ exists e, NewReader (f_data f) = Err e.
Proof.
  intros Srr Laws now options n k j f Hn E N. destruct (create_prefix now options n k j f E N) as [m ->]. split; [rewrite zlen_ztake, zlen_initial; lia|].
  destruct (NewReader (ztake m (initial_data now options))) as [r|e|] eqn:Er; [destruct (create_refused now options m r Hn Er)|eauto|].
  destruct (NewReader_no_panic _ ltac:(apply Forall_ztake; apply initial_bytes) Er).
Qed.
Print Assumptions C58_crash_in_create.
Definition bytes_after (r : res writer * file) : Z * bool := (zlen (f_data (snd r)), match f_faults (snd r) with [] => false | _ => true end).
Example C58_create_case : map (fun n => bytes_after (NewWriter 5 [WithBlockSize 7] (stop n 3 9))) [0; 1; 5; 11; 12; 13]%nat
  = [(0, true); (3, true); (27, true); (63, true); (64, true); (64, true)].
Proof. vm_compute. reflexivity. Qed.

Fixpoint begins (m l : list Z) : bool :=
  match m, l with [], _ => true | a :: m', b :: l' => (a =? b) && begins m' l' | _, [] => false end.
Fixpoint absent (n : nat) (m l : list Z) : bool :=
  match n with O => true | S n' => negb (begins m l) && absent n' m (tl l) end.
Lemma begins_sound m : forall l, firstn (length m) l = m -> begins m l = true.
Proof.
  induction m as [|a m IH]; intros l H; [reflexivity|]. destruct l as [|b l]; [discriminate H|]. cbn in *. injection H as -> H. rewrite Z.eqb_refl. apply IH. exact H.
Qed.
Lemma absent_sound m n : forall l i, absent n m l = true -> (i < n)%nat -> firstn (length m) (skipn i l) <> m.
Proof.
  induction n as [|n IH]; intros l i H Hi; [lia|]. cbn [absent] in H. apply Bool.andb_true_iff in H. destruct H as [H1 H2]. destruct i as [|i].
  - intros K. apply begins_sound in K. change (skipn 0 l) with l in K. rewrite K in H1. discriminate H1.
  - destruct l as [|b l]; [|apply (IH l i H2); lia]. cbn. destruct m as [|a m]; [cbn in H1; discriminate H1|discriminate].
Qed.
Lemma only_sound F : absent (length F - 9) (le_bytes 8 MagicNumber) (tl F) = true -> only_at_the_ends F.
Proof.
  intros H i H1 H2 K. refine (absent_sound _ _ (tl F) (Z.to_nat (i - 1)) H _ _); [unfold zlen in H2; lia|].
  unfold slice, ztake, zdrop in K. change (length (le_bytes 8 MagicNumber)) with (Z.to_nat 8). rewrite <- K. f_equal. destruct F as [|b F]; [unfold zlen in H2; cbn in H2; lia|].
  cbn [tl]. replace (Z.to_nat i) with (S (Z.to_nat (i - 1))) by lia. reflexivity.
Qed.
(** Two blocks and Finalize: 24, 26 and 46 system calls. *)
Definition stop_calls : list wcall := [CWriteBlock [5] [1]; CWriteBlock [7; 8] [3; 4]; CFinalize 9].
Definition stop_w0 : writer := new_w [] [].
Definition after (cs : list wcall) (fs : list fault) : writer := snd (run_calls cs (withf stop_w0 fs)).
Definition left_at (cs : list wcall) (n : nat) (k : Z) : list Z := bytes_of (after cs (stop n k 9)).
Definition dead_at (cs : list wcall) (n : nat) (k : Z) : bool := match f_faults (w_file (after cs (stop n k 9))) with [] => false | _ => true end.
Lemma dead_sound cs n k : dead_at cs n k = true -> crash_state stop_w0 cs (left_at cs n k).
Proof.
  intros H. exists n, k, 9%nat, (after cs (stop n k 9)). split; [reflexivity|]. split; [|reflexivity].
  unfold dead_at in H. intros E. rewrite E in H. discriminate H.
Qed.
Definition full : list Z := bytes_of (state [] [] stop_calls).
Lemma stop_new : exists f0, NewWriter 0 [] [] = (Ok stop_w0, f0).
Proof.
  assert (G : forall p : res writer * file, is_ok (fst p) = true -> exists f0, p = (Ok (match fst p with Ok w => w | _ => dummy end), f0)).
  { intros [[w|e|] f] H; [exists f; reflexivity|discriminate H|discriminate H]. }
  apply G. vm_compute. reflexivity.
Qed.
Definition is_error {A} (r : res A) : bool := match r with Err _ => true | _ => false end.
Lemma is_error_sound {A} (r : res A) : is_error r = true -> exists e, r = Err e.
Proof. destruct r; try discriminate. eauto. Qed.
Example C58_case :
  (exists f0, NewWriter 0 [] [] = (Ok stop_w0, f0)) /\ Forall typed_call stop_calls /\ only_at_the_ends full
  /\ (forall n, In n [30; 40; 62; 93]%nat -> crash_state stop_w0 stop_calls (left_at stop_calls n 3))
  /\ map (fun n => (zlen (left_at stop_calls n 3), is_ok (NewReader (left_at stop_calls n 3)))) [30; 40; 62; 93]%nat
     = [(4123, false); (4164, false); (8220, false); (12423, false)]
  /\ crash_state stop_w0 stop_calls (left_at stop_calls 94 0) /\ left_at stop_calls 94 3 = full /\ is_ok (NewReader full) = true.
Proof.
  split; [apply stop_new|]. split; [apply (forallb_Forall' _ _ _ typed_callb_sound); vm_compute; reflexivity|].
  split; [apply only_sound; vm_compute; reflexivity|].
  split; [intros n Hn; apply dead_sound; repeat (destruct Hn as [<-|Hn]; [vm_compute; reflexivity|]); destruct Hn|].
  split; [vm_compute; reflexivity|]. split; [apply dead_sound; vm_compute; reflexivity|]. split; vm_compute; reflexivity.
Qed.

Lemma nowhere_sound F : absent (length F) (le_bytes 8 MagicNumber) (tl F) = true -> forall i, 0 < i -> slice F i 8 <> le_bytes 8 MagicNumber.
Proof.
  intros H i H1 K. destruct (Z_lt_ge_dec (i - 1) (zlen F)) as [Hi|Hi].
  - refine (absent_sound _ _ (tl F) (Z.to_nat (i - 1)) H _ _); [unfold zlen in Hi; lia|].
    unfold slice, ztake, zdrop in K. change (length (le_bytes 8 MagicNumber)) with (Z.to_nat 8). rewrite <- K. f_equal. destruct F as [|b F]; [unfold zlen in Hi; cbn in Hi; lia|].
    cbn [tl]. replace (Z.to_nat i) with (S (Z.to_nat (i - 1))) by lia. reflexivity.
  - apply (f_equal zlen) in K. unfold slice, ztake, zdrop in K. rewrite skipn_all2 in K by (unfold zlen in Hi; lia). rewrite firstn_nil in K. discriminate K.
Qed.
(** Two blocks, not finalized; the process stops in the second. *)
Example C32_case : let cs := firstn 2 stop_calls in
  Forall typed_call cs /\ (forall i, 0 < i -> slice (bytes_of (snd (run_calls cs stop_w0))) i 8 <> le_bytes 8 MagicNumber)
  /\ crash_state stop_w0 cs (left_at cs 30 3) /\ zlen (left_at cs 30 3) = 4123.
Proof.
  cbv zeta. split; [apply (forallb_Forall' _ _ _ typed_callb_sound); vm_compute; reflexivity|]. split; [apply nowhere_sound; vm_compute; reflexivity|].
  split; [apply dead_sound; vm_compute; reflexivity|]. vm_compute. reflexivity.
Qed.

(** C58, "what a successful Finalize made readable survives a later crash" is false: the
    writer can go on after Finalize, and if the process stops while it writes the next
    block, the file that was complete and readable is refused. *)
Definition again_calls : list wcall := [CWriteBlock [5] [1]; CFinalize 9; CWriteBlock [7] [3]].
Theorem C58_resume_refuted : exists d, crash_state stop_w0 again_calls d
  /\ fst (run_calls (firstn 2 again_calls) stop_w0) = [Ok 0; Ok 0]
  /\ is_ok (NewReader (bytes_of (snd (run_calls (firstn 2 again_calls) stop_w0)))) = true
  /\ ztake (zlen d - 16) d = bytes_of (snd (run_calls (firstn 2 again_calls) stop_w0))
  /\ exists e, NewReader d = Err e.
Proof.
  exists (left_at again_calls 65 0). split; [apply dead_sound; vm_compute; reflexivity|]. split; [vm_compute; reflexivity|]. split; [vm_compute; reflexivity|].
  split; [vm_compute; reflexivity|]. apply is_error_sound. vm_compute. reflexivity.
Qed.
Print Assumptions C58_resume_refuted.
