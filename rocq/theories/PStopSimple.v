(** C59: the process is stopped while it uses a SimpleWriter.  Statements and cases; proofs in StopSimple.v. *)
From Coq Require Import Lia ZArith.
From Verif Require Import Machine MachineFacts Encoding Sroar SroarFacts FileIO FileFacts Writer Spec FinalFacts Reader ArbFacts SimpleWriter SimpleSpec SimpleFacts
  Examples PAggregate PSimple StopSpec StopFacts StopCalls StopBytes StopSimple PStop.
Local Open Scope Z_scope.

(** C59: wherever the process is stopped while it writes a file with a SimpleWriter --
    [sw] is the state it would have reached, all calls succeeding, and [d] what is in the
    file when it stops -- the file is refused by NewReader, or it is the complete file, or
    it ends where the complete file has the magic number inside. *)
Theorem C59_crash_anywhere : forall {Srr : Sroar} {Laws : SroarLaws Srr} srt now0 options sw0 cs outs sw d, sorts srt ->
  NewSimpleWriter now0 options [] = Ok sw0 -> Forall typed_option options -> Forall typed_scall cs -> run_scalls srt cs sw0 = (outs, sw) -> undisturbed (combine cs outs) ->
  zlen (file_of sw) < two63 -> simple_crash_state srt sw0 cs d ->
  zdrop 60 d = slice (file_of sw) 60 (zlen d - 60)
  /\ ((exists e, NewReader d = Err e)
      \/ d = file_of sw
      \/ exists i, 0 < i /\ i + 8 < zlen (file_of sw) /\ slice (file_of sw) i 8 = le_bytes 8 MagicNumber /\ zlen d = i + 8).
Proof.
  intros Srr Laws srt now0 options sw0 cs outs sw d Hs HN HO HT HR HU HS (n & k & j & u & Eu & HF & Ed). subst u.
  destruct (simple_stop_anywhere srt now0 options sw0 cs outs sw n k j d Hs HN HO HT HR HU HS HF Ed) as (HB & [[PL [x PT]] _] & [y HZ] & HA). split.
  - assert (zlen d >= 64) by (apply (f_equal zlen) in HZ; rewrite zlen_zdrop, zlen_app, zlen_zeros in HZ; pose proof (zlen_nonneg y); lia).
    unfold slice. rewrite PT. rewrite ztake_app_exact by (rewrite zlen_zdrop; lia). reflexivity.
  - destruct (NewReader d) as [r|e|] eqn:E; [right; exact (HA r eq_refl)|left; eauto|destruct (NewReader_no_panic d HB E)].
Qed.
Print Assumptions C59_crash_anywhere.

(** C59: all or nothing.  If the magic number is nowhere inside the complete file, then
    after a stop anywhere between NewSimpleWriter and the end of Close the file is refused,
    or it can be read and holds every batch of every Write, each ordered by ID. *)
Theorem C59_all_or_nothing : forall {Srr : Sroar} {Laws : SroarLaws Srr} srt now0 options sw0 cs outs sw d, sorts srt ->
  NewSimpleWriter now0 options [] = Ok sw0 -> Forall typed_option options -> Forall typed_scall cs -> run_scalls srt cs sw0 = (outs, sw) -> undisturbed (combine cs outs) ->
  IsClosed sw = true -> fits (sw_writer sw) (file_of sw) -> faithful (encoding_of options) -> only_at_the_ends (file_of sw) ->
  simple_crash_state srt sw0 cs d ->
  (exists e, NewReader d = Err e)
  \/ exists r blocks arrived, NewReader d = Ok r /\ BlockCount r = zlen blocks
     /\ (forall i, is_u64 i -> GetPairs r i = match nth_error blocks (Z.to_nat i) with Some b => Ok b | None => Err ErrIndex end)
     /\ Forall2 arrives (written (combine cs outs)) arrived /\ all_pairs blocks = concat arrived.
Proof.
  intros Srr Laws srt now0 options sw0 cs outs sw d Hs HN HO HT HR HU HC Hfit Hfa Hon Hd.
  destruct (C59_crash_anywhere srt now0 options sw0 cs outs sw d Hs HN HO HT HR HU (fits_file _ _ Hfit) Hd) as [_ [E|[->|(i & I1 & I2 & I3 & _)]]]; [left; exact E| |destruct (Hon i I1 I2 I3)].
  right. eapply simple_read_back; try eassumption. econstructor; try eassumption. reflexivity.
Qed.
Print Assumptions C59_all_or_nothing.

Definition q_calls : list scall := [SCWrite [9; 2] [-5; 7]; SCClose 3].
Definition sleft {S : Sroar} (srt : sorter) (sw0 : swriter) (cs : list scall) (n : nat) (k : Z) : list Z := file_of (snd (run_scalls srt cs (swith sw0 (stop n k 9)))).
Definition sdead {S : Sroar} (srt : sorter) (sw0 : swriter) (cs : list scall) (n : nat) (k : Z) : bool :=
  match f_faults (w_file (sw_writer (snd (run_scalls srt cs (swith sw0 (stop n k 9)))))) with [] => false | _ => true end.
Lemma sdead_sound {S : Sroar} srt sw0 cs n k : sdead srt sw0 cs n k = true -> simple_crash_state srt sw0 cs (sleft srt sw0 cs n k).
Proof.
  intros H. exists n, k, 9%nat, (snd (run_scalls srt cs (swith sw0 (stop n k 9)))). split; [reflexivity|]. split; [|reflexivity]. unfold sdead in H. intros E. rewrite E in H. discriminate H.
Qed.
Definition q_w0 : swriter := new_sw s_options [].
Definition look (n : nat) : bool * Z * bool := (sdead isort q_w0 q_calls n 3, zlen (sleft isort q_w0 q_calls n 3), is_ok (NewReader (sleft isort q_w0 q_calls n 3))).
(** Two blocks (the items do not fit in one).  Call 92 is the last write, of the magic number. *)
Lemma ok_swriter (r : res swriter) : is_ok r = true -> r = Ok (match r with Ok sw => sw | _ => no_swriter end).
Proof. destruct r; [reflexivity|discriminate|discriminate]. Qed.
Example C59_case :
  NewSimpleWriter 0 s_options [] = Ok q_w0 /\ simple_run isort s_options [] (shist s_options [] q_calls) (sstate s_options [] q_calls) /\ undisturbed (shist s_options [] q_calls)
  /\ IsClosed (sstate s_options [] q_calls) = true /\ fits (sw_writer (sstate s_options [] q_calls)) (file_of (sstate s_options [] q_calls))
  /\ faithful (encoding_of s_options) /\ only_at_the_ends (file_of (sstate s_options [] q_calls))
  /\ (forall n, In n [20; 60; 92; 93]%nat -> simple_crash_state isort q_w0 q_calls (sleft isort q_w0 q_calls n 3))
  /\ map look [20; 60; 92; 93]%nat = [(true, 145, false); (true, 8212, false); (true, 12423, false); (true, 12428, true)]
  /\ sleft isort q_w0 q_calls 93 3 = file_of (sstate s_options [] q_calls).
Proof.
  split; [apply ok_swriter; vm_compute; reflexivity|]. split; [apply check_simple_sound; vm_compute; reflexivity|]. split; [apply undisturbed_sound; vm_compute; reflexivity|].
  split; [vm_compute; reflexivity|]. split; [apply fits_sound; vm_compute; reflexivity|]. split; [exact s_faithful|].
  split; [apply only_sound; vm_compute; reflexivity|].
  split; [intros n Hn; apply sdead_sound; repeat (destruct Hn as [<-|Hn]; [vm_compute; reflexivity|]); destruct Hn|].
  split; vm_compute; reflexivity.
Qed.
