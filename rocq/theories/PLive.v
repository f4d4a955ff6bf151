(** C60: a file is opened while another process writes it.  Statements and cases; proofs in LiveFacts.v. *)
From Coq Require Import Lia ZArith.
From Verif Require Import Machine MachineFacts Encoding Sroar SroarFacts FileIO FileFacts Writer Spec FinalFacts Reader ArbFacts SimpleWriter SimpleSpec SimpleFacts
  Examples PAggregate PSimple StopSpec StopFacts StopCalls StopBytes StopSimple PStop PStopSimple Live LiveSpec LiveFacts.
Local Open Scope Z_scope.

(** C60: NewReader is called while a writer is at work ([w] is the state the writer will
    reach).  Its Stat finds the length of [s], the contents at the moment [n], [k]; what its
    reads -- and the reads made later with the Reader -- find ([d1] ... [d5]) are contents of
    later moments, possibly a mixture of several.  Then NewReader refuses the file, or it was
    complete when Stat looked at it and every read finds the complete file; the exception
    is again a file ending where the complete one has the magic number inside. *)
Theorem C60_open_while_writing : forall {Srr : Sroar} {Laws : SroarLaws Srr} now0 options w0 f0 cs outs w n k s d1 d2 d3 d4 d5,
  NewWriter now0 options [] = (Ok w0, f0) -> Forall typed_call cs -> run_calls cs w0 = (outs, w) -> zlen (bytes_of w) < two63 ->
  writer_moments w0 cs n k s ->
  (forall d, In d [d1; d2; d3; d4; d5] -> seen (writer_moments w0 cs) n k d) ->
  (exists e, NewReaderLive (zlen s) d1 d2 d3 d4 d5 = Err e)
  \/ (s = bytes_of w /\ d5 = bytes_of w /\ NewReaderLive (zlen s) d1 d2 d3 d4 d5 = NewReader (bytes_of w))
  \/ exists i, 0 < i /\ i + 8 < zlen (bytes_of w) /\ slice (bytes_of w) i 8 = le_bytes 8 MagicNumber /\ zlen s = i + 8.
Proof.
  intros Srr Laws now0 options w0 f0 cs outs w n k s d1 d2 d3 d4 d5 HN HT HR HS HM HD.
  pose proof (writer_live now0 options w0 f0 cs HN HT) as K. cbv zeta in K. rewrite HR in K. cbn [snd] in K. destruct (K HS) as [K1 K2].
  destruct (live_open _ (bytes_of w) HS K1 K2 n k s d1 d2 d3 d4 d5 HM) as [E|[(-> & -> & -> & -> & -> & ->)|E]]; try (apply HD; cbn; tauto); [left; exact E| |right; right; exact E].
  right; left. split; [reflexivity|]. split; [reflexivity|]. apply live_quiet.
Qed.
Print Assumptions C60_open_while_writing.

(** C60, for a SimpleWriter: a Reader that can be opened before the writing process has
    finished Close has all of the data, each batch ordered by ID. *)
Theorem C60_open_simple : forall {Srr : Sroar} {Laws : SroarLaws Srr} srt now0 options sw0 cs outs sw n k s d1 d2 d3 d4 d5 r, sorts srt ->
  NewSimpleWriter now0 options [] = Ok sw0 -> Forall typed_option options -> Forall typed_scall cs -> run_scalls srt cs sw0 = (outs, sw) -> undisturbed (combine cs outs) ->
  IsClosed sw = true -> fits (sw_writer sw) (file_of sw) -> faithful (encoding_of options) -> only_at_the_ends (file_of sw) ->
  simple_moments srt sw0 cs n k s ->
  (forall d, In d [d1; d2; d3; d4; d5] -> seen (simple_moments srt sw0 cs) n k d) ->
  NewReaderLive (zlen s) d1 d2 d3 d4 d5 = Ok r ->
  exists blocks arrived, BlockCount r = zlen blocks
     /\ (forall i, is_u64 i -> GetPairs r i = match nth_error blocks (Z.to_nat i) with Some b => Ok b | None => Err ErrIndex end)
     /\ Forall2 arrives (written (combine cs outs)) arrived /\ all_pairs blocks = concat arrived.
Proof.
  intros Srr Laws srt now0 options sw0 cs outs sw n k s d1 d2 d3 d4 d5 r Hs HN HO HT HR HU HC Hfit Hfa Hon HM HD Hr.
  destruct (simple_live srt now0 options sw0 cs outs sw Hs HN HO HT HR HU (fits_file _ _ Hfit)) as [K1 K2].
  destruct (live_open _ (file_of sw) (fits_file _ _ Hfit) K1 K2 n k s d1 d2 d3 d4 d5 HM) as [[e E]|[(-> & -> & -> & -> & -> & ->)|(i & I1 & I2 & I3 & _)]];
    try (apply HD; cbn; tauto); [congruence| |destruct (Hon i I1 I2 I3)].
  rewrite live_quiet in Hr.
  assert (G : exists r blocks arrived, NewReader (file_of sw) = Ok r /\ BlockCount r = zlen blocks
     /\ (forall i, is_u64 i -> GetPairs r i = match nth_error blocks (Z.to_nat i) with Some b => Ok b | None => Err ErrIndex end)
     /\ Forall2 arrives (written (combine cs outs)) arrived /\ all_pairs blocks = concat arrived).
  { eapply simple_read_back; try eassumption. econstructor; try eassumption. reflexivity. }
  destruct G as (r' & blocks & arrived & E & G). rewrite Hr in E. injection E as E. subst r'. exists blocks, arrived. exact G.
Qed.
Print Assumptions C60_open_simple.

(** A complete moment can be seen at that moment and at every earlier one. *)
Lemma seen_moment (moments : nat -> Z -> list Z -> Prop) n k n' k' d : earlier n k n' k' -> moments n' k' d -> seen moments n k d.
Proof. intros E M. split; [exists n', k', d; auto|]. intros p b Hb. exists n', k', d. auto. Qed.
Lemma left_moment cs n k : dead_at cs n k = true -> writer_moments stop_w0 cs n k (left_at cs n k).
Proof.
  intros H. exists 9%nat, (after cs (stop n k 9)). split; [reflexivity|]. split; [|reflexivity].
  unfold dead_at in H. intros E. rewrite E in H. discriminate H.
Qed.
(** Two blocks and Finalize (see C58): Stat in the middle of the last write, and after it. *)
Example C60_case :
  (exists f0, NewWriter 0 [] [] = (Ok stop_w0, f0)) /\ Forall typed_call stop_calls
  /\ writer_moments stop_w0 stop_calls 93 3 (left_at stop_calls 93 3) /\ seen (writer_moments stop_w0 stop_calls) 93 3 full
  /\ is_error (NewReaderLive (zlen (left_at stop_calls 93 3)) full full full full full) = true
  /\ writer_moments stop_w0 stop_calls 94 0 full /\ seen (writer_moments stop_w0 stop_calls) 94 0 full
  /\ is_ok (NewReaderLive (zlen full) full full full full full) = true.
Proof.
  assert (M : writer_moments stop_w0 stop_calls 94 0 full).
  { replace full with (left_at stop_calls 94 0) by (vm_compute; reflexivity). apply left_moment. vm_compute. reflexivity. }
  split; [apply stop_new|]. split; [apply (forallb_Forall' _ _ _ typed_callb_sound); vm_compute; reflexivity|].
  split; [apply left_moment; vm_compute; reflexivity|]. split; [apply (seen_moment _ 93 3 94 0); [left; lia|exact M]|].
  split; [vm_compute; reflexivity|]. split; [exact M|]. split; [apply (seen_moment _ 94 0 94 0); [right; split; [reflexivity|lia]|exact M]|]. vm_compute. reflexivity.
Qed.

(** C60, "a Reader opened on a complete file shows that file" is false if the writer goes
    on after Finalize: Stat finds the file of the first Finalize, complete and with one
    block; the header is read when the second Finalize has rewritten it; NewReader succeeds,
    and the Reader has two blocks according to BlockCount, but only one can be read. *)
Definition resume_calls : list wcall := [CWriteBlock [5] [1]; CFinalize 9; CWriteBlock [7] [3]; CFinalize 9].
Definition first_file : list Z := bytes_of (snd (run_calls (firstn 2 resume_calls) stop_w0)).
Definition second_file : list Z := bytes_of (snd (run_calls resume_calls stop_w0)).
Definition blocks_shown (r : res reader) : option (Z * res (list Z * list Z) * res (list Z * list Z)) :=
  match r with Ok r => Some (BlockCount r, GetPairs r 0, GetPairs r 1) | _ => None end.
Theorem C60_resume_refuted :
  writer_moments stop_w0 resume_calls 60 0 first_file /\ seen (writer_moments stop_w0 resume_calls) 60 0 second_file
  /\ blocks_shown (NewReader first_file) = Some (1, Ok ([5], [1]), Err ErrIndex)
  /\ blocks_shown (NewReader second_file) = Some (2, Ok ([5], [1]), Ok ([7], [3]))
  /\ blocks_shown (NewReaderLive (zlen first_file) second_file second_file second_file second_file second_file) = Some (2, Ok ([5], [1]), Err ErrIndex).
Proof.
  split. { replace first_file with (left_at resume_calls 60 0) by (vm_compute; reflexivity). apply left_moment. vm_compute. reflexivity. }
  split. { apply (seen_moment _ 60 0 130 0); [left; lia|]. replace second_file with (left_at resume_calls 130 0) by (vm_compute; reflexivity). apply left_moment. vm_compute. reflexivity. }
  split; [vm_compute; reflexivity|]. split; vm_compute; reflexivity.
Qed.
Print Assumptions C60_resume_refuted.
