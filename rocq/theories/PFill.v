(** C68: a SimpleWriter fills its blocks.  Only statements and concrete cases; proofs are
    in FillFacts.v. *)
From Coq Require Import Sorting.Permutation.
From Verif Require Import Machine MachineFacts Encoding FileIO Sroar SroarFacts Writer WriterFacts SimpleWriter Reader Aggregate Spec SimpleSpec FillSpec
  AggFacts SimpleFacts FillFacts Examples PAggregate PSimple.

Section Properties.
Context {Srr : Sroar}.

(** C68: as long as no system call fails, a closed SimpleWriter whose block size target
    is a multiple of 4096 and is not changed has left a file in which no block is larger
    than the target and every block but the last holds at least 1000 pairs, or so many
    that another pair of the largest size would not have fitted (144 bytes of headers;
    16 or 20 bytes per pair); and the file is not larger than its blocks, the bitmap, the
    footer (28 bytes and 56 per block) and less than a page of padding require. *)
Theorem C68_blocks_are_filled : forall srt options faults h sw,
  simple_run srt options faults h sw -> sorts srt -> fault_free faults -> faithful (encoding_of options) ->
  target_of options mod 4096 = 0 -> 4096 <= target_of options -> target_kept h ->
  IsClosed sw = true -> fits (sw_writer sw) (file_of sw) ->
  exists r blocks, NewReader (file_of sw) = Ok r /\ BlockCount r = zlen blocks
    /\ (forall i, is_u64 i ->
          GetPairs r i = match nth_error blocks (Z.to_nat i) with Some b => Ok b | None => Err ErrIndex end)
    /\ (forall b, In b (removelast blocks) ->
          1000 <= zlen (fst b) \/ target_of options < 144 + pair_bytes (encoding_of options) * (zlen (fst b) + 1))
    /\ (forall en, In en (r_index r) -> e_size en <= target_of options)
    /\ zlen (file_of sw) <= 64 + target_of options * BlockCount r + h_bitmapSize (r_header r) + 4095 + 28 + 56 * BlockCount r.
Proof.
  intros srt options faults h sw H1 H2 H3 H4 H5 H6 H7 H8 H9.
  destruct (filled srt options faults h sw H1 H2 H3 H4 H5 H6 H7 H8 H9) as (r & blocks & R1 & R2 & _ & R3 & R4 & R5).
  exists r, blocks. split; [exact R1|]. split; [apply R2|]. split; [apply R2|].
  split; [intros b Hb; rewrite Forall_forall in R3; specialize (R3 b Hb); cbv beta in R3; destruct R3; [left|right]; lia|].
  split; [intros en Hen; rewrite Forall_forall in R4; apply R4; exact Hen|exact R5].
Qed.

(** C68, with the default target: every block but the last holds at least 812 pairs (1000
    under the fixed-width encodings), so that n pairs make at most 1 + n/812 (1 + n/1000)
    blocks; and no block is larger than 16 KiB, whatever the comment "128KB default block
    size" in NewSimpleWriter says. *)
Theorem C68_default_target : forall srt options faults h sw,
  simple_run srt options faults h sw -> sorts srt -> fault_free faults -> faithful (encoding_of options) ->
  target_of options = 16384 -> target_kept h ->
  IsClosed sw = true -> fits (sw_writer sw) (file_of sw) ->
  let least := if pair_bytes (encoding_of options) =? 16 then 1000 else 812 in
  exists r blocks, NewReader (file_of sw) = Ok r /\ BlockCount r = zlen blocks
    /\ (forall i, is_u64 i ->
          GetPairs r i = match nth_error blocks (Z.to_nat i) with Some b => Ok b | None => Err ErrIndex end)
    /\ (forall b, In b (removelast blocks) -> least <= zlen (fst b))
    /\ BlockCount r <= 1 + zlen (concat (written h)) / least
    /\ (forall en, In en (r_index r) -> e_size en <= 16384)
    /\ zlen (file_of sw) <= 4187 + 16440 * BlockCount r + h_bitmapSize (r_header r).
Proof.
  intros srt options faults h sw H1 H2 H3 H4 H5 H7 H8 H9 least.
  destruct (filled srt options faults h sw H1 H2 H3 H4 ltac:(rewrite H5; reflexivity) ltac:(rewrite H5; discriminate) H7 H8 H9)
    as (r & blocks & R1 & R2 & RA & R3 & R4 & R5). rewrite H5 in *.
  assert (L0 : 0 < least) by (unfold least; destruct (_ =? _); reflexivity).
  assert (R3' : Forall (fun b : block => least <= zlen (fst b)) (removelast blocks)).
  { eapply Forall_impl; [|exact R3]. cbv beta. intros b Hb. unfold least. rewrite pair_bytes_fixed in *. clear - Hb. destruct (usesFixedWidth _); cbn [Z.eqb Pos.eqb] in *; lia. }
  exists r, blocks. split; [exact R1|]. split; [apply R2|]. split; [apply R2|].
  split; [intros b Hb; rewrite Forall_forall in R3'; apply R3'; exact Hb|].
  split.
  { assert (HB : BlockCount r = zlen blocks) by apply R2. rewrite HB. apply Zplus_le_reg_r with (p := -1).
    replace (1 + zlen (concat (written h)) / least + -1) with (zlen (concat (written h)) / least) by lia.
    apply Z.div_le_lower_bound; [exact L0|]. rewrite <- (zlen_arranged srt) by exact H2. rewrite <- RA.
    replace (zlen blocks + -1) with (zlen blocks - 1) by lia. apply few_blocks; [lia| |exact R3'].
    eapply Forall_impl; [|exact (v_good _ _ (v_indexed _ _ R2))]. intros b Hb. apply Hb. }
  split; [intros en Hen; rewrite Forall_forall in R4; apply R4; exact Hen|]. clear - R5. lia.
Qed.
(** C68, with SetTargetBlockSize: it takes effect.  Let the client change the target at
    will; the targets in force at its Writes and Closes are multiples of 4096.  Then no
    block is larger than one of those, every block but the last holds 1000 pairs or is
    full for one of those, the file header states the target set last, and the file is as
    small as for the largest of them. *)
Theorem C68_set_target : forall srt options faults h sw,
  simple_run srt options faults h sw -> sorts srt -> fault_free faults -> faithful (encoding_of options) ->
  (forall t, In t (in_force (target_of options) h) -> t mod 4096 = 0 /\ 4096 <= t) ->
  IsClosed sw = true -> fits (sw_writer sw) (file_of sw) ->
  exists r blocks, NewReader (file_of sw) = Ok r /\ BlockCount r = zlen blocks
    /\ (forall i, is_u64 i ->
          GetPairs r i = match nth_error blocks (Z.to_nat i) with Some b => Ok b | None => Err ErrIndex end)
    /\ h_blockSizeTarget (r_header r) = settled (target_of options) h
    /\ (forall b, In b (removelast blocks) -> exists t, In t (in_force (target_of options) h) /\
          (1000 <= zlen (fst b) \/ t < 144 + pair_bytes (encoding_of options) * (zlen (fst b) + 1)))
    /\ (forall en, In en (r_index r) -> exists t, In t (in_force (target_of options) h) /\ e_size en <= t)
    /\ (forall m, (forall t, In t (in_force (target_of options) h) -> t <= m) ->
          zlen (file_of sw) <= 64 + m * BlockCount r + h_bitmapSize (r_header r) + 4095 + 28 + 56 * BlockCount r).
Proof.
  intros srt options faults h sw H1 H2 H3 H4 H5 H8 H9.
  destruct (filled_any srt options faults h sw H1 H2 H3 H4 ltac:(apply Forall_forall; exact H5) H8 H9) as (r & blocks & R1 & R2 & _ & RT & R3 & R4 & R5).
  exists r, blocks. split; [exact R1|]. split; [apply R2|]. split; [apply R2|]. split; [exact RT|].
  split; [intros b Hb; rewrite Forall_forall in R3; destruct (R3 b Hb) as (t & Ht & Hf); exists t; split; [exact Ht|]; destruct Hf; [left|right]; lia|].
  split; [intros en Hen; rewrite Forall_forall in R4; apply R4; exact Hen|exact R5].
Qed.
End Properties.
Print Assumptions C68_set_target.
Print Assumptions C68_blocks_are_filled.
Print Assumptions C68_default_target.

(** 250 pairs and a target of one page: the first block is closed after 247 pairs. *)
Definition fill_options : list writerOption := [WithBlockSize 4096].
Definition fill_calls : list scall := [SCWrite (zseq 250) (zseq 250); SCWrite [7] []; SCClose 3; SCClose 4].
Lemma target_kept_sound h : forallb (fun '(c, _) => match c with SCSetTarget _ => false | _ => true end) h = true -> target_kept h.
Proof. intros H s r Hin. rewrite forallb_forall in H. specialize (H _ Hin). discriminate. Qed.
Example C68_case : let h := shist fill_options [] fill_calls in let sw := sstate fill_options [] fill_calls in
  simple_run isort fill_options [] h sw /\ sorts isort /\ fault_free [] /\ faithful (encoding_of fill_options)
  /\ target_of fill_options mod 4096 = 0 /\ 4096 <= target_of fill_options /\ target_kept h
  /\ IsClosed sw = true /\ fits (sw_writer sw) (file_of sw)
  /\ w_blockCount (sw_writer sw) = 2.
Proof.
  split; [apply check_simple_sound; vm_compute; reflexivity|]. split; [exact isort_sorts|]. split; [constructor|].
  split; [left; reflexivity|]. split; [reflexivity|]. split; [discriminate|].
  split; [apply target_kept_sound; vm_compute; reflexivity|]. split; [vm_compute; reflexivity|].
  split; [apply fits_sound; vm_compute; reflexivity|vm_compute; reflexivity].
Qed.
Example C68_default_case : let h := shist [] [] [SCWrite [9; 2] [-5; 7]; SCClose 3] in let sw := sstate [] [] [SCWrite [9; 2] [-5; 7]; SCClose 3] in
  simple_run isort [] [] h sw /\ faithful (encoding_of []) /\ target_of [] = 16384 /\ target_kept h
  /\ IsClosed sw = true /\ fits (sw_writer sw) (file_of sw).
Proof.
  split; [apply check_simple_sound; vm_compute; reflexivity|]. split; [left; reflexivity|]. split; [reflexivity|].
  split; [apply target_kept_sound; vm_compute; reflexivity|]. split; [vm_compute; reflexivity|].
  apply fits_sound; vm_compute; reflexivity.
Qed.

(** A target of one page set on a writer with the default options and again changed with
    250 pairs pending: they fit one block of two pages. *)
Definition retarget_calls : list scall :=
  [SCSetTarget 4096; SCWrite (zseq 250) (zseq 250); SCSetTarget 8192; SCWrite [900] [1]; SCClose 3; SCSetTarget 1; SCClose 4].
Lemma in_force_sound t h : forallb (fun t => (t mod 4096 =? 0) && (4096 <=? t)) (in_force t h) = true ->
  forall t', In t' (in_force t h) -> t' mod 4096 = 0 /\ 4096 <= t'.
Proof. intros H t' Hin. rewrite forallb_forall in H. specialize (H t' Hin). apply andb_prop in H. lia. Qed.
Example C68_set_target_case : let h := shist [] [] retarget_calls in let sw := sstate [] [] retarget_calls in
  simple_run isort [] [] h sw /\ sorts isort /\ fault_free [] /\ faithful (encoding_of [])
  /\ (forall t, In t (in_force (target_of []) h) -> t mod 4096 = 0 /\ 4096 <= t)
  /\ in_force (target_of []) h = [4096; 8192; 8192; 8192] /\ settled (target_of []) h = 8192
  /\ IsClosed sw = true /\ fits (sw_writer sw) (file_of sw)
  /\ w_blockCount (sw_writer sw) = 1.
Proof.
  split; [apply check_simple_sound; vm_compute; reflexivity|]. split; [exact isort_sorts|]. split; [constructor|].
  split; [left; reflexivity|]. split; [apply in_force_sound; vm_compute; reflexivity|].
  split; [vm_compute; reflexivity|]. split; [vm_compute; reflexivity|]. split; [vm_compute; reflexivity|].
  split; [apply fits_sound; vm_compute; reflexivity|vm_compute; reflexivity].
Qed.
