(** Properties of SimpleWriter (C15-C18, C39).  Only statements and concrete cases;
    proofs are in SimpleFacts.v. *)
From Coq Require Import Sorting.Permutation Sorting.Sorted.
From Verif Require Import Machine MachineFacts Encoding FileIO Sroar SroarFacts Writer SimpleWriter Reader Aggregate Spec SimpleSpec SimpleFacts Examples PAggregate.

(** ** Concrete runs *)
(** A sorter: insertion by ID. *)
Fixpoint insert (p : Z * Z) (l : list (Z * Z)) : list (Z * Z) :=
  match l with
  | [] => [p]
  | q :: l' => if fst p <=? fst q then p :: l else q :: insert p l'
  end.
Definition isort (l : list (Z * Z)) : list (Z * Z) := fold_right insert [] l.
Lemma insert_perm p l : Permutation (p :: l) (insert p l).
Proof.
  induction l as [|q l IH]; cbn [insert]; [reflexivity|]. destruct (_ <=? _); [reflexivity|].
  rewrite perm_swap. constructor. exact IH.
Qed.
Lemma insert_ordered p l : ordered l -> ordered (insert p l).
Proof.
  induction l as [|q l IH]; cbn [insert]; intros H; [repeat constructor|].
  destruct (fst p <=? fst q) eqn:E; inversion H as [|? ? H1 H2]; subst.
  - constructor; [exact H|]. constructor; [unfold by_id; lia|]. eapply Forall_impl; [|exact H2]. unfold by_id. intros a Ha. cbv beta in Ha. lia.
  - constructor; [apply IH; exact H1|]. apply Forall_forall. intros x Hx. rewrite Forall_forall in H2.
    apply (Permutation_in _ (Permutation_sym (insert_perm p l))) in Hx. destruct Hx as [<-|Hx]; [unfold by_id; lia|apply H2; exact Hx].
Qed.
Lemma isort_sorts : sorts isort.
Proof.
  intros l. induction l as [|p l [IH1 IH2]]; cbn [isort fold_right]; [split; [reflexivity|constructor]|]. split.
  - rewrite <- insert_perm. constructor. exact IH1.
  - apply insert_ordered. exact IH2.
Qed.

Definition no_swriter : swriter := mkSW dummy [] [] 0 false 0.
Definition new_sw (options : list writerOption) (faults : list fault) : swriter :=
  match NewSimpleWriter 0 options faults with Ok sw => sw | _ => no_swriter end.
Definition shist (options : list writerOption) (faults : list fault) (cs : list scall) : list (scall * res unit) :=
  combine cs (fst (run_scalls isort cs (new_sw options faults))).
Definition sstate (options : list writerOption) (faults : list fault) (cs : list scall) : swriter :=
  snd (run_scalls isort cs (new_sw options faults)).
Definition typed_scallb (c : scall) : bool :=
  match c with
  | SCWrite ids vals => forallb u64b ids && forallb i64b vals && (zlen ids <=? 100000000)
  | _ => true
  end.
Definition check_simple (options : list writerOption) (faults : list fault) (cs : list scall) : bool :=
  is_ok (NewSimpleWriter 0 options faults) && forallb typed_optionb options && forallb typed_scallb cs.
Lemma check_simple_sound options faults cs : check_simple options faults cs = true ->
  simple_run isort options faults (shist options faults cs) (sstate options faults cs).
Proof.
  unfold check_simple, shist, sstate, new_sw. rewrite !andb_true_iff. intros [[H1 H2] H3].
  destruct (NewSimpleWriter 0 options faults) as [sw0|e|] eqn:E; try discriminate.
  destruct (run_scalls isort cs sw0) as [outs sw] eqn:Er. cbn [fst snd].
  econstructor; [exact E|eapply forallb_Forall'; [apply typed_optionb_sound|exact H2]| |exact Er|reflexivity].
  eapply forallb_Forall'; [|exact H3]. intros [ids vals|s|n]; cbn; try exact (fun _ => I).
  rewrite !andb_true_iff. intros [[G1 G2] G3]. split; [|split; [|lia]].
  - eapply forallb_Forall'; [|exact G1]. unfold u64b, is_u64. intros; lia.
  - eapply forallb_Forall'; [|exact G2]. unfold i64b, is_i64. intros; lia.
Qed.
Definition undisturbedb (h : list (scall * res unit)) : bool :=
  forallb (fun '(_, r) => match r with Ok _ | Err ErrLength | Err ErrClosed => true | _ => false end) h.
Lemma undisturbed_sound h : undisturbedb h = true -> undisturbed h.
Proof.
  intros H c r Hin. unfold undisturbedb in H. rewrite forallb_forall in H. specialize (H _ Hin). cbn in H.
  destruct r as [[]|e|]; [auto| |discriminate]. destruct e; try discriminate; auto.
Qed.
Definition closesb (h : list (scall * res unit)) : bool :=
  forallb (fun '(c, r) => match c with SCClose _ => is_ok r | _ => true end) h.
Lemma closes_sound cs : forall sw, closesb (combine cs (fst (run_scalls isort cs sw))) = true -> closes_ok isort cs sw.
Proof.
  induction cs as [|c cs IH]; intros sw H; [exact I|]. cbn [run_scalls closes_ok] in *.
  destruct (run_scall isort c sw) as [r sw1]. specialize (IH sw1). destruct (run_scalls isort cs sw1) as [rs sw2].
  cbn [fst combine] in *. unfold closesb in H. cbn [forallb] in H. apply andb_true_iff in H. destruct H as [H1 H2].
  split; [|apply IH; exact H2]. intros n ->. left. destruct r as [[]|e|]; try discriminate. reflexivity.
Qed.
Fixpoint closes_okb (cs : list scall) (sw : swriter) : bool :=
  match cs with
  | [] => true
  | c :: cs' =>
      let '(r, sw') := run_scall isort c sw in
      (match c with SCClose _ => is_ok r | _ => true end || (0 <? buffered sw')
       || (f_pos (w_file (sw_writer sw')) =? zlen (f_data (w_file (sw_writer sw')))))
      && closes_okb cs' sw'
  end.
Lemma closes_okb_sound cs : forall sw, closes_okb cs sw = true -> closes_ok isort cs sw.
Proof.
  induction cs as [|c cs IH]; intros sw H; [exact I|]. cbn [closes_okb closes_ok] in *.
  destruct (run_scall isort c sw) as [r sw1]. rewrite !andb_true_iff, !orb_true_iff in H. destruct H as [H1 H2].
  split; [|apply IH; exact H2]. intros n ->. destruct H1 as [[H1|H1]|H1].
  - left. destruct r as [[]|e|]; try discriminate. reflexivity.
  - right. left. apply Z.ltb_lt. exact H1.
  - right. right. apply Z.eqb_eq. exact H1.
Qed.
Lemma safe_sound options faults cs : check_simple options faults cs = true ->
  closes_ok isort cs (new_sw options faults) ->
  safe_simple_run isort options faults (shist options faults cs) (sstate options faults cs).
Proof.
  unfold check_simple, shist, sstate, new_sw. rewrite !andb_true_iff. intros [[H1 H2] H3] Hok.
  destruct (NewSimpleWriter 0 options faults) as [sw0|e|] eqn:E; try discriminate.
  destruct (run_scalls isort cs sw0) as [outs sw] eqn:Er. cbn [fst snd].
  econstructor; [exact E|eapply forallb_Forall'; [apply typed_optionb_sound|exact H2]| |exact Er|reflexivity|exact Hok].
  eapply forallb_Forall'; [|exact H3]. intros [ids vals|s|n]; cbn; try exact (fun _ => I).
  rewrite !andb_true_iff. intros [[G1 G2] G3]. split; [|split; [|lia]].
  - eapply forallb_Forall'; [|exact G1]. unfold u64b, is_u64. intros; lia.
  - eapply forallb_Forall'; [|exact G2]. unfold i64b, is_i64. intros; lia.
Qed.
Definition fitsb (sw : swriter) : bool :=
  (zlen (file_of sw) <? two63) && (56 * w_blockCount (sw_writer sw) <? two32)
  && (zlen (bm_ser (w_ids (sw_writer sw))) <? two32).
Lemma fits_sound sw : fitsb sw = true -> fits (sw_writer sw) (file_of sw).
Proof. unfold fitsb. rewrite !andb_true_iff. intros [[H1 H2] H3]. constructor; lia. Qed.

(** An unordered batch, one with IDs and values of different lengths, an ordered one
    with a repeated ID and, after the first Close, one that is refused; the target makes
    every block of one item. *)
Definition s_options : list writerOption := [WithEncoding EncodingVarIntBoth; WithBlockSize 100].
Definition s_calls : list scall :=
  [SCWrite [9; 2] [-5; 7]; SCWrite [1] []; SCWrite [4; 4] [1; max_int64]; SCClose 3; SCWrite [8] [8]; SCClose 4].
Definition s_history := shist s_options [] s_calls.
Definition s_writer := sstate s_options [] s_calls.
Lemma s_run : simple_run isort s_options [] s_history s_writer.
Proof. unfold s_history, s_writer. apply check_simple_sound. vm_compute. reflexivity. Qed.
Lemma s_undisturbed : undisturbed s_history.
Proof. apply undisturbed_sound. vm_compute. reflexivity. Qed.
Lemma s_closed : IsClosed s_writer = true.
Proof. vm_compute. reflexivity. Qed.
Lemma s_fits : fits (sw_writer s_writer) (file_of s_writer).
Proof. apply fits_sound. vm_compute. reflexivity. Qed.
Lemma s_faithful : faithful (encoding_of s_options).
Proof. right. right. right. reflexivity. Qed.

Section Properties.
Context {Srr : Sroar}.

(** C15: if no call of a SimpleWriter failed (except calls refused for arguments of
    different lengths, or after Close) and it is closed, the file opens and its blocks,
    in order, hold exactly the batches written, in call order, each batch unchanged if
    it was ordered by ID and else a permutation of it ordered by ID. *)
Theorem C15_simple_writer_read_back : forall srt options faults h sw,
  simple_run srt options faults h sw -> sorts srt -> undisturbed h -> IsClosed sw = true ->
  fits (sw_writer sw) (file_of sw) -> faithful (encoding_of options) ->
  exists r blocks outs, NewReader (file_of sw) = Ok r /\ BlockCount r = zlen blocks
    /\ (forall i, is_u64 i ->
          GetPairs r i = match nth_error blocks (Z.to_nat i) with Some b => Ok b | None => Err ErrIndex end)
    /\ Forall2 arrives (written h) outs /\ all_pairs blocks = concat outs.
Proof. exact simple_read_back. Qed.

(** C15, second half: as long as no system call fails, every call succeeds, except
    Writes with arguments of different lengths, and calls after a Close. *)
Theorem C15_simple_writer_no_errors : forall srt now options faults cs,
  sorts srt -> fault_free faults -> Forall typed_option options ->
  consistent (encoding_of options) -> Forall typed_scall cs ->
  exists sw0 outs sw, NewSimpleWriter now options faults = Ok sw0 /\ run_scalls srt cs sw0 = (outs, sw)
    /\ simple_run srt options faults (combine cs outs) sw /\ undisturbed (combine cs outs)
    /\ forall h1 c r h2, combine cs outs = h1 ++ (c, r) :: h2 ->
         (forall now', c = SCClose now' -> r = Ok tt)
         /\ ((forall now' r', ~ In (SCClose now', r') h1) ->
             r = Ok tt \/ exists ids vals, c = SCWrite ids vals /\ zlen ids <> zlen vals /\ r = Err ErrLength).
Proof. exact simple_no_errors. Qed.

(** C16: after any calls, failed or not, the items written and those in the buffer add
    up to those handed over; a closed writer has an empty buffer; a successful Write of
    some items leaves fewer than 1000 in the buffer. *)
Theorem C16_accounting : forall srt options faults h sw,
  simple_run srt options faults h sw -> sorts srt ->
  0 <= buffered sw <= submitted h /\ TotalItems sw = u64 (submitted h - buffered sw)
  /\ (submitted h < two64 -> TotalItems sw + buffered sw = submitted h)
  /\ (IsClosed sw = true -> buffered sw = 0)
  /\ (forall h0 ids vals, h = h0 ++ [(SCWrite ids vals, Ok tt)] -> ids <> [] -> buffered sw < 1000).
Proof. exact accounting. Qed.

(** C17: a Close that succeeds leaves the writer closed; from then on every Close
    succeeds, everything else is refused, and nothing changes: neither the file nor
    anything else. *)
Theorem C17_close_closes : forall now sw sw', SClose now sw = (Ok tt, sw') -> IsClosed sw' = true.
Proof. exact close_closes. Qed.
Theorem C17_closed_is_inert : forall srt cs sw outs sw', IsClosed sw = true -> run_scalls srt cs sw = (outs, sw') ->
  sw' = sw /\ Forall2 (fun c r => r = match c with SCClose _ => Ok tt | _ => Err ErrClosed end) cs outs.
Proof. exact closed_inert. Qed.

(** C18: what is in the file does not depend on options, on SetTargetBlockSize calls or
    on how the batches met the block limit: two runs that wrote the same batches hold the
    same sequence of pairs and give the same answers to every aggregation from data. *)
Theorem C18_target_independent {Lw : SroarLaws Srr} : forall srt o1 f1 h1 sw1 o2 f2 h2 sw2, sorts srt ->
  simple_run srt o1 f1 h1 sw1 -> undisturbed h1 -> IsClosed sw1 = true -> fits (sw_writer sw1) (file_of sw1) -> faithful (encoding_of o1) ->
  simple_run srt o2 f2 h2 sw2 -> undisturbed h2 -> IsClosed sw2 = true -> fits (sw_writer sw2) (file_of sw2) -> faithful (encoding_of o2) ->
  written h1 = written h2 ->
  exists r1 r2 blocks1 blocks2, NewReader (file_of sw1) = Ok r1 /\ NewReader (file_of sw2) = Ok r2
    /\ (forall i, is_u64 i -> GetPairs r1 i = match nth_error blocks1 (Z.to_nat i) with Some b => Ok b | None => Err ErrIndex end)
    /\ (forall i, is_u64 i -> GetPairs r2 i = match nth_error blocks2 (Z.to_nat i) with Some b => Ok b | None => Err ErrIndex end)
    /\ all_pairs blocks1 = all_pairs blocks2
    /\ forall skip allow deny, skip = true \/ allow <> None \/ deny <> None ->
         exists res1 res2, aggregateSequential r1 (mkOpts skip allow deny 0) = Ok res1
           /\ aggregateSequential r2 (mkOpts skip allow deny 0) = Ok res2
           /\ a_count res1 = a_count res2 /\ a_sum res1 = a_sum res2 /\ a_avg res1 = a_avg res2
           /\ (0 < a_count res1 -> res1 = res2).
Proof. exact target_independent. Qed.

(** C39, the half that holds: whatever system calls fail in Writes and Closes (but in no
    Close the rewriting of the header), once the writer is closed every pair handed over
    is in the file at least once (a failed Write keeps its pairs in the buffer). *)
Theorem C39_nothing_lost : forall srt options faults h sw,
  safe_simple_run srt options faults h sw -> sorts srt ->
  submitted h <= 100000000 -> IsClosed sw = true -> fits (sw_writer sw) (file_of sw) -> faithful (encoding_of options) ->
  exists r blocks rest, NewReader (file_of sw) = Ok r /\ BlockCount r = zlen blocks
    /\ (forall i, is_u64 i -> GetPairs r i = match nth_error blocks (Z.to_nat i) with Some b => Ok b | None => Err ErrIndex end)
    /\ Permutation (all_pairs blocks) (handed h ++ rest).
Proof. exact nothing_lost. Qed.

End Properties.
Print Assumptions C15_simple_writer_read_back.
Print Assumptions C15_simple_writer_no_errors.
Print Assumptions C16_accounting.
Print Assumptions C17_close_closes.
Print Assumptions C17_closed_is_inert.
Print Assumptions C18_target_independent.
Print Assumptions C39_nothing_lost.

Example C15_case : simple_run isort s_options [] s_history s_writer /\ undisturbed s_history /\ IsClosed s_writer = true
  /\ fits (sw_writer s_writer) (file_of s_writer) /\ faithful (encoding_of s_options)
  /\ written s_history = [[(9, -5); (2, 7)]; [(4, 1); (4, max_int64)]]
  /\ is_ok (NewReader (file_of s_writer)) = true
  /\ map (GetPairs (opened (NewReader (file_of s_writer)))) [0; 1; 2; 3]
     = [Ok ([2], [7]); Ok ([9], [-5]); Ok ([4], [1]); Ok ([4], [max_int64])].
Proof.
  split; [exact s_run|]. split; [exact s_undisturbed|]. split; [exact s_closed|]. split; [exact s_fits|].
  split; [exact s_faithful|]. split; [vm_compute; reflexivity|]. split; vm_compute; reflexivity.
Qed.
Example C15_no_errors_case : sorts isort /\ fault_free [] /\ Forall typed_option s_options
  /\ consistent (encoding_of s_options) /\ map snd s_history = [Ok tt; Err ErrLength; Ok tt; Ok tt; Err ErrClosed; Ok tt].
Proof.
  split; [exact isort_sorts|]. split; [constructor|]. split; [eapply forallb_Forall'; [apply typed_optionb_sound|vm_compute; reflexivity]|].
  split; [do 5 right; reflexivity|]. vm_compute. reflexivity.
Qed.
Example C16_case : simple_run isort s_options [] s_history s_writer /\ submitted s_history = 4 /\ TotalItems s_writer = 4
  /\ buffered s_writer = 0
  /\ buffered (sstate s_options [] (firstn 3 s_calls)) = 4 /\ TotalItems (sstate s_options [] (firstn 3 s_calls)) = 0.
Proof. split; [exact s_run|]. split; [vm_compute; reflexivity|]. split; [vm_compute; reflexivity|]. split; [vm_compute; reflexivity|]. split; vm_compute; reflexivity. Qed.
Example C17_case : fst (SClose 3 (sstate s_options [] (firstn 3 s_calls))) = Ok tt /\ IsClosed s_writer = true
  /\ IsClosed (sstate s_options [] (firstn 3 s_calls)) = false.
Proof. split; [vm_compute; reflexivity|]. split; vm_compute; reflexivity. Qed.

(** The same batches with another encoding, one block, a SetTargetBlockSize call. *)
Definition s_options2 : list writerOption := [WithBlockSize 5000].
Definition s_calls2 : list scall := [SCWrite [9; 2] [-5; 7]; SCSetTarget 6000; SCWrite [4; 4] [1; max_int64]; SCClose 5].
Example C18_case : written (shist s_options2 [] s_calls2) = written s_history
  /\ simple_run isort s_options2 [] (shist s_options2 [] s_calls2) (sstate s_options2 [] s_calls2)
  /\ undisturbed (shist s_options2 [] s_calls2) /\ IsClosed (sstate s_options2 [] s_calls2) = true
  /\ fits (sw_writer (sstate s_options2 [] s_calls2)) (file_of (sstate s_options2 [] s_calls2))
  /\ faithful (encoding_of s_options2)
  /\ w_blockCount (sw_writer (sstate s_options2 [] s_calls2)) = 1 /\ w_blockCount (sw_writer s_writer) = 4.
Proof.
  split; [vm_compute; reflexivity|]. split; [apply check_simple_sound; vm_compute; reflexivity|].
  split; [apply undisturbed_sound; vm_compute; reflexivity|]. split; [vm_compute; reflexivity|].
  split; [apply fits_sound; vm_compute; reflexivity|]. split; [left; reflexivity|]. split; vm_compute; reflexivity.
Qed.

(** A Write of 1000 pairs whose block cannot even be started (the seek fails), then a
    Close that succeeds. *)
Definition k_calls : list scall := [SCWrite (repeat 7 1000) (repeat (-1) 1000); SCClose 3].
Definition k_options : list writerOption := [WithEncoding EncodingVarIntBoth].
Definition k_history := shist k_options (fault_at 13 0) k_calls.
Definition k_writer := sstate k_options (fault_at 13 0) k_calls.
Definition k_ok (run : list (res unit) * swriter) : bool :=
  let '(outs, sw) := run in
  match outs with [Err ErrIO; Ok _] => true | _ => false end
  && IsClosed sw && fitsb sw && (zlen (handed (combine k_calls outs)) =? 1000)
  && (submitted (combine k_calls outs) <=? 100000000) && closesb (combine k_calls outs).
Lemma k_ok_sound run : k_ok run = true -> let h := combine k_calls (fst run) in
  map snd h = [Err ErrIO; Ok tt] /\ closesb h = true
  /\ submitted h <= 100000000 /\ IsClosed (snd run) = true
  /\ fits (sw_writer (snd run)) (file_of (snd run)) /\ zlen (handed h) = 1000.
Proof.
  intros H h. destruct run as [outs sw]. unfold k_ok in H. cbn [fst snd] in h |- *.
  rewrite !andb_true_iff in H. destruct H as [[[[[H1 H2] H3] H4] H5] H6].
  split; [subst h; destruct outs as [|[|[]|] [|[[]| |] [|? ?]]]; try discriminate H1; reflexivity|].
  split; [exact H6|]. split; [apply Z.leb_le; exact H5|]. split; [exact H2|].
  split; [apply fits_sound; exact H3|apply Z.eqb_eq; exact H4].
Qed.
Example C39_nothing_lost_case : safe_simple_run isort k_options (fault_at 13 0) k_history k_writer
  /\ faithful (encoding_of k_options)
  /\ map snd k_history = [Err ErrIO; Ok tt]
  /\ submitted k_history <= 100000000 /\ IsClosed k_writer = true
  /\ fits (sw_writer k_writer) (file_of k_writer)
  /\ zlen (handed k_history) = 1000.
Proof.
  assert (K : k_ok (run_scalls isort k_calls (new_sw k_options (fault_at 13 0))) = true) by (vm_compute; reflexivity).
  apply k_ok_sound in K. cbv zeta in K. destruct K as (K1 & K2 & K3 & K4 & K5 & K6).
  split; [unfold k_history, k_writer; apply safe_sound; [vm_compute; reflexivity|apply closes_sound; exact K2]|].
  split; [do 3 right; reflexivity|]. unfold k_history, k_writer, shist, sstate.
  split; [exact K1|]. split; [exact K3|]. split; [exact K4|]. split; [exact K5|exact K6].
Qed.

(** C39, the claim itself is false: Write of one pair succeeds (into the buffer); Close
    fails because the sync of the block fails; Close again succeeds; the file holds the
    pair twice and TotalItems says 1. *)
Definition d_calls : list scall := [SCWrite [1] [5]; SCClose 3; SCClose 4].
Definition d_faults : list fault := fault_at 36 0.
Theorem C39_duplicates_refuted :
  safe_simple_run isort [] d_faults (shist [] d_faults d_calls) (sstate [] d_faults d_calls)
  /\ shist [] d_faults d_calls = [(SCWrite [1] [5], Ok tt); (SCClose 3, Err ErrSync); (SCClose 4, Ok tt)]
  /\ is_ok (NewReader (file_of (sstate [] d_faults d_calls))) = true
  /\ BlockCount (opened (NewReader (file_of (sstate [] d_faults d_calls)))) = 2
  /\ map (GetPairs (opened (NewReader (file_of (sstate [] d_faults d_calls))))) [0; 1] = [Ok ([1], [5]); Ok ([1], [5])]
  /\ TotalItems (sstate [] d_faults d_calls) = 1.
Proof.
  split; [apply safe_sound; [vm_compute; reflexivity|apply closes_okb_sound; vm_compute; reflexivity]|].
  split; [vm_compute; reflexivity|].
  split; [vm_compute; reflexivity|]. split; [vm_compute; reflexivity|]. split; vm_compute; reflexivity.
Qed.
Print Assumptions C39_duplicates_refuted.
