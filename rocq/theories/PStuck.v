(** C74: when a writer's file descriptor is released, and SimpleWriters that can never be
    closed. *)
From Verif Require Import Machine MachineFacts Encoding FileIO Sroar SroarFacts Writer SimpleWriter Reader Spec SimpleSpec
  PanicFacts StuckFacts Examples PAggregate PSimple.
Local Open Scope Z_scope.

Section Claims.
Context {Srr : Sroar}.

(** NewWriter hands out an open file, or releases it and fails. *)
Theorem C74_new_failure_releases now options faults :
  match NewWriter now options faults with
  | (Ok w, f) => f = w_file w /\ f_open f = true
  | (Err _, f) => f_open f = false
  | (Panic, _) => False
  end.
Proof.
  pose proof (fun e f => new_failure_releases now options faults e f) as H1.
  pose proof (fun w f => new_facts now options faults w f) as H2.
  pose proof (proj1 (new_safe now options faults)) as H3.
  assert (H4 : forall w f, NewWriter now options faults = (Ok w, f) -> f = w_file w) by (intros w f; apply new_file).
  destruct (NewWriter now options faults) as [[w|e|] f].
  - split; [exact (H4 w f eq_refl)|]. destruct (H2 w f eq_refl) as (_ & _ & _ & H). rewrite (H4 w f eq_refl). exact H.
  - exact (H1 e f eq_refl).
  - exact (H3 eq_refl).
Qed.

(** Close releases the file, whatever it returns, and leaves its bytes alone. *)
Theorem C74_close_releases w : f_open (w_file (snd (Close w))) = false /\ bytes_of (snd (Close w)) = bytes_of w.
Proof. split; [apply close_releases|apply close_bytes]. Qed.

(** FinalizeAndClose releases it exactly when its Finalize succeeded: a failed
    FinalizeAndClose may leave the file open. *)
Theorem C74_finalize_and_close now w r w' : f_open (w_file w) = true -> FinalizeAndClose now w = (r, w') ->
  (f_open (w_file w') = false <-> fst (Finalize now w) = Ok tt)
  /\ (r = Ok tt -> f_open (w_file w') = false)
  /\ (f_open (w_file w') = false -> (r = Ok tt \/ r = Err ErrIO) /\ bytes_of w' = bytes_of (snd (Finalize now w))).
Proof.
  intros Ho H. destruct (finalize_and_close now w r w' Ho H) as [H1 H2]. fold (is_open w').
  split; [|split; [exact H1|]].
  - split.
    + intros Hc. destruct (H2 Hc) as (_ & w1 & E & _). rewrite E. reflexivity.
    + intros E. unfold FinalizeAndClose, mbind in H. destruct (Finalize now w) as [[u|e|] w1]; cbn [fst] in E; try discriminate.
      pose proof (close_releases w1) as R. change (Close w1) with (closeFile w1) in R. rewrite H in R. exact R.
  - intros Hc. destruct (H2 Hc) as (Hr & w1 & E & Hb). rewrite E. auto.
Qed.

(** A SimpleWriter's file is released by Close only, and only by a Close that had written
    everything: the buffer is empty and the bytes are those of a Finalize that succeeded. *)
Theorem C74_simple_release srt c sw r sw' : run_scall srt c sw = (r, sw') ->
  f_open (w_file (sw_writer sw)) = true -> f_open (w_file (sw_writer sw')) = false ->
  exists now w1 w2, c = SCClose now /\ (r = Ok tt \/ r = Err ErrIO) /\ buffered sw' = 0
    /\ Finalize now w1 = (Ok tt, w2) /\ bytes_of w2 = file_of sw'.
Proof. apply simple_release. Qed.

(** A call failed after it had changed the file, without an item having been moved out of
    the buffer (a block was begun and not finished), and not in the final sync of a block.
    Whatever is called afterwards, however healthy the disk: no Close succeeds, and the
    descriptor stays open. *)
Theorem C74_torn_never_closes srt options faults h sw1 c e sw2 later outs sw3 :
  sorts srt -> simple_run srt options faults h sw1 -> submitted h < 2 ^ 63 -> typed_scall c ->
  run_scall srt c sw1 = (Err e, sw2) -> e <> ErrSync ->
  TotalItems sw2 = TotalItems sw1 -> file_of sw2 <> file_of sw1 -> 0 < buffered sw2 ->
  run_scalls srt later sw2 = (outs, sw3) ->
  IsClosed sw3 = false /\ f_open (w_file (sw_writer sw3)) = true
  /\ (forall t, ~ In (SCClose t, Ok tt) (combine later outs)).
Proof. apply torn_never_closes. Qed.

(** The same for a SimpleWriter created with an encoding that does not exist, from the
    first pair on: everything handed over stays in the buffer, nothing is ever written,
    Close never succeeds. *)
Theorem C74_unknown_encoding_never_closes srt options faults h sw :
  sorts srt -> simple_run srt options faults h sw -> ~ 0 <= encoding_of options <= 7 -> 0 < submitted h < 2 ^ 64 ->
  IsClosed sw = false /\ TotalItems sw = 0 /\ buffered sw = submitted h
  /\ (forall c r sw', typed_scall c -> run_scall srt c sw = (r, sw') ->
        f_open (w_file (sw_writer sw')) = f_open (w_file (sw_writer sw))).
Proof.
  intros Hs Hr He [H0 H1]. destruct (hopeless_never_closes srt options faults h sw Hs Hr (or_introl He)) as (A & B).
  destruct (B H1) as [B1 B2]. split; [exact (B2 H0)|]. split; [exact A|]. split; [exact B1|].
  intros c r sw' Hc Hx. exact (hopeless_keeps_descriptor srt options faults h sw c r sw' Hs Hr Hc Hx (or_introl He) (conj H0 H1)).
Qed.

(** And for one created with EncodingVarIntID, as long as the values handed over lie in
    [-2^48, 2^48). *)
Theorem C74_varint_id_never_closes srt options faults h sw :
  sorts srt -> simple_run srt options faults h sw -> encoding_of options = EncodingVarIntID -> 0 < submitted h <= 200000000 ->
  (forall ids vals r, In (SCWrite ids vals, r) h -> Forall (fun v => - 2 ^ 48 <= v < 2 ^ 48) vals) ->
  IsClosed sw = false /\ TotalItems sw = 0 /\ buffered sw = submitted h.
Proof.
  intros Hs Hr He [H0 H1] Hv.
  destruct (hopeless_never_closes srt options faults h sw Hs Hr (or_intror (conj He (conj H1 Hv)))) as (A & B).
  assert (H2 : submitted h < two64) by (unfold two64; lia). destruct (B H2) as [B1 B2]. auto.
Qed.
End Claims.
Print Assumptions C74_new_failure_releases.
Print Assumptions C74_close_releases.
Print Assumptions C74_finalize_and_close.
Print Assumptions C74_simple_release.
Print Assumptions C74_torn_never_closes.
Print Assumptions C74_unknown_encoding_never_closes.
Print Assumptions C74_varint_id_never_closes.

(** ** Cases *)
(** NewWriter fails; FinalizeAndClose fails and leaves the file open; it succeeds and
    closes it. *)
Example C74_release_case :
  fst (NewWriter 0 [] (fault_at 3 0)) = Err ErrIO /\ f_open (snd (NewWriter 0 [] (fault_at 3 0))) = false
  /\ fst (FinalizeAndClose 1 (new_w [] (fault_at 15 0))) = Err ErrIO
  /\ f_open (w_file (snd (FinalizeAndClose 1 (new_w [] (fault_at 15 0))))) = true
  /\ fst (FinalizeAndClose 1 (new_w [] [])) = Ok tt
  /\ f_open (w_file (snd (FinalizeAndClose 1 (new_w [] [])))) = false.
Proof. repeat split; vm_compute; reflexivity. Qed.

(** One pair is written; the write of the block header fails in Close; every later Close
    fails although the disk works again. *)
Definition t_calls : list scall := [SCWrite [1] [5]].
Definition t_faults : list fault := fault_at 18 3.
Lemma differ_sound (a b : list Z) : (if list_eq_dec Z.eq_dec a b then true else false) = false -> a <> b.
Proof. destruct (list_eq_dec Z.eq_dec a b) as [H|H]; [discriminate|intros _; exact H]. Qed.
Example C74_torn_case :
  simple_run isort [] t_faults (shist [] t_faults t_calls) (sstate [] t_faults t_calls)
  /\ fst (run_scall isort (SCClose 3) (sstate [] t_faults t_calls)) = Err ErrIO
  /\ TotalItems (sstate [] t_faults (t_calls ++ [SCClose 3])) = TotalItems (sstate [] t_faults t_calls)
  /\ file_of (sstate [] t_faults (t_calls ++ [SCClose 3])) <> file_of (sstate [] t_faults t_calls)
  /\ buffered (sstate [] t_faults (t_calls ++ [SCClose 3])) = 1
  /\ map snd (shist [] t_faults (t_calls ++ [SCClose 3; SCClose 4; SCWrite [2] [6]; SCClose 5]))
     = [Ok tt; Err ErrIO; Err ErrPositions; Ok tt; Err ErrPositions].
Proof.
  split; [apply check_simple_sound; vm_compute; reflexivity|]. split; [vm_compute; reflexivity|]. split; [vm_compute; reflexivity|].
  split; [apply differ_sound; vm_compute; reflexivity|].
  split; vm_compute; reflexivity.
Qed.

Example C74_unknown_case :
  simple_run isort [WithEncoding 8] [] (shist [WithEncoding 8] [] [SCWrite [1] [5]; SCClose 3; SCClose 4]) (sstate [WithEncoding 8] [] [SCWrite [1] [5]; SCClose 3; SCClose 4])
  /\ map snd (shist [WithEncoding 8] [] [SCWrite [1] [5]; SCClose 3; SCClose 4]) = [Ok tt; Err ErrEncoding; Err ErrEncoding]
  /\ submitted (shist [WithEncoding 8] [] [SCWrite [1] [5]; SCClose 3; SCClose 4]) = 1
  /\ f_open (w_file (sw_writer (sstate [WithEncoding 8] [] [SCWrite [1] [5]; SCClose 3; SCClose 4]))) = true.
Proof. split; [apply check_simple_sound; vm_compute; reflexivity|]. repeat split; vm_compute; reflexivity. Qed.

Example C74_varint_id_case :
  simple_run isort [WithEncoding EncodingVarIntID] [] (shist [WithEncoding EncodingVarIntID] [] [SCWrite [1] [5]; SCClose 3; SCClose 4])
    (sstate [WithEncoding EncodingVarIntID] [] [SCWrite [1] [5]; SCClose 3; SCClose 4])
  /\ map snd (shist [WithEncoding EncodingVarIntID] [] [SCWrite [1] [5]; SCClose 3; SCClose 4]) = [Ok tt; Err ErrMismatch; Err ErrMismatch]
  /\ f_open (w_file (sw_writer (sstate [WithEncoding EncodingVarIntID] [] [SCWrite [1] [5]; SCClose 3; SCClose 4]))) = true.
Proof. split; [apply check_simple_sound; vm_compute; reflexivity|]. repeat split; vm_compute; reflexivity. Qed.
