(** Writers do not panic (C65): no assumption on the calls or the failures. *)
From Coq Require Import Lia ZArith.
From Verif Require Import Machine MachineFacts Encoding FileIO FileFacts Sroar Writer SimpleWriter Spec SimpleFacts.
Local Open Scope Z_scope.

Section P.
Context {Srr : Sroar}.

(** The lists that Finalize indexes; the block positions may be more. *)
Definition ok (w : writer) : Prop := zlen (w_sizes w) = w_blockCount w /\ zlen (w_stats w) = w_blockCount w.
Definition safe {A} (m : M A) : Prop := forall w, ok w -> fst (m w) <> Panic /\ ok (snd (m w)).
(** [m] changes the file only. *)
Definition fileonly {A} (m : M A) : Prop := forall w, fst (m w) <> Panic
  /\ w_positions (snd (m w)) = w_positions w /\ w_sizes (snd (m w)) = w_sizes w /\ w_stats (snd (m w)) = w_stats w /\ w_blockCount (snd (m w)) = w_blockCount w.

Lemma fileonly_safe {A} (m : M A) : fileonly m -> safe m.
Proof. intros H w [H1 H2]. destruct (H w) as (P & _ & E2 & E3 & E4). split; [exact P|]. unfold ok. rewrite E2, E3, E4. auto. Qed.
Lemma safe_bind {A B} (m : M A) (k : A -> M B) : safe m -> (forall a, safe (k a)) -> safe (mbind m k).
Proof.
  intros H1 H2 w Hw. unfold mbind. destruct (H1 w Hw) as [P O]. destruct (m w) as [[a|e|] w']; cbn [fst snd] in *; [apply H2; exact O|split; [discriminate|exact O]|congruence].
Qed.
Lemma fileonly_bind {A B} (m : M A) (k : A -> M B) : fileonly m -> (forall a, fileonly (k a)) -> fileonly (mbind m k).
Proof.
  intros H1 H2 w. unfold mbind. destruct (H1 w) as (P & E1 & E2 & E3 & E4). destruct (m w) as [[a|e|] w']; cbn [fst snd] in *; [|split; [discriminate|auto]|congruence].
  destruct (H2 a w') as (Q & F1 & F2 & F3 & F4). rewrite F1, F2, F3, F4. auto.
Qed.
Lemma fileonly_ret {A} (a : A) : fileonly (mret a).
Proof. intros w. split; [discriminate|auto]. Qed.
Lemma fileonly_fail {A} e : fileonly (@mfail _ A e).
Proof. intros w. split; [discriminate|auto]. Qed.
Lemma fileonly_get : fileonly mget.
Proof. intros w. split; [discriminate|auto]. Qed.
Lemma fileonly_file {A} (op : file -> res A * file) : (forall f, fst (op f) <> Panic) -> fileonly (mfile op).
Proof. intros H w. unfold mfile. specialize (H (w_file w)). destruct (op (w_file w)) as [r f]. cbn [fst snd set_file] in *. auto. Qed.
Lemma fileonly_seek o wh : fileonly (seek o wh).
Proof. apply fileonly_file. intros f. unfold file_seek. repeat match goal with |- context [match ?x with _ => _ end] => destruct x end; discriminate. Qed.
Lemma fileonly_write bs : fileonly (write bs).
Proof. apply fileonly_file. intros f. unfold file_write. repeat match goal with |- context [match ?x with _ => _ end] => destruct x end; discriminate. Qed.
Lemma fileonly_sync : fileonly sync.
Proof. apply fileonly_file. intros f. unfold file_sync. repeat match goal with |- context [match ?x with _ => _ end] => destruct x end; discriminate. Qed.
Lemma fileonly_close : fileonly closeFile.
Proof. apply fileonly_file. intros f. unfold file_close. repeat match goal with |- context [match ?x with _ => _ end] => destruct x end; discriminate. Qed.
Lemma fileonly_writeAll l : forall acc, fileonly (writeAll l acc).
Proof. induction l as [|bs l IH]; intros acc; cbn [writeAll]; [apply fileonly_ret|]. apply fileonly_bind; [apply fileonly_write|]. intros n. apply IH. Qed.
Lemma fileonly_lift {A} (r : res A) : r <> Panic -> fileonly (mlift r).
Proof. intros H w. split; [exact H|auto]. Qed.
Lemma encode_items_np enc1 l : forall n, encode_items enc1 l n <> Panic.
Proof.
  induction l as [|x l IH]; intros n; cbn [encode_items]; [discriminate|]. cbv zeta. match goal with |- context [if ?c then _ else _] => destruct c end; [discriminate|].
  unfold rbind. match goal with |- context [encode_items enc1 l ?k] => pose proof (IH k) as K; destruct (encode_items enc1 l k) as [[a b]|e|] end; congruence.
Qed.
Lemma encodeData_np e l d v : encodeData e l d v <> Panic.
Proof.
  unfold encodeData. cbv zeta. destruct (usesDelta e); [|discriminate]. destruct (usesFixedWidth e); [discriminate|]. unfold rbind.
  match goal with |- context [encode_items v ?x ?k] => pose proof (encode_items_np v x k) as K; destruct (encode_items v x k) as [[a c]|e'|] end; [|congruence|congruence].
  destruct (_ && _); discriminate.
Qed.
Lemma encodeIDs_np e ids : encodeIDs e ids <> Panic.
Proof. apply encodeData_np. Qed.
Lemma encodeValues_np e ids : encodeValues e ids <> Panic.
Proof. apply encodeData_np. Qed.

Ltac fo := lazymatch goal with
  | |- fileonly (mbind _ _) => apply fileonly_bind; [fo|intros; fo]
  | |- fileonly (let '(_, _) := ?x in _) => destruct x; fo
  | |- fileonly (seek _ _) => apply fileonly_seek
  | |- fileonly (write _) => apply fileonly_write
  | |- fileonly (writeInt _ _) => apply fileonly_write
  | |- fileonly (writeAll _ _) => apply fileonly_writeAll
  | |- fileonly sync => apply fileonly_sync
  | |- fileonly closeFile => apply fileonly_close
  | |- fileonly mget => apply fileonly_get
  | |- fileonly (mret _) => apply fileonly_ret
  | |- fileonly (mfail _) => apply fileonly_fail
  | |- fileonly (mlift (encodeIDs _ _)) => apply fileonly_lift, encodeIDs_np
  | |- fileonly (mlift (encodeValues _ _)) => apply fileonly_lift, encodeValues_np
  | |- fileonly (if ?c then _ else _) => destruct c; fo
  | |- fileonly (let x := _ in _) => cbv zeta; fo
  | _ => idtac
  end.

Lemma fileonly_header now : fileonly (writeHeader now).
Proof. unfold writeHeader. fo. Qed.
Lemma fileonly_estimate ids vals : fileonly (EstimateBlockSize ids vals).
Proof. unfold EstimateBlockSize. fo. Qed.
Lemma fileonly_blockHeader a b c d e f : fileonly (writeBlockHeader a b c d e f).
Proof. unfold writeBlockHeader. fo. Qed.
Lemma fileonly_section u e b : fileonly (writeSection u e b).
Proof. unfold writeSection. fo. Qed.
Lemma fileonly_bitmap : fileonly writeGlobalIDBitmap.
Proof. unfold writeGlobalIDBitmap. fo. Qed.
Lemma fileonly_footer p s st : fileonly (writeBlockFooter p s st).
Proof. unfold writeBlockFooter. fo. Qed.

(** The prefix length the search returns. *)
Lemma find_safe ids vals : forall idx opt w, fst (findOptimal ids vals idx opt w) <> Panic
  /\ w_positions (snd (findOptimal ids vals idx opt w)) = w_positions w /\ w_sizes (snd (findOptimal ids vals idx opt w)) = w_sizes w
  /\ w_stats (snd (findOptimal ids vals idx opt w)) = w_stats w /\ w_blockCount (snd (findOptimal ids vals idx opt w)) = w_blockCount w.
Proof.
  induction idx as [|i idx IH]; intros opt w; cbn [findOptimal]; [apply fileonly_ret|].
  destruct (fileonly_estimate (ztake i ids) (ztake i vals) w) as (P & E1 & E2 & E3 & E4).
  destruct (EstimateBlockSize (ztake i ids) (ztake i vals) w) as [[s|e|] w']; cbn [fst snd] in *; [|split; [discriminate|auto]|congruence].
  destruct (s <=? w_target w'); [|split; [discriminate|auto]]. destruct (IH i w') as (Q & F1 & F2 & F3 & F4). rewrite F1, F2, F3, F4. auto.
Qed.
Lemma find_range ids vals : forall idx opt w n w', findOptimal ids vals idx opt w = (Ok n, w') -> n = opt \/ In n idx.
Proof.
  induction idx as [|i idx IH]; intros opt w n w'; cbn [findOptimal]; [intros [= <- _]; auto|].
  destruct (EstimateBlockSize _ _ w) as [[s|e|] w1]; [|intros [= <- _]; auto|discriminate].
  destruct (s <=? w_target w1); [|intros [= <- _]; auto]. intros H. destruct (IH _ _ _ _ H) as [->|K]; cbn [In]; auto.
Qed.

Lemma internal_safe ids vals : safe (writeBlockInternal ids vals).
Proof.
  unfold writeBlockInternal. apply safe_bind; [intros w H; split; [discriminate|exact H]|]. intros _.
  apply safe_bind; [apply fileonly_safe, fileonly_get|]. intros w0. cbv zeta.
  apply safe_bind; [apply fileonly_safe, fileonly_lift, encodeIDs_np|]. intros [[eI eIB] eS].
  apply safe_bind; [apply fileonly_safe, fileonly_lift, encodeValues_np|]. intros [[eV eVB] vS].
  destruct (calculateMinMax ids) as [a b], (calculateMinMax vals) as [c d].
  apply safe_bind; [apply fileonly_safe, fileonly_seek|]. intros start.
  apply safe_bind; [intros w H; split; [discriminate|exact H]|]. intros _.
  apply safe_bind; [apply fileonly_safe, fileonly_blockHeader|]. intros hw.
  do 5 (apply safe_bind; [apply fileonly_safe; fo|]; intros ?).
  repeat match goal with |- safe (if ?c then mfail _ else _) => destruct c; [apply fileonly_safe, fileonly_fail|] end.
  apply safe_bind; [apply fileonly_safe; fo|]; intros bw. destruct (negb _); [apply fileonly_safe, fileonly_fail|].
  apply safe_bind; [apply fileonly_safe; fo|]; intros _. apply safe_bind; [apply fileonly_safe, fileonly_section|]; intros x. destruct (negb _); [apply fileonly_safe, fileonly_fail|].
  apply safe_bind; [apply fileonly_safe, fileonly_section|]; intros y. destruct (negb _); [apply fileonly_safe, fileonly_fail|].
  apply safe_bind; [apply fileonly_safe; fo|]; intros e. apply safe_bind; [apply fileonly_safe; fo|]; intros _. destruct (negb _); [apply fileonly_safe, fileonly_fail|].
  apply safe_bind; [|intros _; apply fileonly_safe, fileonly_sync].
  intros w [H1 H2]. split; [discriminate|]. unfold mmodify, ok. cbn [fst snd push_block w_sizes w_stats w_blockCount]. rewrite !zlen_app, H1, H2. split; reflexivity.
Qed.
Lemma write_safe ids vals : safe (WriteBlock ids vals).
Proof.
  unfold WriteBlock. repeat match goal with |- safe (if ?c then mfail _ else _) => destruct c; [apply fileonly_safe, fileonly_fail|] end.
  apply safe_bind; [apply fileonly_safe, fileonly_estimate|]. intros s. apply safe_bind; [apply fileonly_safe, fileonly_get|]. intros w0.
  destruct (_ && _); [|apply internal_safe].
  apply safe_bind; [apply fileonly_safe; intros w; apply find_safe|]. intros n. apply safe_bind; [apply internal_safe|]. intros _. apply fileonly_safe, fileonly_fail.
Qed.
Lemma entries_safe : forall idx w, (forall i, In i idx -> 0 <= i < zlen (w_positions w) /\ i < zlen (w_sizes w) /\ i < zlen (w_stats w)) ->
  fst (writeFooterEntries idx w) <> Panic /\ w_positions (snd (writeFooterEntries idx w)) = w_positions w /\ w_sizes (snd (writeFooterEntries idx w)) = w_sizes w
  /\ w_stats (snd (writeFooterEntries idx w)) = w_stats w /\ w_blockCount (snd (writeFooterEntries idx w)) = w_blockCount w.
Proof.
  induction idx as [|i idx IH]; intros w H; cbn [writeFooterEntries]; [apply fileonly_ret|]. unfold mbind, mget.
  destruct (H i (or_introl eq_refl)) as ((I0 & I1) & I2 & I3).
  assert (N : forall (A : Type) (l : list A), 0 <= i < zlen l -> exists x, nth_error l (Z.to_nat i) = Some x).
  { intros A l Hl. destruct (nth_error l (Z.to_nat i)) as [x|] eqn:E; [eauto|]. apply nth_error_None in E. unfold zlen in Hl. lia. }
  destruct (N _ (w_positions w) ltac:(lia)) as [p ->]. destruct (N _ (w_sizes w) ltac:(lia)) as [s ->]. destruct (N _ (w_stats w) ltac:(lia)) as [st ->].
  destruct (fileonly_footer p s st w) as (P & E1 & E2 & E3 & E4). destruct (writeBlockFooter p s st w) as [[u|e|] w']; cbn [fst snd] in *; [|split; [discriminate|auto]|congruence].
  destruct (IH w') as (Q & F1 & F2 & F3 & F4); [intros j Hj; rewrite E1, E2, E3; apply H; right; exact Hj|].
  split; [exact Q|]. rewrite F1, F2, F3, F4. auto.
Qed.
Lemma in_zseq n i : In i (zseq n) -> 0 <= i < n.
Proof. unfold zseq. intros H. apply in_map_iff in H. destruct H as (k & <- & H). apply in_seq in H. lia. Qed.

(** [m] keeps the lists as they are in [w0]. *)
Definition same (w0 w : writer) : Prop := w_positions w = w_positions w0 /\ w_sizes w = w_sizes w0 /\ w_stats w = w_stats w0 /\ w_blockCount w = w_blockCount w0.
Definition keeps (w0 : writer) {A} (m : M A) : Prop := forall w, same w0 w -> fst (m w) <> Panic /\ same w0 (snd (m w)).
Lemma fileonly_keeps w0 {A} (m : M A) : fileonly m -> keeps w0 m.
Proof. intros H w (E1 & E2 & E3 & E4). destruct (H w) as (P & F1 & F2 & F3 & F4). split; [exact P|]. unfold same. rewrite F1, F2, F3, F4. auto. Qed.
Lemma keeps_bind w0 {A B} (m : M A) (k : A -> M B) : keeps w0 m -> (forall a, keeps w0 (k a)) -> keeps w0 (mbind m k).
Proof.
  intros H1 H2 w Hw. unfold mbind. destruct (H1 w Hw) as [P O]. destruct (m w) as [[a|e|] w']; cbn [fst snd] in *; [apply H2; exact O|split; [discriminate|exact O]|congruence].
Qed.
Lemma safe_get {A} (k : writer -> M A) : (forall w0, ok w0 -> keeps w0 (k w0)) -> safe (mbind mget k).
Proof.
  intros H w Hw. unfold mbind, mget. destruct (H w Hw w) as [P (E1 & E2 & E3 & E4)]; [unfold same; auto|]. split; [exact P|]. unfold ok. rewrite E2, E3, E4. exact Hw.
Qed.
Lemma finalize_safe now : safe (Finalize now).
Proof.
  unfold Finalize. apply safe_bind; [apply fileonly_safe, fileonly_bitmap|]. intros [off size].
  apply safe_bind; [apply fileonly_safe, fileonly_seek|]. intros _. apply safe_get. intros w Hw.
  repeat (apply keeps_bind; [match goal with
      | |- keeps w (if w_blockCount w >? 0 then _ else _) => idtac
      | _ => solve [apply fileonly_keeps; fo] end|intros]); [|cbv zeta; apply fileonly_keeps; fo].
  destruct (w_blockCount w >? 0); [|apply fileonly_keeps; fo]. destruct (Z.eqb_spec (zlen (w_positions w)) (w_blockCount w)) as [E|]; cbn [negb]; [|apply fileonly_keeps; fo].
  intros v (E1 & E2 & E3 & E4). destruct Hw as [W1 W2]. destruct (entries_safe (zseq (w_blockCount w)) v) as (P & F1 & F2 & F3 & F4).
  { intros i Hi. apply in_zseq in Hi. rewrite E1, E2, E3. lia. }
  split; [exact P|]. unfold same. rewrite F1, F2, F3, F4. auto.
Qed.
Lemma run_call_safe c : safe (run_call c).
Proof.
  destruct c as [ids vals|ids vals|now|now|]; cbn [run_call]; unfold FinalizeAndClose, Close;
  repeat (apply safe_bind; [|intros _]); try (apply fileonly_safe; fo; fail); [apply write_safe|apply fileonly_safe, fileonly_estimate|apply finalize_safe|apply finalize_safe].
Qed.
Lemma run_calls_safe cs : forall w, ok w -> Forall (fun r => r <> Panic) (fst (run_calls cs w)) /\ ok (snd (run_calls cs w)).
Proof.
  induction cs as [|c cs IH]; intros w Hw; cbn [run_calls]; [split; [constructor|exact Hw]|].
  destruct (run_call_safe c w Hw) as [P O]. destruct (run_call c w) as [r w1]. cbn [fst snd] in *. destruct (IH w1 O) as [Q R]. destruct (run_calls cs w1) as [rs w2].
  cbn [fst snd] in *. split; [constructor; assumption|exact R].
Qed.
Lemma options_ok l : forall w, ok w -> ok (fold_left applyOption l w).
Proof. induction l as [|o l IH]; intros w H; cbn [fold_left]; [exact H|]. apply IH. destruct o; exact H. Qed.
Lemma new_safe now options faults : fst (NewWriter now options faults) <> Panic /\ forall w, fst (NewWriter now options faults) = Ok w -> ok w.
Proof.
  unfold NewWriter. cbv zeta. set (w0 := fold_left _ _ _). assert (H : ok w0) by (apply options_ok; split; reflexivity). clearbody w0.
  destruct (fileonly_safe _ (fileonly_header now) w0 H) as [P O]. destruct (writeHeader now w0) as [[u|e|] w1]; cbn [fst snd] in *; [|split; discriminate|congruence].
  split; [discriminate|]. intros w [= <-]. exact O.
Qed.

(** The count that comes with BlockFullError, in any state. *)
Lemma full_range ids vals w n w' : WriteBlock ids vals w = (Err (ErrBlockFull n), w') -> zlen ids = zlen vals /\ 1 <= n < zlen ids.
Proof.
  intros H. destruct (Z.eq_dec (zlen ids) (zlen vals)) as [E|E].
  - split; [exact E|]. destruct (WriteBlock_errors _ _ _ _ _ E H) as [(k & [= <-] & K)|[P _]]; [exact K|destruct (P n eq_refl)].
  - unfold WriteBlock in H. replace (zlen ids =? zlen vals) with false in H by lia. discriminate.
Qed.

Definition sok (sw : swriter) : Prop := ok (sw_writer sw) /\ zlen (sw_pendingIDs sw) = zlen (sw_pendingValues sw).
Definition fine (p : res unit * swriter) : Prop := fst p <> Panic /\ fst p <> Err ErrFuel /\ sok (snd p).

Lemma flush_fine force : forall fuel sw, sok sw -> (length (sw_pendingIDs sw) < fuel)%nat -> fine (flushIfNeeded fuel force sw).
Proof.
  induction fuel as [|fuel IH]; intros sw [Ho Hl] Hf; [lia|]. cbn [flushIfNeeded].
  destruct (Z.eqb_spec (zlen (sw_pendingIDs sw)) 0) as [E0|N0]; [repeat split; try discriminate; try apply Ho; exact Hl|].
  destruct (if force then true else zlen (sw_pendingIDs sw) >=? 1000); [|repeat split; try discriminate; try apply Ho; exact Hl].
  destruct (write_safe (sw_pendingIDs sw) (sw_pendingValues sw) (sw_writer sw) Ho) as [P O].
  destruct (WriteBlock (sw_pendingIDs sw) (sw_pendingValues sw) (sw_writer sw)) as [[u|er|] w'] eqn:E; cbn [fst snd] in P, O; [|clear P|congruence].
  - split; [discriminate|]. split; [discriminate|]. split; [exact O|reflexivity].
  - destruct (WriteBlock_errors _ _ _ _ _ Hl E) as [(n & -> & Hn)|(Pl & NF & _)].
    + apply IH; cbn [sw_writer sw_pendingIDs sw_pendingValues].
      * split; [exact O|]. cbn [sw_writer sw_pendingIDs sw_pendingValues]. rewrite !zlen_zdrop. lia.
      * assert (zlen (zdrop n (sw_pendingIDs sw)) = zlen (sw_pendingIDs sw) - n) by (rewrite zlen_zdrop; lia). unfold zlen in *. lia.
    + assert (G : fine (Err er, mkSW w' (sw_pendingIDs sw) (sw_pendingValues sw) (sw_targetBlockSize sw) (sw_closed sw) (sw_totalItems sw))).
      { split; [discriminate|]. split; [cbn [fst]; congruence|]. split; [exact O|exact Hl]. }
      destruct er; try exact G. destruct (Pl _ eq_refl).
Qed.

Lemma tame_close : tame closeFile.
Proof.
  intros w e w' H. unfold closeFile, mfile in H. assert (X : plain ErrIO) by (split; [intros; discriminate|split; [discriminate|split; discriminate]]).
  destruct (file_close (w_file w)) as [r f] eqn:E. injection H as -> _. apply (f_equal fst) in E. cbn [fst] in E.
  unfold file_close in E. cbv zeta in E. destruct (f_open _); [destruct (f_faults _) as [|[|k] ?]|]; cbn [fst] in E; congruence.
Qed.

Lemma scall_fine srt c sw : sok sw -> fine (run_scall srt c sw).
Proof.
  intros Hs. pose proof Hs as [Ho Hl].
  assert (Same : forall r, r <> Panic -> r <> Err ErrFuel -> fine (r, sw)) by (intros r A B; split; [exact A|]; split; [exact B|exact Hs]).
  destruct c as [ids vals|size|now]; cbn [run_scall].
  - unfold SWrite. destruct (sw_closed sw); [apply Same; discriminate|]. destruct (Z.eqb_spec (zlen ids) (zlen vals)) as [El|]; cbn [negb]; [|apply Same; discriminate].
    destruct (_ =? 0); [apply Same; discriminate|].
    assert (Ea : forall a b : list Z, zlen a = zlen b -> fine (flush false (mkSW (sw_writer sw) (sw_pendingIDs sw ++ a) (sw_pendingValues sw ++ b) (sw_targetBlockSize sw) false (sw_totalItems sw)))).
    { intros a b E. unfold flush. apply flush_fine; cbn [sw_writer sw_pendingIDs sw_pendingValues]; [|lia]. split; [exact Ho|]. cbn [sw_writer sw_pendingIDs sw_pendingValues]. rewrite !zlen_app. lia. }
    destruct (negb (isSorted ids)); [|apply Ea; exact El]. unfold sortByID. destruct (split (srt (combine ids vals))) as [a b] eqn:E. apply Ea.
    pose proof (split_length_l (srt (combine ids vals))) as L1. pose proof (split_length_r (srt (combine ids vals))) as L2. rewrite E in L1, L2. cbn [fst snd] in *. unfold zlen. lia.
  - unfold SetTargetBlockSize. destruct (sw_closed sw); [apply Same; discriminate|]. split; [discriminate|]. split; [discriminate|]. split; [exact Ho|exact Hl].
  - unfold SClose. destruct (sw_closed sw); [apply Same; discriminate|]. pose proof (flush_fine true (S (length (sw_pendingIDs sw))) sw Hs ltac:(lia)) as (P & F & [O L]).
    unfold flush. destruct (flushIfNeeded _ true sw) as [[u|er|] sw1]; cbn [fst snd] in *; [|split; [discriminate|]; split; [cbn [fst]; congruence|split; assumption]|congruence].
    assert (S : safe (FinalizeAndClose now)) by (unfold FinalizeAndClose; apply safe_bind; [apply finalize_safe|intros _; apply fileonly_safe, fileonly_close]).
    assert (T : tame (FinalizeAndClose now)) by (unfold FinalizeAndClose; apply tame_bind; [apply tame_Finalize|intros _; apply tame_close]).
    destruct (S _ O) as [P1 O1]. specialize (T (sw_writer sw1)). destruct (FinalizeAndClose now (sw_writer sw1)) as [[u'|er|] w']; cbn [fst snd] in *; [| |congruence].
    + split; [discriminate|]. split; [discriminate|]. split; assumption.
    + destruct (T er w' eq_refl) as (_ & NF & _). split; [discriminate|]. split; [cbn [fst]; congruence|]. split; assumption.
Qed.
Lemma scalls_fine srt cs : forall sw, sok sw -> Forall (fun r => r <> Panic /\ r <> Err ErrFuel) (fst (run_scalls srt cs sw)).
Proof.
  induction cs as [|c cs IH]; intros sw Hs; cbn [run_scalls]; [constructor|].
  destruct (scall_fine srt c sw Hs) as (P & F & O). destruct (run_scall srt c sw) as [r sw1]. cbn [fst snd] in *. specialize (IH sw1 O). destruct (run_scalls srt cs sw1) as [rs sw2].
  cbn [fst] in *. constructor; auto.
Qed.
Lemma new_simple_fine now options faults : NewSimpleWriter now options faults <> Panic /\ forall sw, NewSimpleWriter now options faults = Ok sw -> sok sw.
Proof.
  unfold NewSimpleWriter. destruct (new_safe now options faults) as [P O]. destruct (fst (NewWriter now options faults)) as [w|e|]; cbn [rbind]; [|split; discriminate|congruence].
  split; [discriminate|]. intros sw [= <-]. split; [apply O; reflexivity|reflexivity].
Qed.
End P.
