(** When a writer's file descriptor is released, and SimpleWriters that can never be
    closed. *)
From Verif Require Import Machine MachineFacts Encoding EncodingFacts Sroar FileIO FileFacts Writer SimpleWriter Spec SimpleSpec
  WriterFacts BlockFacts FinalFacts SimpleFacts TornFacts HalfFacts StopCalls.
From Coq Require Import Lia ZifyBool.
Local Open Scope Z_scope.

Section Stuck.
Context {Srr : Sroar}.

Definition is_open (w : writer) : bool := f_open (w_file w).
Definition steady {A} (m : M A) : Prop := forall w, is_open (snd (m w)) = is_open w /\ w_enc (snd (m w)) = w_enc w.
Lemma steady_ret {A} (a : A) : steady (mret a). Proof. split; reflexivity. Qed.
Lemma steady_fail {A} e : steady (@mfail _ A e). Proof. split; reflexivity. Qed.
Lemma steady_panic {A} : steady (@mpanic _ A). Proof. split; reflexivity. Qed.
Lemma steady_lift {A} (r : res A) : steady (mlift r). Proof. split; reflexivity. Qed.
Lemma steady_get : steady mget. Proof. split; reflexivity. Qed.
Lemma steady_modify f : (forall w, is_open (f w) = is_open w /\ w_enc (f w) = w_enc w) -> steady (mmodify f).
Proof. intros H w. exact (H w). Qed.
Lemma steady_bind {A B} (m : M A) (k : A -> M B) : steady m -> (forall a, steady (k a)) -> steady (mbind m k).
Proof.
  intros Hm Hk w. unfold mbind. specialize (Hm w). destruct (m w) as [[a|e|] w']; cbn [snd] in *; [|exact Hm|exact Hm].
  destruct (Hk a w') as [H1 H2], Hm as [H3 H4]. split; congruence.
Qed.
Lemma steady_if {A} (b : bool) (m n : M A) : steady m -> steady n -> steady (if b then m else n).
Proof. destruct b; auto. Qed.
Lemma steady_write bs : steady (write bs).
Proof.
  intros w. unfold write, mfile, file_write, is_open. destruct (f_open (w_file w)) eqn:E; [|cbn [snd set_file w_file w_enc]; auto].
  destruct (f_faults (w_file w)) as [|[|k] fs]; cbn [snd set_file w_file w_enc write_at f_open]; auto.
Qed.
Lemma steady_seek o wh : steady (seek o wh).
Proof.
  intros w. unfold seek, mfile, file_seek, is_open. destruct (f_open (w_file w)) eqn:E; [|cbn [snd set_file w_file w_enc]; auto].
  destruct (f_faults (w_file w)) as [|[|k] fs]; try (destruct (_ <? 0)); cbn [snd set_file w_file w_enc set_pos f_open]; auto.
Qed.
Lemma steady_sync : steady sync.
Proof.
  intros w. unfold sync, mfile, file_sync, is_open. destruct (f_open (w_file w)) eqn:E; [|cbn [snd set_file w_file w_enc]; auto].
  destruct (f_faults (w_file w)) as [|[|k] fs]; cbn [snd set_file w_file w_enc set_pos f_open]; auto.
Qed.
Lemma steady_writeAll l : forall acc, steady (writeAll l acc).
Proof. induction l as [|bs l IH]; intros acc; cbn [writeAll]; [apply steady_ret|]. apply steady_bind; [apply steady_write|auto]. Qed.
Ltac steady := repeat first
  [ apply steady_ret | apply steady_fail | apply steady_panic | apply steady_lift | apply steady_get | apply steady_write | apply steady_seek | apply steady_sync
  | apply steady_writeAll | apply steady_if | (apply steady_modify; intros; split; reflexivity) | (apply steady_bind; [|intros ?]) ].
Lemma steady_blockHeader a b c d e f : steady (writeBlockHeader a b c d e f).
Proof. unfold writeBlockHeader, writeInt. steady. Qed.
Lemma steady_section u l bs : steady (writeSection u l bs).
Proof. unfold writeSection. steady. Qed.
Lemma steady_internal ids vals : steady (writeBlockInternal ids vals).
Proof.
  unfold writeBlockInternal, writeInt. apply steady_bind; [steady|intros _]. apply steady_bind; [steady|intros w]. cbv zeta.
  apply steady_bind; [steady|intros [[a1 a2] a3]]. apply steady_bind; [steady|intros [[b1 b2] b3]].
  destruct (calculateMinMax ids), (calculateMinMax vals).
  repeat first [ apply steady_blockHeader | apply steady_section | progress steady ].
Qed.
Lemma steady_estimate ids vals : steady (EstimateBlockSize ids vals).
Proof.
  unfold EstimateBlockSize. apply steady_if; [steady|]. apply steady_if; [steady|]. apply steady_bind; [steady|intros w].
  apply steady_bind; [steady|intros [[a b] c]]. apply steady_bind; [steady|intros [[a' b'] c']]. steady.
Qed.
Lemma steady_optimal ids vals idx : forall o, steady (findOptimal ids vals idx o).
Proof.
  induction idx as [|i idx IH]; intros o w; cbn [findOptimal]; [split; reflexivity|].
  pose proof (steady_estimate (ztake i ids) (ztake i vals) w) as E. destruct (EstimateBlockSize _ _ w) as [[s|e|] w']; cbn [snd] in *; try exact E.
  destruct (_ <=? _); [|exact E]. destruct (IH i w') as [H1 H2], E. split; congruence.
Qed.
Lemma steady_writeBlock ids vals : steady (WriteBlock ids vals).
Proof.
  unfold WriteBlock. apply steady_if; [steady|]. apply steady_if; [steady|]. apply steady_bind; [apply steady_estimate|intros s].
  apply steady_bind; [steady|intros w]. apply steady_if; [|apply steady_internal].
  apply steady_bind; [apply steady_optimal|intros o]. apply steady_bind; [apply steady_internal|intros _]. steady.
Qed.
Lemma steady_entries idx : steady (writeFooterEntries idx).
Proof.
  induction idx as [|i idx IH]; cbn [writeFooterEntries]; [apply steady_ret|]. apply steady_bind; [steady|intros w].
  destruct (nth_error (w_positions w) _); [|steady]. destruct (nth_error (w_sizes w) _); [|steady].
  destruct (nth_error (w_stats w) _); [|steady]. apply steady_bind; [|intros _; exact IH]. unfold writeBlockFooter, writeInt. steady.
Qed.
Lemma steady_finalize now : steady (Finalize now).
Proof.
  unfold Finalize, writeGlobalIDBitmap, writeInt. apply steady_bind; [steady|intros [o s]]. steady. apply steady_entries.
Qed.

(** ** Releasing *)
Lemma close_releases w : is_open (snd (Close w)) = false.
Proof.
  unfold Close, closeFile, mfile, file_close, is_open. destruct (f_open (w_file w)) eqn:E; [|exact E].
  destruct (f_faults (w_file w)) as [|[|k] fs]; reflexivity.
Qed.
Lemma close_bytes w : bytes_of (snd (Close w)) = bytes_of w.
Proof.
  unfold Close, closeFile, mfile, file_close, bytes_of. destruct (f_open (w_file w)) eqn:E; [|reflexivity].
  destruct (f_faults (w_file w)) as [|[|k] fs]; reflexivity.
Qed.
Theorem new_failure_releases now options faults e f : NewWriter now options faults = (Err e, f) -> f_open f = false.
Proof.
  unfold NewWriter. set (w0 := mkWriter _ _ _ _ _ _ _ _). generalize (fold_left applyOption options w0). intros w1.
  destruct (writeHeader now w1) as [[u|x|] w']; try discriminate. intros H. injection H as _ <-.
  unfold file_close. destruct (f_open (w_file w')) eqn:E; [|exact E]. destruct (f_faults (w_file w')) as [|[|k] fs]; reflexivity.
Qed.
Theorem finalize_and_close now w r w' : is_open w = true -> FinalizeAndClose now w = (r, w') ->
  (r = Ok tt -> is_open w' = false)
  /\ (is_open w' = false -> (r = Ok tt \/ r = Err ErrIO) /\ exists w1, Finalize now w = (Ok tt, w1) /\ bytes_of w' = bytes_of w1).
Proof.
  intros Ho H. unfold FinalizeAndClose, mbind in H. destruct (steady_finalize now w) as [S _].
  destruct (Finalize now w) as [[[]|e|] w1]; cbn [snd] in S.
  - pose proof (close_releases w1) as R. pose proof (close_bytes w1) as B. change (Close w1) with (closeFile w1) in *. rewrite H in R, B. cbn [snd] in *.
    split; [intros _; exact R|]. intros _. split; [|exists w1; auto].
    unfold closeFile, mfile, file_close in H. destruct (f_open (w_file w1)); [|injection H as <- _; auto].
    destruct (f_faults (w_file w1)) as [|[|k] fs]; injection H as <- _; auto.
  - injection H as <- <-. split; [discriminate|]. congruence.
  - injection H as <- <-. split; [discriminate|]. congruence.
Qed.

(** ** Counting items *)
Lemma optimal_range ids vals idx : forall o w n w', findOptimal ids vals idx o w = (Ok n, w') -> n = o \/ In n idx.
Proof.
  induction idx as [|i idx IH]; intros o w n w'; cbn [findOptimal].
  - unfold mret. intros H. left. congruence.
  - destruct (EstimateBlockSize _ _ w) as [[s|e|] w1]; [|intros H; left; congruence|discriminate].
    destruct (_ <=? _); [|intros H; left; congruence]. intros H. right. destruct (IH _ _ _ _ H) as [->|H']; [left; reflexivity|right; exact H'].
Qed.
Lemma full_range ids vals w n w' : WriteBlock ids vals w = (Err (ErrBlockFull n), w') -> 1 <= n < zlen ids.
Proof.
  unfold WriteBlock. destruct (negb _); [discriminate|]. destruct (_ =? 0); [discriminate|].
  unfold mbind at 1. pose proof (nofull_estimate ids vals w n) as F. destruct (EstimateBlockSize ids vals w) as [[s|e|] w1]; cbn [fst] in F; [|congruence|discriminate].
  unfold mbind at 1. cbn [mget]. destruct ((s >? w_target w1) && (zlen ids >? 1)) eqn:E.
  - unfold mbind at 1. pose proof (nofull_optimal ids vals (tl (zseq (zlen ids))) 1 w1 n) as F'.
    destruct (findOptimal ids vals (tl (zseq (zlen ids))) 1 w1) as [[o|e|] w2] eqn:Eo; cbn [fst] in F'; [|congruence|discriminate].
    unfold mbind. pose proof (nofull_internal (ztake o ids) (ztake o vals) w2 n) as F2. destruct (writeBlockInternal _ _ w2) as [[u|e|] w3]; cbn [fst] in F2; [|congruence|discriminate].
    unfold mfail. intros H. apply (f_equal fst) in H. cbn [fst] in H. assert (o = n) by congruence. subst o.
    destruct (optimal_range _ _ _ _ _ _ _ Eo) as [->|Hin]; [lia|].
    assert (In n (zseq (zlen ids)) /\ n <> 0 /\ True) as [Hi [Hz _]].
    { unfold zseq in *. destruct (Z.to_nat (zlen ids)) as [|k] eqn:Ek; [destruct Hin|]. cbn [seq map tl] in *.
      split; [right; exact Hin|]. split; [|exact I]. apply in_map_iff in Hin. destruct Hin as (x & <- & Hx). apply in_seq in Hx. lia. }
    unfold zseq in Hi. apply in_map_iff in Hi. destruct Hi as (x & <- & Hx). apply in_seq in Hx. lia.
  - pose proof (nofull_internal ids vals w1 n) as F2. destruct (writeBlockInternal ids vals w1) as [r w2]. cbn [fst] in F2. congruence.
Qed.

(** What the flush leaves. *)
Lemma writeBlock_gap ids vals w r w' : WriteBlock ids vals w = (r, w') ->
  gap w <= gap w' /\ w_blockCount w <= w_blockCount w'
  /\ ((r = Ok tt \/ exists n, r = Err (ErrBlockFull n)) -> w_blockCount w + 1 <= w_blockCount w')
  /\ (forall e, r = Err e -> e <> ErrSync -> (forall n, e <> ErrBlockFull n) -> bytes_of w' <> bytes_of w -> gap w + 1 <= gap w').
Proof.
  intros H. pose proof (write_gap ids vals w) as G. cbn [run_call] in G. unfold mbind in G. rewrite H in G.
  destruct r as [[]|e|]; unfold mret in G; destruct G as (G1 & G2 & G3 & G4); (split; [exact G1|]); (split; [exact G2|]); split.
  - intros _. apply G3. left. eauto.
  - discriminate.
  - intros [K|[n K]]; [discriminate|]. apply G3. right. exists n. congruence.
  - intros e' K. apply G4. congruence.
  - intros [K|[n K]]; discriminate.
  - discriminate.
Qed.
Lemma closed_one ids vals w : is_open w = false -> bytes_of (snd (WriteBlock ids vals w)) = bytes_of w.
Proof.
  intros H. pose proof (closed_bytes [CWriteBlock ids vals] w H) as C. cbn [run_calls run_call] in C. unfold mbind in C.
  destruct (WriteBlock ids vals w) as [[u|e|] w']; cbn [snd mret] in *; exact C.
Qed.

Lemma flush_facts fuel : forall force sw r sw', flushIfNeeded fuel force sw = (r, sw') ->
  is_open (sw_writer sw') = is_open (sw_writer sw) /\ w_enc (sw_writer sw') = w_enc (sw_writer sw)
  /\ sw_closed sw' = sw_closed sw
  /\ gap (sw_writer sw) <= gap (sw_writer sw') /\ w_blockCount (sw_writer sw) <= w_blockCount (sw_writer sw')
  /\ (exists k, 0 <= k <= zlen (sw_pendingIDs sw) /\ u64 (sw_totalItems sw') = u64 (sw_totalItems sw + k)
        /\ (1 <= k -> w_blockCount (sw_writer sw) + 1 <= w_blockCount (sw_writer sw'))
        /\ (k = 0 -> bytes_of (sw_writer sw') <> bytes_of (sw_writer sw) -> r <> Err ErrSync ->
             (forall u, r <> Ok u) -> r <> Panic -> gap (sw_writer sw) + 1 <= gap (sw_writer sw')))
  /\ (sw_pendingIDs sw <> [] -> sw_pendingIDs sw' <> [] \/ w_blockCount (sw_writer sw) + 1 <= w_blockCount (sw_writer sw'))
  /\ (force = true -> r = Ok tt -> sw_pendingIDs sw' = [])
  /\ (sw_pendingIDs sw' = [] -> r = Ok tt \/ sw_pendingIDs sw = []).
Proof.
  induction fuel as [|fuel IH]; intros force sw r sw'; cbn [flushIfNeeded].
  - intros H. injection H as <- <-. split; [reflexivity|]. split; [reflexivity|]. split; [reflexivity|]. split; [lia|]. split; [lia|].
    split; [exists 0; pose proof (zlen_nonneg (sw_pendingIDs sw)); rewrite Z.add_0_r; split; [lia|]; split; [reflexivity|]; split; [lia|]; intros; congruence|].
    split; [auto|]. split; [discriminate|]. auto.
  - pose proof (zlen_nonneg (sw_pendingIDs sw)) as Hz. destruct (zlen (sw_pendingIDs sw) =? 0) eqn:E0.
    { intros H. injection H as <- <-. split; [reflexivity|]. split; [reflexivity|]. split; [reflexivity|]. split; [lia|]. split; [lia|].
      split; [exists 0; rewrite Z.add_0_r; split; [lia|]; split; [reflexivity|]; split; [lia|]; intros; congruence|].
      assert (sw_pendingIDs sw = []) by (apply zlen_0_nil; lia). split; [contradiction|]. auto. }
    destruct (if force then true else _) eqn:Ew.
    2:{ intros H. injection H as <- <-. split; [reflexivity|]. split; [reflexivity|]. split; [reflexivity|]. split; [lia|]. split; [lia|].
      split; [exists 0; rewrite Z.add_0_r; split; [lia|]; split; [reflexivity|]; split; [lia|]; intros; congruence|].
      split; [auto|]. split; [intros ->; discriminate|]. auto. }
    destruct (WriteBlock (sw_pendingIDs sw) (sw_pendingValues sw) (sw_writer sw)) as [rb w'] eqn:Eb.
    pose proof (writeBlock_gap _ _ _ _ _ Eb) as (G1 & G2 & G3 & G4).
    destruct (steady_writeBlock (sw_pendingIDs sw) (sw_pendingValues sw) (sw_writer sw)) as [S1 S2]. rewrite Eb in S1, S2. cbn [snd] in S1, S2.
    assert (Stop : forall rx, (r, sw') = (rx, mkSW w' (sw_pendingIDs sw) (sw_pendingValues sw) (sw_targetBlockSize sw) (sw_closed sw) (sw_totalItems sw)) ->
        (forall u, rx <> Ok u) -> (bytes_of w' <> bytes_of (sw_writer sw) -> rx <> Err ErrSync -> rx <> Panic -> gap (sw_writer sw) + 1 <= gap w') ->
        is_open (sw_writer sw') = is_open (sw_writer sw) /\ w_enc (sw_writer sw') = w_enc (sw_writer sw) /\ sw_closed sw' = sw_closed sw
        /\ gap (sw_writer sw) <= gap (sw_writer sw') /\ w_blockCount (sw_writer sw) <= w_blockCount (sw_writer sw')
        /\ (exists k, 0 <= k <= zlen (sw_pendingIDs sw) /\ u64 (sw_totalItems sw') = u64 (sw_totalItems sw + k)
              /\ (1 <= k -> w_blockCount (sw_writer sw) + 1 <= w_blockCount (sw_writer sw'))
              /\ (k = 0 -> bytes_of (sw_writer sw') <> bytes_of (sw_writer sw) -> r <> Err ErrSync ->
                   (forall u, r <> Ok u) -> r <> Panic -> gap (sw_writer sw) + 1 <= gap (sw_writer sw')))
        /\ (sw_pendingIDs sw <> [] -> sw_pendingIDs sw' <> [] \/ w_blockCount (sw_writer sw) + 1 <= w_blockCount (sw_writer sw'))
        /\ (force = true -> r = Ok tt -> sw_pendingIDs sw' = [])
        /\ (sw_pendingIDs sw' = [] -> r = Ok tt \/ sw_pendingIDs sw = [])).
    { intros rx H Hu Hg. injection H as -> ->. cbn [sw_writer sw_pendingIDs sw_closed sw_totalItems].
      split; [exact S1|]. split; [exact S2|]. split; [reflexivity|]. split; [lia|]. split; [lia|].
      split; [exists 0; rewrite Z.add_0_r; split; [lia|]; split; [reflexivity|]; split; [lia|]; intros; auto|].
      split; [auto|]. split; [intros _ K; destruct (Hu tt K)|]. auto. }
    destruct rb as [[]|e|].
    + intros H. injection H as <- <-. cbn [sw_writer sw_pendingIDs sw_closed sw_totalItems].
      assert (w_blockCount (sw_writer sw) + 1 <= w_blockCount w') by (apply G3; auto).
      split; [exact S1|]. split; [exact S2|]. split; [reflexivity|]. split; [lia|]. split; [lia|].
      split; [exists (zlen (sw_pendingIDs sw)); split; [lia|]; split; [unfold u64; rewrite Z.mod_mod by (unfold two64; lia); reflexivity|]; split; [lia|intros; lia]|].
      split; [auto|]. auto.
    + assert (Other : (forall n, e <> ErrBlockFull n) -> (r, sw') = (Err e, mkSW w' (sw_pendingIDs sw) (sw_pendingValues sw) (sw_targetBlockSize sw) (sw_closed sw) (sw_totalItems sw)) -> _)
        by (intros Hn H; refine (Stop (Err e) H _ _); [discriminate|intros Hd Hs _; apply (G4 e); [reflexivity|congruence|exact Hn|exact Hd]]).
      destruct e; try (intros H; apply Other; [discriminate|congruence]). clear Other.
      pose proof (full_range _ _ _ _ _ Eb) as Hr. assert (Hc : w_blockCount (sw_writer sw) + 1 <= w_blockCount w') by (apply G3; eauto).
      intros H. destruct (IH _ _ _ _ H) as (I1 & I2 & I3 & I4 & I5 & (k & K1 & K2 & K3 & K4) & I6 & I7 & I8).
      cbn [sw_writer sw_pendingIDs sw_closed sw_totalItems] in *.
      split; [congruence|]. split; [congruence|]. split; [exact I3|]. split; [lia|]. split; [lia|].
      rewrite zlen_zdrop in K1.
      split; [exists (itemsWritten + k); split; [lia|]; split; [rewrite K2; unfold u64; rewrite Zplus_mod_idemp_l; f_equal; lia|]; split; [lia|intros; lia]|].
      split; [intros _; right; lia|]. split; [exact I7|]. intros K. destruct (I8 K) as [?|K']; [auto|].
      exfalso. apply (f_equal zlen) in K'. rewrite zlen_zdrop in K'. change (zlen []) with 0 in K'. lia.
    + intros H. apply (Stop Panic); [congruence|discriminate|congruence].
Qed.

(** ** A SimpleWriter that began a block it did not finish *)
Definition stuck (sw : swriter) : Prop :=
  sw_closed sw = false /\ is_open (sw_writer sw) = true /\ 0 <= w_blockCount (sw_writer sw) /\ 1 <= gap (sw_writer sw)
  /\ (sw_pendingIDs sw <> [] \/ 1 <= w_blockCount (sw_writer sw)).
Lemma stuck_flush fuel force sw r sw' : stuck sw -> flushIfNeeded fuel force sw = (r, sw') -> stuck sw'.
Proof.
  intros (H1 & H2 & H3 & H4 & H5) H. destruct (flush_facts _ _ _ _ _ H) as (I1 & I2 & I3 & I4 & I5 & _ & I6 & I7 & _).
  unfold stuck. split; [congruence|]. split; [congruence|]. split; [lia|]. split; [lia|].
  destruct H5 as [H5|H5]; [destruct (I6 H5)|]; auto; right; lia.
Qed.
Lemma stuck_call srt c sw r sw' : stuck sw -> run_scall srt c sw = (r, sw') -> stuck sw' /\ forall now, c = SCClose now -> r <> Ok tt.
Proof.
  intros St. pose proof St as (H1 & H2 & H3 & H4 & H5). destruct c as [ids vals|size|now]; cbn [run_scall].
  - unfold SWrite. rewrite H1. destruct (negb _); [intros E; injection E as <- <-; split; [exact St|discriminate]|].
    destruct (zlen ids =? 0); [intros E; injection E as <- <-; split; [exact St|discriminate]|].
    destruct (if negb (isSorted ids) then _ else _) as [ni nv]. unfold flush. intros E. split; [|discriminate].
    refine (stuck_flush _ _ _ _ _ _ E). unfold stuck. cbn [sw_closed sw_writer sw_pendingIDs].
    split; [reflexivity|]. split; [exact H2|]. split; [exact H3|]. split; [exact H4|]. destruct H5 as [H5|H5]; [left|auto].
    intros K. apply app_eq_nil in K. tauto.
  - unfold SetTargetBlockSize. rewrite H1. intros E. injection E as <- <-. split; [|discriminate].
    unfold stuck. cbn [sw_closed sw_writer sw_pendingIDs]. split; [reflexivity|]. split; [exact H2|]. split; [exact H3|]. split; [exact H4|]. exact H5.
  - unfold SClose. rewrite H1. destruct (flush true sw) as [rf sw1] eqn:Ef. pose proof (stuck_flush _ _ _ _ _ St Ef) as St1.
    unfold flush in Ef. destruct (flush_facts _ _ _ _ _ Ef) as (_ & _ & _ & _ & _ & _ & _ & I7 & _).
    destruct rf as [[]|e|].
    2:{ intros E. injection E as <- <-. split; [exact St1|discriminate]. }
    2:{ intros E. injection E as <- <-. split; [exact St1|discriminate]. }
    specialize (I7 eq_refl eq_refl). destruct St1 as (J1 & J2 & J3 & J4 & J5).
    assert (J6 : 1 <= w_blockCount (sw_writer sw1)) by (destruct J5; [contradiction|assumption]).
    unfold FinalizeAndClose, mbind. destruct (steady_finalize now (sw_writer sw1)) as [S1 _]. pose proof (quiet_finalize now (sw_writer sw1)) as Q.
    pose proof (finalize_gap now (sw_writer sw1)) as F. destruct (Finalize now (sw_writer sw1)) as [[u|e|] w2]; cbn [snd] in S1, Q.
    + destruct (F u w2 eq_refl); lia.
    + intros E. injection E as <- <-. split; [|discriminate]. unfold stuck. cbn [sw_closed sw_writer sw_pendingIDs].
      rewrite (book_gap _ _ Q), (book_count _ _ Q). split; [exact J1|]. split; [congruence|]. split; [lia|]. split; [lia|]. right. exact J6.
    + intros E. injection E as <- <-. split; [|discriminate]. unfold stuck. cbn [sw_closed sw_writer sw_pendingIDs].
      rewrite (book_gap _ _ Q), (book_count _ _ Q). split; [exact J1|]. split; [congruence|]. split; [lia|]. split; [lia|]. right. exact J6.
Qed.
(** The shape shared by the invariants below. *)
Lemma never_closes srt (I : swriter -> Prop) (T : scall -> Prop) :
  (forall c sw r sw', T c -> I sw -> run_scall srt c sw = (r, sw') -> I sw' /\ forall now, c = SCClose now -> r <> Ok tt) ->
  forall cs sw outs sw', Forall T cs -> I sw -> run_scalls srt cs sw = (outs, sw') ->
  I sw' /\ forall now, ~ In (SCClose now, Ok tt) (combine cs outs).
Proof.
  intros Step. induction cs as [|c cs IH]; intros sw outs sw' Ht Hi; cbn [run_scalls].
  - intros H. injection H as <- <-. split; [exact Hi|]. intros now [].
  - inversion Ht as [|? ? Hc Hcs]; subst. destruct (run_scall srt c sw) as [r sw1] eqn:E1. destruct (run_scalls srt cs sw1) as [rs sw2] eqn:E2.
    intros H. injection H as <- <-. destruct (Step _ _ _ _ Hc Hi E1) as [Hi1 Hr]. destruct (IH _ _ _ Hcs Hi1 E2) as [Hi2 Hrs].
    split; [exact Hi2|]. intros now. cbn [combine]. intros [K|K]; [|exact (Hrs now K)]. injection K as -> ->. exact (Hr now eq_refl eq_refl).
Qed.

Lemma flush_torn fuel force sw e sw' : flushIfNeeded fuel force sw = (Err e, sw') ->
  sw_closed sw = false -> 0 <= gap (sw_writer sw) -> 0 <= w_blockCount (sw_writer sw) -> zlen (sw_pendingIDs sw) < two64 ->
  e <> ErrSync -> TotalItems sw' = TotalItems sw -> file_of sw' <> file_of sw -> is_open (sw_writer sw) = true -> stuck sw'.
Proof.
  intros H H1 H2 H3 H4 H5 H6 H7 H8. unfold TotalItems, file_of in *.
  destruct (flush_facts _ _ _ _ _ H) as (I1 & I2 & I3 & I4 & I5 & (k & K1 & K2 & K3 & K4) & I6 & I7 & I8).
  assert (k = 0) as ->.
  { rewrite H6 in K2. unfold u64, two64 in *. clear - K1 K2 H4. Ltac Zify.zify_post_hook ::= Z.div_mod_to_equations. lia. }
  unfold stuck. split; [congruence|]. split; [congruence|]. split; [lia|].
  assert (gap (sw_writer sw) + 1 <= gap (sw_writer sw')) by (apply K4; congruence).
  split; [lia|]. left. intros K. destruct (I8 K) as [?|K']; [congruence|].
  (* nothing was pending: nothing happened *)
  destruct fuel; cbn [flushIfNeeded] in H; [|rewrite K' in H; cbn in H; discriminate]. injection H as _ <-. congruence.
Qed.

(** Sensible writers. *)
Definition sensible (sw : swriter) : Prop := 0 <= gap (sw_writer sw) /\ 0 <= w_blockCount (sw_writer sw).
Lemma sensible_flush fuel force sw r sw' : sensible sw -> flushIfNeeded fuel force sw = (r, sw') -> sensible sw'.
Proof. intros [H1 H2] H. destruct (flush_facts _ _ _ _ _ H) as (_ & _ & _ & I4 & I5 & _). split; lia. Qed.
Lemma sensible_call srt c sw r sw' : sensible sw -> run_scall srt c sw = (r, sw') -> sensible sw'.
Proof.
  intros S. destruct c as [ids vals|size|now]; cbn [run_scall].
  - unfold SWrite. destruct (sw_closed sw); [intros E; injection E as <- <-; exact S|]. destruct (negb _); [intros E; injection E as <- <-; exact S|].
    destruct (zlen ids =? 0); [intros E; injection E as <- <-; exact S|]. destruct (if negb (isSorted ids) then _ else _) as [ni nv].
    unfold flush. intros E. refine (sensible_flush _ _ _ _ _ _ E). exact S.
  - unfold SetTargetBlockSize. destruct (sw_closed sw); intros E; injection E as <- <-; exact S.
  - unfold SClose. destruct (sw_closed sw); [intros E; injection E as <- <-; exact S|]. destruct (flush true sw) as [rf sw1] eqn:Ef.
    pose proof (sensible_flush _ _ _ _ _ S Ef) as S1.
    destruct rf as [[]|e|]; [|intros E; injection E as <- <-; exact S1|intros E; injection E as <- <-; exact S1].
    assert (Q : quiet (FinalizeAndClose now)) by (unfold FinalizeAndClose, closeFile; apply quiet_bind; [apply quiet_finalize|intros _; apply quiet_file]).
    specialize (Q (sw_writer sw1)). destruct (FinalizeAndClose now (sw_writer sw1)) as [[u|e|] w2]; cbn [snd] in Q; intros E; injection E as <- <-;
      unfold sensible in *; cbn [sw_writer]; rewrite (book_gap _ _ Q), (book_count _ _ Q); exact S1.
Qed.
Lemma sensible_calls srt cs : forall sw outs sw', sensible sw -> run_scalls srt cs sw = (outs, sw') -> sensible sw'.
Proof.
  induction cs as [|c cs IH]; intros sw outs sw' S; cbn [run_scalls]; [intros E; injection E as <- <-; exact S|].
  destruct (run_scall srt c sw) as [r sw1] eqn:E1. destruct (run_scalls srt cs sw1) as [rs sw2] eqn:E2.
  intros E; injection E as <- <-. exact (IH _ _ _ (sensible_call _ _ _ _ _ S E1) E2).
Qed.

(** ** A new writer *)
Ltac quiet := repeat first
  [ apply quiet_ret | apply quiet_fail | apply quiet_panic | apply quiet_get | apply quiet_file | apply quiet_writeAll | apply quiet_if | (apply quiet_bind; [|intros ?]) ].
Lemma new_facts now options faults w f : NewWriter now options faults = (Ok w, f) ->
  gap w = 0 /\ w_blockCount w = 0 /\ w_enc w = encoding_of options /\ is_open w = true.
Proof.
  intros H. split; [eapply NewWriter_gap; exact H|]. revert H. unfold NewWriter. rewrite applyOptions.
  assert (Q : quiet (writeHeader now)) by (unfold writeHeader, seek, write; quiet).
  assert (S : steady (writeHeader now)) by (unfold writeHeader; steady).
  remember (new_writer options (mkFile [] 0 true faults)) as v eqn:Ev.
  specialize (Q v). specialize (S v). destruct (writeHeader now v) as [[u|e|] w']; try discriminate. cbn [snd] in Q, S.
  intros H. injection H as <- _. destruct S as [S1 S2]. rewrite (book_count _ _ Q), S1, S2. subst v. auto.
Qed.
Lemma new_file now options faults w f : NewWriter now options faults = (Ok w, f) -> f = w_file w.
Proof.
  unfold NewWriter. set (w0 := mkWriter _ _ _ _ _ _ _ _). generalize (fold_left applyOption options w0). intros w1.
  destruct (writeHeader now w1) as [[u|x|] w']; try discriminate. congruence.
Qed.
Lemma flush_closed_bytes fuel : forall force sw, is_open (sw_writer sw) = false -> file_of (snd (flushIfNeeded fuel force sw)) = file_of sw.
Proof.
  unfold file_of. induction fuel as [|fuel IH]; intros force sw Ho; cbn [flushIfNeeded]; [reflexivity|].
  destruct (zlen (sw_pendingIDs sw) =? 0); [reflexivity|]. destruct (if force then true else _); [|reflexivity].
  pose proof (closed_one (sw_pendingIDs sw) (sw_pendingValues sw) (sw_writer sw) Ho) as C.
  destruct (steady_writeBlock (sw_pendingIDs sw) (sw_pendingValues sw) (sw_writer sw)) as [S1 _].
  destruct (WriteBlock (sw_pendingIDs sw) (sw_pendingValues sw) (sw_writer sw)) as [[u|e|] w']; cbn [snd] in C, S1; [exact C| |exact C].
  destruct e; try exact C. rewrite IH by (cbn [sw_writer]; congruence). exact C.
Qed.
Lemma flush_torn' fuel force sw e sw' : flushIfNeeded fuel force sw = (Err e, sw') ->
  sw_closed sw = false -> 0 <= gap (sw_writer sw) -> 0 <= w_blockCount (sw_writer sw) -> zlen (sw_pendingIDs sw) < two64 ->
  e <> ErrSync -> TotalItems sw' = TotalItems sw -> file_of sw' <> file_of sw -> stuck sw'.
Proof.
  intros H H1 H2 H3 H4 H5 H6 H7. eapply flush_torn; try eassumption.
  destruct (is_open (sw_writer sw)) eqn:E; [reflexivity|]. destruct H7. pose proof (flush_closed_bytes fuel force sw E) as F.
  rewrite H in F. exact F.
Qed.

Theorem torn_never_closes srt options faults h sw1 c e sw2 later outs sw3 :
  sorts srt -> simple_run srt options faults h sw1 -> submitted h < two63 -> typed_scall c ->
  run_scall srt c sw1 = (Err e, sw2) -> e <> ErrSync -> TotalItems sw2 = TotalItems sw1 -> file_of sw2 <> file_of sw1 -> 0 < buffered sw2 ->
  run_scalls srt later sw2 = (outs, sw3) ->
  IsClosed sw3 = false /\ is_open (sw_writer sw3) = true /\ (forall t, ~ In (SCClose t, Ok tt) (combine later outs)).
Proof.
  intros Hs Hr Hsub Hty Hc He Ht Hf Hb H3. pose proof (accounting _ _ _ _ _ Hr Hs) as (A1 & _).
  destruct Hr as [now0 sw0 cs outs0 Hn Hopt Htys Hrun ->].
  assert (S0 : sensible sw0).
  { destruct (NewSimple_fresh _ _ _ _ Hn) as (w & f & Hw & ->). destruct (new_facts _ _ _ _ _ Hw) as (G & C & _ & _). split; cbn [sw_writer]; lia. }
  pose proof (sensible_calls _ _ _ _ _ S0 Hrun) as [S1 S2]. unfold buffered in *.
  assert (St : stuck sw2).
  { clear H3 Hrun. destruct c as [ids vals|size|t]; cbn [run_scall] in Hc.
    - destruct (sw_closed sw1) eqn:Ec; [unfold SWrite in Hc; rewrite Ec in Hc; congruence|].
      destruct (Z.eq_dec (zlen ids) (zlen vals)) as [El|El].
      2:{ unfold SWrite in Hc. rewrite Ec in Hc. replace (zlen ids =? zlen vals) with false in Hc by lia. cbn [negb] in Hc. congruence. }
      destruct (list_eq_dec Z.eq_dec ids []) as [->|En].
      { unfold SWrite in Hc. rewrite Ec in Hc. replace (zlen [] =? zlen vals) with true in Hc by lia. cbn [negb] in Hc. discriminate. }
      rewrite SWrite_eq in Hc by assumption. unfold flush in Hc. refine (flush_torn' _ _ _ _ _ Hc _ _ _ _ _ _ _); cbn [sw_closed sw_writer sw_pendingIDs];
        [exact Ec|exact S1|exact S2| |exact He|exact Ht|exact Hf].
      rewrite zlen_app, zlen_map, zlen_arrange by assumption. destruct Hty as (_ & _ & Hl). unfold two63, two64 in *. lia.
    - unfold SetTargetBlockSize in Hc. destruct (sw_closed sw1); congruence.
    - unfold SClose in Hc. destruct (sw_closed sw1) eqn:Ec; [congruence|]. unfold flush in Hc. destruct (flushIfNeeded _ true sw1) as [[[]|e1|] sx] eqn:Ef.
      + destruct (flush_facts _ _ _ _ _ Ef) as (_ & _ & _ & _ & _ & _ & _ & I7 & _). specialize (I7 eq_refl eq_refl).
        exfalso. destruct (FinalizeAndClose t (sw_writer sx)) as [[u|e'|] w']; try discriminate. injection Hc as _ <-. cbn [sw_pendingIDs] in Hb. rewrite I7 in Hb. cbn in Hb. lia.
      + injection Hc as -> ->. refine (flush_torn' _ _ _ _ _ Ef Ec S1 S2 _ He Ht Hf). unfold two63, two64 in *. lia.
      + discriminate. }
  destruct (never_closes srt stuck (fun _ => True) (fun c sw r sw' _ S E => stuck_call srt c sw r sw' S E) later sw2 outs sw3) as [(K1 & K2 & _) K3];
    [apply Forall_forall; auto|exact St|exact H3|]. auto.
Qed.

(** ** Writers that can store nothing *)
Lemma bind_ok {A B} (m : M A) (k : A -> M B) w b w' : mbind m k w = (Ok b, w') -> exists a w1, m w = (Ok a, w1) /\ k a w1 = (Ok b, w').
Proof. unfold mbind. destruct (m w) as [[a|e|] w1]; try discriminate. eauto. Qed.
Lemma writeAll_ok l : forall acc w n w', writeAll l acc w = (Ok n, w') -> n = acc + zlen (concat l).
Proof.
  induction l as [|bs l IH]; intros acc w n w'; cbn [writeAll].
  - unfold mret. intros H. apply (f_equal fst) in H. cbn [fst concat] in *. change (zlen []) with 0. assert (acc = n) by congruence. lia.
  - intros H. apply bind_ok in H. destruct H as (k & w1 & H1 & H2). apply IH in H2. cbn [concat]. rewrite zlen_app.
    assert (k = zlen bs); [|lia]. revert H1. unfold write, mfile, file_write. destruct (f_open _); [|discriminate].
    destruct (f_faults _) as [|[|j] fs]; intros H1; apply (f_equal fst) in H1; cbn [fst] in H1; congruence.
Qed.
(** Nothing is stored with encoding 5 when no value needs eight varint bytes. *)
Lemma dead_internal ids vals w u w' : w_enc w = 5 -> Forall is_u64 ids -> Forall is_i64 vals -> Forall (fun v => - 2 ^ 48 <= v < 2 ^ 48) vals ->
  1 <= zlen ids <= max_items -> zlen ids = zlen vals -> writeBlockInternal ids vals w <> (Ok u, w').
Proof.
  intros He Hi Hv Hs Hn Hl H. unfold writeBlockInternal in H.
  apply bind_ok in H. destruct H as (x1 & w1 & E1 & H). unfold mmodify in E1. apply (f_equal snd) in E1. cbn [snd] in E1.
  apply bind_ok in H. destruct H as (x2 & w2 & E2 & H). unfold mget in E2. assert (x2 = w1) by congruence. subst x2. clear E2.
  assert (He1 : w_enc w1 = 5) by (rewrite <- E1; exact He). rewrite He1 in H.
  rewrite encodeIDs_ok, encodeValues_ok in H by (try assumption; try (unfold declared; lia); lia). cbv zeta in H.
  apply bind_ok in H. destruct H as ([[a1 a2] a3] & w3 & E3 & H). unfold mlift in E3. apply (f_equal fst) in E3. cbn [fst] in E3.
  apply bind_ok in H. destruct H as ([[b1 b2] b3] & w4 & E4 & H). unfold mlift in E4. apply (f_equal fst) in E4. cbn [fst] in E4.
  assert (b1 = vals /\ b3 = zlen (concat (map encodeSignedVarInt vals))) as [-> ->].
  { apply (f_equal (fun z => match z with Ok (x, _, y) => (x, y) | _ => ([], 0) end)) in E4.
    change (val_items 5 vals) with vals in E4. change (val_claim 5 vals) with (zlen (concat (map encodeSignedVarInt vals))) in E4.
    split; congruence. }
  destruct (calculateMinMax ids) as [m1 m2]. destruct (calculateMinMax vals) as [m3 m4].
  do 8 (apply bind_ok in H; destruct H as (? & ? & _ & H)). cbv zeta in H.
  destruct (negb _); [discriminate|]. destruct (a3 =? 0); [discriminate|]. destruct (_ =? 0); [discriminate|].
  apply bind_ok in H; destruct H as (? & ? & _ & H). destruct (negb _); [discriminate|].
  do 2 (apply bind_ok in H; destruct H as (? & ? & _ & H)). destruct (negb _); [discriminate|].
  apply bind_ok in H; destruct H as (n & ? & En & H).
  change (useVarIntForValues 5) with false in En. unfold writeSection in En. apply writeAll_ok in En. rewrite zlen_concat_fixed in En.
  destruct (negb (_ =? _)) eqn:Eq; [discriminate|]. clear H.
  pose proof (svarints_small vals Hv Hs) as S. pose proof (zlen_nonneg (concat (map encodeSignedVarInt vals))).
  unfold u32, two32, max_items in *. lia.
Qed.

Definition hopeless (e : Z) (ids vals : list Z) : Prop :=
  ~ declared e
  \/ (e = 5 /\ Forall is_u64 ids /\ Forall is_i64 vals /\ Forall (fun v => - 2 ^ 48 <= v < 2 ^ 48) vals /\ zlen ids <= max_items).
Lemma hopeless_prefix e n ids vals : hopeless e ids vals -> hopeless e (ztake n ids) (ztake n vals).
Proof.
  intros [H|(H & A & B & C & D)]; [left; exact H|right]. split; [exact H|]. split; [apply Forall_ztake; exact A|]. split; [apply Forall_ztake; exact B|].
  split; [apply Forall_ztake; exact C|]. rewrite zlen_ztake. unfold max_items in *. lia.
Qed.
Definition failing (r : res unit) : Prop := (forall u, r <> Ok u) /\ (forall n, r <> Err (ErrBlockFull n)).
Lemma dead_write ids vals w : hopeless (w_enc w) ids vals ->
  (forall u, fst (WriteBlock ids vals w) <> Ok u) /\ (forall n, fst (WriteBlock ids vals w) <> Err (ErrBlockFull n)).
Proof.
  intros H. change (failing (fst (WriteBlock ids vals w))). destruct (Z.eq_dec (zlen ids) (zlen vals)) as [El|El].
  2:{ rewrite WriteBlock_length by exact El. split; discriminate. }
  destruct (Z.eq_dec (zlen ids) 0) as [E0|E0].
  { unfold WriteBlock. replace (zlen ids =? zlen vals) with true by lia. replace (zlen ids =? 0) with true by lia. split; discriminate. }
  pose proof (zlen_nonneg ids) as Hz. pose proof H as [H1|(H1 & A & B & C & D)]; [rewrite WriteBlock_undeclared by assumption; split; discriminate|].
  unfold WriteBlock. replace (zlen ids =? zlen vals) with true by lia. replace (zlen ids =? 0) with false by lia. cbn [negb].
  unfold mbind at 1. pose proof (nofull_estimate ids vals w) as F. destruct (steady_estimate ids vals w) as [_ Se].
  destruct (EstimateBlockSize ids vals w) as [[s|e|] w1]; cbn [fst snd] in *; [|split; [discriminate|intros n K; apply (F n); congruence]|split; discriminate].
  unfold mbind at 1. cbn [mget]. destruct ((s >? w_target w1) && (zlen ids >? 1)) eqn:E.
  - unfold mbind at 1. pose proof (nofull_optimal ids vals (tl (zseq (zlen ids))) 1 w1) as F'. destruct (steady_optimal ids vals (tl (zseq (zlen ids))) 1 w1) as [_ So].
    destruct (findOptimal ids vals (tl (zseq (zlen ids))) 1 w1) as [[o|e|] w2] eqn:Eo; cbn [fst snd] in *; [|split; [discriminate|intros n K; apply (F' n); congruence]|split; discriminate].
    assert (Ho : 1 <= o <= zlen ids) by (destruct (findOptimal_in _ _ _ _ _ _ _ Eo) as [->|Hin]; [lia|apply tl_zseq_range in Hin; lia]).
    unfold mbind. pose proof (nofull_internal (ztake o ids) (ztake o vals) w2) as F2.
    pose proof (dead_internal (ztake o ids) (ztake o vals) w2) as Di. destruct (writeBlockInternal _ _ w2) as [[u|e|] w3]; cbn [fst] in *; [|split; [discriminate|intros n K; apply (F2 n); congruence]|split; discriminate].
    exfalso. refine (Di u w3 _ _ _ _ _ _ eq_refl); [congruence| | | | |]; try (apply Forall_ztake; assumption); rewrite !zlen_ztake; lia.
  - pose proof (nofull_internal ids vals w1) as F2. pose proof (dead_internal ids vals w1) as Di.
    destruct (writeBlockInternal ids vals w1) as [[u|e|] w3]; cbn [fst] in *; [|split; [discriminate|intros n K; apply (F2 n); congruence]|split; discriminate].
    exfalso. refine (Di u w3 _ _ _ _ _ _ eq_refl); try assumption; [congruence|lia].
Qed.
Lemma dead_flush fuel force sw r sw' : hopeless (w_enc (sw_writer sw)) (sw_pendingIDs sw) (sw_pendingValues sw) -> flushIfNeeded fuel force sw = (r, sw') ->
  sw_pendingIDs sw' = sw_pendingIDs sw /\ sw_pendingValues sw' = sw_pendingValues sw /\ sw_totalItems sw' = sw_totalItems sw
  /\ w_enc (sw_writer sw') = w_enc (sw_writer sw) /\ is_open (sw_writer sw') = is_open (sw_writer sw) /\ sw_closed sw' = sw_closed sw
  /\ (force = true -> r = Ok tt -> sw_pendingIDs sw = []).
Proof.
  intros Hd H. destruct (flush_facts _ _ _ _ _ H) as (I1 & I2 & I3 & _ & _ & _ & _ & I7 & _).
  assert (K : sw_pendingIDs sw' = sw_pendingIDs sw /\ sw_pendingValues sw' = sw_pendingValues sw /\ sw_totalItems sw' = sw_totalItems sw).
  { destruct fuel as [|fuel]; cbn [flushIfNeeded] in H; [injection H as _ <-; auto|].
    destruct (zlen (sw_pendingIDs sw) =? 0); [injection H as _ <-; auto|]. destruct (if force then true else _); [|injection H as _ <-; auto].
    destruct (dead_write _ _ (sw_writer sw) Hd) as [D1 D2]. destruct (WriteBlock _ _ (sw_writer sw)) as [[u|e|] w']; cbn [fst] in *.
    - destruct (D1 u eq_refl).
    - destruct e; try (injection H as _ <-; cbn; auto). destruct (D2 itemsWritten eq_refl).
    - injection H as _ <-. cbn. auto. }
  destruct K as (K1 & K2 & K3). split; [exact K1|]. split; [exact K2|]. split; [exact K3|]. split; [exact I2|]. split; [exact I1|]. split; [exact I3|].
  intros F R. rewrite <- K1. auto.
Qed.

(** What such a SimpleWriter keeps. *)
Definition small_call (e : Z) (c : scall) : Prop :=
  match c with SCWrite _ vals => e = 5 -> Forall (fun v => - 2 ^ 48 <= v < 2 ^ 48) vals | _ => True end.
Definition dead (e : Z) (sw : swriter) : Prop :=
  w_enc (sw_writer sw) = e /\ sw_totalItems sw = 0 /\ Forall is_u64 (sw_pendingIDs sw) /\ Forall is_i64 (sw_pendingValues sw)
  /\ (e = 5 -> Forall (fun v => - 2 ^ 48 <= v < 2 ^ 48) (sw_pendingValues sw)).
Lemma dead_hopeless e sw : (~ declared e \/ e = 5) -> dead e sw -> (e = 5 -> zlen (sw_pendingIDs sw) <= max_items) ->
  hopeless (w_enc (sw_writer sw)) (sw_pendingIDs sw) (sw_pendingValues sw).
Proof. intros He (D1 & _ & D3 & D4 & D5) Hm. rewrite D1. destruct He as [He|He]; [left; exact He|right]. auto 10. Qed.
Lemma arrange_pairs srt ids vals (P : Z -> Prop) (Q : Z -> Prop) : sorts srt -> zlen ids = zlen vals -> Forall P ids -> Forall Q vals ->
  Forall P (map fst (arrange srt (combine ids vals))) /\ Forall Q (map snd (arrange srt (combine ids vals))).
Proof.
  intros Hs El HP HQ. pose proof (arrange_perm srt (combine ids vals) Hs) as Hp. split.
  - apply (Permutation_Forall P (map fst (combine ids vals))); [apply Permutation.Permutation_map; exact Hp|]. rewrite combine_fst' by exact El. exact HP.
  - apply (Permutation_Forall Q (map snd (combine ids vals))); [apply Permutation.Permutation_map; exact Hp|]. rewrite combine_snd' by exact El. exact HQ.
Qed.
Lemma dead_call srt e c sw total r sw' : sorts srt -> (~ declared e \/ e = 5) -> typed_scall c -> small_call e c -> dead e sw -> balanced total sw ->
  (e = 5 -> total + taken (c, r) <= max_items) -> run_scall srt c sw = (r, sw') ->
  dead e sw' /\ (sw_pendingIDs sw <> [] -> sw_closed sw = false -> sw_closed sw' = false /\ is_open (sw_writer sw') = is_open (sw_writer sw)).
Proof.
  intros Hs He Hty Hsm Hd Hb Hm H. pose proof Hd as (D1 & D2 & D3 & D4 & D5). pose proof Hb as (B1 & B2 & B3).
  destruct c as [ids vals|size|now]; cbn [run_scall] in H.
  - destruct (sw_closed sw) eqn:Ec; [unfold SWrite in H; rewrite Ec in H; injection H as _ <-; split; [exact Hd|discriminate]|].
    destruct (Z.eq_dec (zlen ids) (zlen vals)) as [El|El].
    2:{ unfold SWrite in H. rewrite Ec in H. replace (zlen ids =? zlen vals) with false in H by lia. cbn [negb] in H. injection H as _ <-. auto. }
    destruct (list_eq_dec Z.eq_dec ids []) as [->|En].
    { unfold SWrite in H. rewrite Ec in H. replace (zlen [] =? zlen vals) with true in H by lia. cbn [negb] in H. injection H as _ <-. auto. }
    rewrite SWrite_eq in H by assumption. unfold flush in H.
    match type of H with flushIfNeeded _ _ ?x = _ => remember x as v eqn:Ev end.
    pose proof (zlen_arrange srt ids vals Hs El) as La.
    assert (Hb1 : balanced (total + zlen ids) v).
    { unfold balanced. rewrite Ev. cbn [sw_pendingIDs sw_pendingValues sw_totalItems]. rewrite !zlen_app, !zlen_map, La. split; [lia|]. split; [rewrite B2; f_equal; lia|lia]. }
    assert (Ht : taken (SCWrite ids vals, r) = zlen ids).
    { pose proof (flush_balanced (S (length (sw_pendingIDs v))) false v (total + zlen ids) Hb1 ltac:(lia)) as T. rewrite H in T. destruct T as (_ & _ & _ & T4).
      destruct r as [u|er|]; try reflexivity. destruct (T4 er eq_refl) as (_ & _ & N). unfold taken. cbn [fst snd]. destruct N. destruct er; try reflexivity; congruence. }
    destruct Hty as (Y1 & Y2 & _). destruct (arrange_pairs srt ids vals is_u64 is_i64 Hs El Y1 Y2) as [P1 P2].
    assert (Hdv : dead e v).
    { unfold dead. rewrite Ev. cbn [sw_writer sw_totalItems sw_pendingIDs sw_pendingValues]. split; [exact D1|]. split; [exact D2|].
      split; [apply Forall_app; auto|]. split; [apply Forall_app; auto|]. intros E5. apply Forall_app. split; [auto|].
      exact (proj2 (arrange_pairs srt ids vals is_u64 _ Hs El Y1 (Hsm E5))). }
    assert (Hh : hopeless (w_enc (sw_writer v)) (sw_pendingIDs v) (sw_pendingValues v)).
    { apply (dead_hopeless e); [exact He|exact Hdv|]. intros E5. specialize (Hm E5). destruct Hb1 as (_ & _ & Hb1). lia. }
    destruct (dead_flush _ _ _ _ _ Hh H) as (F1 & F2 & F3 & F4 & F5 & F6 & _). destruct Hdv as (V1 & V2 & V3 & V4 & V5). split.
    + unfold dead. rewrite F1, F2, F3, F4. auto.
    + intros _ _. rewrite F5, F6, Ev. cbn [sw_closed sw_writer]. auto.
  - unfold SetTargetBlockSize in H. destruct (sw_closed sw); injection H as _ <-; [split; [exact Hd|discriminate]|].
    split; [exact Hd|]. cbn [sw_closed sw_writer]. auto.
  - unfold SClose in H. destruct (sw_closed sw) eqn:Ec; [injection H as _ <-; split; [exact Hd|discriminate]|].
    unfold flush in H. destruct (flushIfNeeded _ true sw) as [rf sw1] eqn:Ef.
    assert (Hh : hopeless (w_enc (sw_writer sw)) (sw_pendingIDs sw) (sw_pendingValues sw)).
    { apply (dead_hopeless e); [exact He|exact Hd|]. intros E5. specialize (Hm E5). unfold taken in Hm. cbn [fst snd] in Hm. lia. }
    destruct (dead_flush _ _ _ _ _ Hh Ef) as (F1 & F2 & F3 & F4 & F5 & F6 & F7).
    assert (Hd1 : dead e sw1) by (unfold dead; rewrite F1, F2, F3, F4; auto).
    destruct rf as [[]|er|]; [|injection H as _ <-; split; [exact Hd1|]; intros _ _; split; congruence|injection H as _ <-; split; [exact Hd1|]; intros _ _; split; congruence].
    specialize (F7 eq_refl eq_refl). assert (Sf : w_enc (snd (FinalizeAndClose now (sw_writer sw1))) = w_enc (sw_writer sw1)).
    { unfold FinalizeAndClose, mbind. destruct (steady_finalize now (sw_writer sw1)) as [_ S1]. destruct (Finalize now (sw_writer sw1)) as [[u|er|] w2]; cbn [snd] in *; try exact S1.
      unfold closeFile, mfile. destruct (file_close (w_file w2)) as [rc f]. cbn [snd]. exact S1. }
    destruct Hd1 as (G1 & G2 & G3 & G4 & G5).
    destruct (FinalizeAndClose now (sw_writer sw1)) as [[u|er|] w2]; cbn [snd] in Sf; injection H as _ <-; (split; [|contradiction]);
      unfold dead; cbn [sw_writer sw_totalItems sw_pendingIDs sw_pendingValues]; rewrite Sf; auto.
Qed.
Lemma dead_calls srt e cs : sorts srt -> (~ declared e \/ e = 5) -> Forall typed_scall cs -> Forall (small_call e) cs ->
  forall sw total outs sw', dead e sw -> balanced total sw -> (sw_closed sw = true -> sw_pendingIDs sw = []) ->
  run_scalls srt cs sw = (outs, sw') -> (e = 5 -> total + submitted (combine cs outs) <= max_items) -> dead e sw'.
Proof.
  intros Hs He Hty Hsm. induction cs as [|c cs IH]; intros sw total outs sw' Hd Hb Hc H Hm; cbn [run_scalls] in H.
  - injection H as _ <-. exact Hd.
  - inversion Hty; subst. inversion Hsm; subst. pose proof (call_balanced srt c sw total Hs Hb Hc) as T.
    destruct (run_scall srt c sw) as [r sw1] eqn:E1. destruct (run_scalls srt cs sw1) as [rs sw2] eqn:E2. injection H as <- <-. destruct T as (T1 & T2 & _).
    cbn [combine] in Hm. rewrite submitted_sum in Hm. cbn [map] in Hm. unfold zsum in Hm. cbn [fold_right] in Hm. fold (zsum (map taken (combine cs rs))) in Hm. rewrite <- submitted_sum in Hm.
    pose proof (submitted_nonneg (combine cs rs)) as Hn.
    destruct (dead_call srt e c sw total r sw1) as [Hd1 _]; try assumption; [intros E5; specialize (Hm E5); lia|].
    refine (IH _ _ sw1 (total + taken (c, r)) rs sw2 Hd1 T1 T2 E2 _); try assumption. intros E5. specialize (Hm E5). lia.
Qed.

Lemma new_dead srt now options faults sw cs outs sw' : sorts srt -> NewSimpleWriter now options faults = Ok sw -> Forall typed_scall cs ->
  Forall (small_call (encoding_of options)) cs -> run_scalls srt cs sw = (outs, sw') -> (~ declared (encoding_of options) \/ encoding_of options = 5) ->
  (encoding_of options = 5 -> submitted (combine cs outs) <= max_items) -> dead (encoding_of options) sw'.
Proof.
  intros Hs Hn Hty Hsm Hrun He Hm. destruct (NewSimple_fresh _ _ _ _ Hn) as (w & f & Hw & ->). destruct (new_facts _ _ _ _ _ Hw) as (_ & _ & En & _).
  refine (dead_calls srt _ cs Hs He Hty Hsm _ 0 outs sw' _ _ _ Hrun Hm).
  - unfold dead. cbn [sw_writer sw_totalItems sw_pendingIDs sw_pendingValues]. auto.
  - split; [reflexivity|]. split; reflexivity || (cbn; lia).
  - discriminate.
Qed.
Definition nothing_storable (options : list writerOption) (h : list (scall * res unit)) : Prop :=
  ~ (0 <= encoding_of options <= 7)
  \/ (encoding_of options = EncodingVarIntID /\ submitted h <= 200000000
      /\ forall ids vals r, In (SCWrite ids vals, r) h -> Forall (fun v => - 2 ^ 48 <= v < 2 ^ 48) vals).
Lemma storable_parts options cs outs : length outs = length cs -> nothing_storable options (combine cs outs) ->
  (~ declared (encoding_of options) \/ encoding_of options = 5) /\ Forall (small_call (encoding_of options)) cs
  /\ (encoding_of options = 5 -> submitted (combine cs outs) <= max_items).
Proof.
  intros L [H|(H1 & H2 & H3)].
  - assert (N : encoding_of options <> 5) by lia. split; [left; exact H|]. split; [|congruence].
    apply Forall_forall. intros [i v|z|t] _; cbn [small_call]; auto. congruence.
  - split; [right; exact H1|]. split; [|intros _; exact H2]. apply Forall_forall. intros c Hc. destruct c as [i v|z|t]; cbn [small_call]; auto. intros _.
    apply In_nth_error in Hc. destruct Hc as [n Hn]. assert (exists r, nth_error outs n = Some r) as [r Hr].
    { destruct (nth_error outs n) eqn:E; [eauto|]. apply nth_error_None in E. assert (n < length cs)%nat by (apply nth_error_Some; congruence). lia. }
    apply (H3 i v r). clear - Hn Hr. revert outs n Hn Hr. induction cs as [|c cs IH]; intros outs n Hn Hr; [destruct n; discriminate|].
    destruct outs as [|o outs]; [destruct n; discriminate|]. destruct n as [|n]; cbn in *; [left; congruence|right; eauto].
Qed.
Theorem hopeless_never_closes srt options faults h sw : sorts srt -> simple_run srt options faults h sw -> nothing_storable options h ->
  TotalItems sw = 0 /\ (submitted h < two64 -> buffered sw = submitted h /\ (0 < submitted h -> IsClosed sw = false)).
Proof.
  intros Hs Hr Hn. pose proof (accounting _ _ _ _ _ Hr Hs) as (_ & _ & A3 & A4 & _). destruct Hr as [now0 sw0 cs outs Hnew Hopt Hty Hrun ->].
  destruct (storable_parts options cs outs (run_scalls_length _ _ _ _ _ Hrun) Hn) as (P1 & P2 & P3).
  destruct (new_dead srt now0 options faults sw0 cs outs sw Hs Hnew Hty P2 Hrun P1 P3) as (_ & D2 & _). unfold TotalItems in *.
  split; [exact D2|]. intros Hlt. specialize (A3 Hlt). split; [lia|]. intros Hp. destruct (IsClosed sw) eqn:E; [|reflexivity]. specialize (A4 eq_refl). lia.
Qed.
Theorem hopeless_keeps_descriptor srt options faults h sw c r sw' : sorts srt -> simple_run srt options faults h sw ->
  typed_scall c -> run_scall srt c sw = (r, sw') -> nothing_storable options (h ++ [(c, r)]) -> 0 < submitted h < two64 ->
  is_open (sw_writer sw') = is_open (sw_writer sw).
Proof.
  intros Hs Hr Hc Hrun Hn Hsub. pose proof (accounting _ _ _ _ _ Hr Hs) as (_ & _ & A3 & A4 & _). destruct Hr as [now0 sw0 cs outs Hnew Hopt Hty Hruns ->].
  pose proof (run_scalls_length _ _ _ _ _ Hruns) as L.
  assert (Ec : combine (cs ++ [c]) (outs ++ [r]) = combine cs outs ++ [(c, r)]).
  { clear - L. revert outs L. induction cs as [|x cs IH]; intros [|o outs] L; try discriminate; [reflexivity|]. cbn. f_equal. apply IH. cbn in L. lia. }
  rewrite <- Ec in Hn. destruct (storable_parts options (cs ++ [c]) (outs ++ [r])) as (P1 & P2 & P3); [rewrite !app_length; cbn; lia|exact Hn|].
  apply Forall_app in P2. destruct P2 as [P2 P2']. rewrite Ec, submitted_app in P3. assert (Et : submitted [(c, r)] = taken (c, r)) by (rewrite submitted_sum; cbn [map]; unfold zsum; cbn [fold_right]; lia).
  pose proof (taken_nonneg (c, r)) as Tn.
  pose proof (new_dead srt now0 options faults sw0 cs outs sw Hs Hnew Hty P2 Hruns P1 ltac:(intros E5; specialize (P3 E5); lia)) as Hd.
  destruct (NewSimple_fresh _ _ _ _ Hnew) as (w & f & Hw & ->).
  destruct (history_balanced srt cs Hs _ _ _ 0 Hruns) as (Hb & Hcl & _); [split; [reflexivity|]; split; reflexivity || (cbn; lia)|discriminate|].
  rewrite Z.add_0_l in Hb. pose proof (Forall_inv P2') as Hsm. unfold TotalItems, buffered, IsClosed in *. pose proof Hd as (_ & D2 & _).
  assert (Hp : sw_pendingIDs sw <> []). { intros K. rewrite K in A3. change (zlen []) with 0 in A3. lia. }
  destruct (dead_call srt _ c sw _ r sw' Hs P1 Hc Hsm Hd Hb ltac:(intros E5; specialize (P3 E5); lia) Hrun) as [_ G].
  apply G; [exact Hp|]. destruct (sw_closed sw) eqn:E; [|reflexivity]. destruct Hp. auto.
Qed.

(** ** Who releases a SimpleWriter's file *)
Theorem simple_release srt c sw r sw' : run_scall srt c sw = (r, sw') -> is_open (sw_writer sw) = true -> is_open (sw_writer sw') = false ->
  exists now w1 w2, c = SCClose now /\ (r = Ok tt \/ r = Err ErrIO) /\ buffered sw' = 0
    /\ Finalize now w1 = (Ok tt, w2) /\ bytes_of w2 = file_of sw'.
Proof.
  intros H Ho Hc. destruct c as [ids vals|size|now]; cbn [run_scall] in H.
  - exfalso. unfold SWrite in H. destruct (sw_closed sw); [injection H as _ <-; congruence|]. destruct (negb _); [injection H as _ <-; congruence|].
    destruct (zlen ids =? 0); [injection H as _ <-; congruence|]. destruct (if negb (isSorted ids) then _ else _) as [ni nv]. unfold flush in H.
    destruct (flush_facts _ _ _ _ _ H) as (I1 & _). cbn [sw_writer] in I1. congruence.
  - exfalso. unfold SetTargetBlockSize in H. destruct (sw_closed sw); injection H as _ <-; [congruence|]. cbn [sw_writer] in Hc.
    change (is_open (set_target (sw_writer sw) (u32 size))) with (is_open (sw_writer sw)) in Hc. congruence.
  - unfold SClose in H. destruct (sw_closed sw); [injection H as _ <-; congruence|]. unfold flush in H. destruct (flushIfNeeded _ true sw) as [rf sw1] eqn:Ef.
    destruct (flush_facts _ _ _ _ _ Ef) as (I1 & _ & _ & _ & _ & _ & _ & I7 & _).
    destruct rf as [[]|er|]; [|injection H as _ <-; congruence|injection H as _ <-; congruence]. specialize (I7 eq_refl eq_refl).
    destruct (FinalizeAndClose now (sw_writer sw1)) as [rr w'] eqn:Ew.
    destruct (finalize_and_close now (sw_writer sw1) rr w') as [F1 F2]; [congruence|exact Ew|].
    assert (Hx : is_open w' = false /\ (rr = r /\ sw_pendingIDs sw' = [] /\ file_of sw' = bytes_of w')).
    { destruct rr as [[]|er|]; injection H as <- <-; cbn [sw_writer sw_pendingIDs] in *; auto. }
    destruct Hx as (X1 & X2 & X3 & X4). destruct (F2 X1) as (G1 & w1 & G2 & G3). exists now, (sw_writer sw1), w1.
    split; [reflexivity|]. split; [congruence|]. split; [unfold buffered; rewrite X3; reflexivity|]. split; [exact G2|congruence].
Qed.
End Stuck.
