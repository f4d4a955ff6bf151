(** SimpleWriter: accounting in every state, and contents of undisturbed runs. *)
From Coq Require Import Sorting.Permutation Sorting.Sorted.
From Verif Require Import Machine MachineFacts Encoding EncodingFacts FileIO Sroar Writer SimpleWriter Spec SimpleSpec FileFacts
  WriterFacts BlockFacts FinalFacts Reader ReaderFacts DecodeFacts HistoryFacts RunFacts ReachFacts WriterProps Aggregate AggFacts.
Ltac Zify.zify_post_hook ::= Z.div_mod_to_equations.

Section Simple.
Context {Srr : Sroar}.

(** ** Which errors a writer method can return *)
Definition plain (e : err) : Prop := (forall n, e <> ErrBlockFull n) /\ e <> ErrFuel /\ e <> ErrClosed /\ e <> ErrLength.
Definition tame {A} (m : M A) : Prop := forall w e w', m w = (Err e, w') -> plain e.
Lemma tame_ret {A} (a : A) : tame (mret a). Proof. discriminate. Qed.
Lemma tame_fail {A} e : plain e -> tame (@mfail _ A e).
Proof. intros H w e' w' E. injection E as <- _. exact H. Qed.
Lemma tame_bind {A B} (m : M A) (k : A -> M B) : tame m -> (forall a, tame (k a)) -> tame (mbind m k).
Proof.
  intros Hm Hk w e w' H. unfold mbind in H. destruct (m w) as [[a|e'|] w1] eqn:E; try discriminate.
  - eapply Hk. exact H.
  - injection H as <- _. eapply Hm. exact E.
Qed.
Lemma tame_get : tame mget. Proof. discriminate. Qed.
Lemma tame_modify f : tame (mmodify f). Proof. discriminate. Qed.
Ltac plain := split; [intros; discriminate|split; [discriminate|split; discriminate]].
Lemma tame_seek off wh : tame (seek off wh).
Proof.
  intros w e w' H. unfold seek, mfile, file_seek in H. destruct (f_open _); [|injection H as <- _; plain].
  destruct (f_faults _) as [|[|k] fs]; try (destruct (_ <? 0)); try discriminate; injection H as <- _; plain.
Qed.
Lemma tame_write bs : tame (write bs).
Proof.
  intros w e w' H. unfold write, mfile, file_write in H. destruct (f_open _); [|injection H as <- _; plain].
  destruct (f_faults _) as [|[|k] fs]; try discriminate; injection H as <- _; plain.
Qed.
Lemma tame_sync : tame sync.
Proof.
  intros w e w' H. unfold sync, mfile, file_sync in H. destruct (f_open _); [|injection H as <- _; plain].
  destruct (f_faults _) as [|[|k] fs]; try discriminate; injection H as <- _; plain.
Qed.
Lemma tame_writeAll l : forall n, tame (writeAll l n).
Proof. induction l as [|b l IH]; intros n; cbn [writeAll]; [apply tame_ret|]. apply tame_bind; [apply tame_write|]. intros k. apply IH. Qed.
Lemma tame_encode e data delta enc1 : tame (mlift (encodeData e data delta enc1)).
Proof.
  intros w er w' H. unfold mlift, encodeData in H. destruct (usesDelta e) as [d|]; [|injection H as <- _; plain].
  destruct (usesFixedWidth e); [discriminate|].
  destruct (encode_items_soft enc1 (if d then delta data else data) 0) as [[[bs size] E]|E]; rewrite E in H; cbn [rbind] in H.
  - destruct (_ && _); [injection H as <- _; plain|discriminate].
  - injection H as <- _. plain.
Qed.
Lemma tame_if {A} (b : bool) (m1 m2 : M A) : tame m1 -> tame m2 -> tame (if b then m1 else m2).
Proof. destruct b; auto. Qed.
Ltac tame := repeat first
  [ apply tame_ret | apply tame_get | apply tame_modify | apply tame_seek | apply tame_write | apply tame_sync
  | apply tame_writeAll | apply tame_encode | apply tame_fail; plain | apply tame_if | apply tame_bind
  | match goal with |- forall _, _ => intros ? end | match goal with |- tame (let '(_, _) := ?x in _) => destruct x end
  | progress cbv zeta ].
Lemma tame_estimate ids vals : zlen ids = zlen vals -> tame (EstimateBlockSize ids vals).
Proof. intros E. unfold EstimateBlockSize, encodeIDs, encodeValues. replace (zlen ids =? zlen vals) with true by lia. cbn [negb]. tame. Qed.
Lemma tame_writeBlockInternal ids vals : tame (writeBlockInternal ids vals).
Proof. unfold writeBlockInternal, writeBlockHeader, writeSection, writeInt, encodeIDs, encodeValues. tame. Qed.

Lemma tame_footer idx : tame (writeFooterEntries idx).
Proof.
  induction idx as [|i idx IH]; cbn [writeFooterEntries]; [apply tame_ret|]. apply tame_bind; [apply tame_get|]. intros w.
  destruct (nth_error _ _) as [p|]; [|discriminate]. destruct (nth_error (w_sizes w) _) as [z|]; [|discriminate].
  destruct (nth_error (w_stats w) _) as [st|]; [|discriminate]. apply tame_bind; [|intros; exact IH]. unfold writeBlockFooter. tame.
Qed.
Lemma tame_Finalize now : tame (Finalize now).
Proof. unfold Finalize, writeGlobalIDBitmap, writeInt. repeat (tame; try apply tame_footer). Qed.

Lemma findOptimal_in ids vals idx : forall best w n w', findOptimal ids vals idx best w = (Ok n, w') -> n = best \/ In n idx.
Proof.
  induction idx as [|i idx IH]; intros best w n w' H; cbn [findOptimal] in H; [injection H as <- _; auto|].
  destruct (EstimateBlockSize _ _ w) as [[size|e|] w1]; [destruct (size <=? w_target w1)| |]; try discriminate.
  - destruct (IH _ _ _ _ H) as [->|Hin]; [right; left; reflexivity|right; right; exact Hin].
  - injection H as <- _. auto.
  - injection H as <- _. auto.
Qed.
Lemma findOptimal_tame ids vals idx : forall best, tame (findOptimal ids vals idx best).
Proof.
  induction idx as [|i idx IH]; intros best w e w' H; cbn [findOptimal] in H; [discriminate|].
  destruct (EstimateBlockSize _ _ w) as [[size|e'|] w1]; [destruct (size <=? w_target w1)| |]; try discriminate.
  eapply IH. exact H.
Qed.
Lemma tl_zseq_range n i : In i (tl (zseq n)) -> 1 <= i < n.
Proof.
  unfold zseq. intros H. destruct (Z.to_nat n) as [|k] eqn:E; [destruct H|]. cbn [seq map tl] in H.
  apply in_map_iff in H. destruct H as (j & <- & Hj). apply in_seq in Hj. lia.
Qed.

(** In every state: the count of a full block is a proper prefix. *)
Lemma WriteBlock_errors ids vals w er w' : zlen ids = zlen vals -> WriteBlock ids vals w = (Err er, w') ->
  (exists n, er = ErrBlockFull n /\ 1 <= n < zlen ids) \/ plain er.
Proof.
  intros El. unfold WriteBlock. replace (zlen ids =? zlen vals) with true by lia. cbn [negb].
  destruct (_ =? 0); [intros H; injection H as <- _; right; plain|].
  unfold mbind at 1. destruct (EstimateBlockSize ids vals w) as [[est|e|] w1] eqn:E; try discriminate.
  2:{ intros H. injection H as <- _. right. eapply tame_estimate; [exact El|exact E]. }
  unfold mbind at 1, mget at 1. destruct (_ && _) eqn:Hc.
  2:{ intros H. right. eapply tame_writeBlockInternal. exact H. }
  apply andb_true_iff in Hc. destruct Hc as [_ Hc]. rewrite Z.gtb_ltb in Hc. apply Z.ltb_lt in Hc.
  unfold mbind at 1. destruct (findOptimal ids vals (tl (zseq (zlen ids))) 1 w1) as [[n|e|] w2] eqn:Ef; try discriminate.
  2:{ intros H. injection H as <- _. right. eapply findOptimal_tame. exact Ef. }
  unfold mbind. destruct (writeBlockInternal _ _ w2) as [[u|e|] w3] eqn:Ew; try discriminate.
  2:{ intros H. injection H as <- _. right. eapply tame_writeBlockInternal. exact Ew. }
  intros H. injection H as <- _. left. exists n. split; [reflexivity|].
  destruct (findOptimal_in _ _ _ _ _ _ _ Ef) as [->|Hin]; [lia|]. apply tl_zseq_range in Hin. exact Hin.
Qed.

(** ** Accounting *)
Definition balanced (total : Z) (sw : swriter) : Prop :=
  zlen (sw_pendingIDs sw) = zlen (sw_pendingValues sw) /\ sw_totalItems sw = u64 (total - zlen (sw_pendingIDs sw))
  /\ zlen (sw_pendingIDs sw) <= total.

Lemma u64_step a b n : u64 (u64 (a - b) + n) = u64 (a - (b - n)).
Proof. unfold u64, two64. rewrite Zplus_mod_idemp_l. f_equal. lia. Qed.

Lemma flush_balanced fuel force : forall sw total, balanced total sw -> (length (sw_pendingIDs sw) < fuel)%nat ->
  let '(r, sw') := flushIfNeeded fuel force sw in
  balanced total sw' /\ sw_closed sw' = sw_closed sw
  /\ (r = Ok tt -> zlen (sw_pendingIDs sw') < 1000 /\ (force = true -> sw_pendingIDs sw' = []))
  /\ (forall e, r = Err e -> plain e).
Proof.
  induction fuel as [|fuel IH]; intros sw total Hb Hf; [lia|]. cbn [flushIfNeeded].
  destruct (Z.eqb_spec (zlen (sw_pendingIDs sw)) 0) as [E0|N0].
  { split; [exact Hb|]. split; [reflexivity|]. split; [|discriminate]. intros _. split; [lia|]. intros _. apply zlen_0_nil. exact E0. }
  destruct (if force then true else zlen (sw_pendingIDs sw) >=? 1000) eqn:Hs.
  2:{ split; [exact Hb|]. split; [reflexivity|]. split; [|discriminate]. intros _. destruct force; [discriminate|].
      split; [lia|discriminate]. }
  destruct (WriteBlock _ _ (sw_writer sw)) as [[u|er|] w'] eqn:Ew; destruct Hb as (B1 & B2 & B3).
  - split.
    { unfold balanced. cbn [sw_pendingIDs sw_pendingValues sw_totalItems]. change (zlen (@nil Z)) with 0. split; [reflexivity|].
      split; [rewrite B2, u64_step; f_equal; lia|]. pose proof (zlen_nonneg (sw_pendingIDs sw)). lia. }
    split; [reflexivity|]. split; [|discriminate]. intros _. cbn. change (zlen (@nil Z)) with 0. split; [lia|reflexivity].
  - destruct (WriteBlock_errors _ _ _ _ _ B1 Ew) as [(n & -> & Hn)|Hp].
    + match goal with |- context [flushIfNeeded fuel force ?x] => specialize (IH x total) end. cbn [sw_pendingIDs sw_pendingValues sw_totalItems sw_closed] in IH.
      assert (Hz : zlen (zdrop n (sw_pendingIDs sw)) = zlen (sw_pendingIDs sw) - n) by (rewrite zlen_zdrop; lia).
      destruct (flushIfNeeded fuel force _) as [r sw']. apply IH.
      * unfold balanced. cbn [sw_pendingIDs sw_pendingValues sw_totalItems]. rewrite Hz. split; [rewrite zlen_zdrop; lia|].
        split; [rewrite B2, u64_step; reflexivity|lia].
      * unfold zlen in *. lia.
    + assert (G : balanced total (mkSW w' (sw_pendingIDs sw) (sw_pendingValues sw) (sw_targetBlockSize sw) (sw_closed sw) (sw_totalItems sw))
        /\ (forall e, @Err unit er = Err e -> plain e)).
      { split; [repeat split; assumption|]. intros e E. injection E as <-. exact Hp. }
      destruct er; try (destruct Hp as [Hp _]; destruct (Hp itemsWritten eq_refl)); 
        (split; [exact (proj1 G)|]; split; [reflexivity|]; split; [discriminate|exact (proj2 G)]).
  - split; [repeat split; assumption|]. split; [reflexivity|]. split; [discriminate|discriminate].
Qed.

Lemma flush_enough_fuel force sw total : balanced total sw -> fst (flush force sw) <> Err ErrFuel.
Proof.
  intros Hb H. pose proof (flush_balanced (S (length (sw_pendingIDs sw))) force sw total Hb ltac:(lia)) as T.
  unfold flush in H. destruct (flushIfNeeded _ force sw) as [r sw']. cbn [fst] in H. destruct T as (_ & _ & _ & T).
  destruct (T _ H) as (_ & F & _). congruence.
Qed.

Definition arrange (srt : sorter) (batch : list (Z * Z)) : list (Z * Z) :=
  if isSorted (map fst batch) then batch else srt batch.
Definition taken (p : scall * res unit) : Z :=
  match fst p, snd p with
  | SCWrite _ _, Err ErrLength | SCWrite _ _, Err ErrClosed => 0
  | SCWrite ids _, _ => zlen ids
  | _, _ => 0
  end.
Lemma submitted_sum h : submitted h = zsum (map taken h).
Proof. unfold submitted. f_equal. apply map_ext. intros [c r]. reflexivity. Qed.

Lemma combine_fst' (ids vals : list Z) : zlen ids = zlen vals -> map fst (combine ids vals) = ids.
Proof.
  revert vals. induction ids as [|i ids IH]; intros [|v vals] H; try reflexivity.
  - rewrite zlen_cons in H. change (zlen (@nil Z)) with 0 in H. pose proof (zlen_nonneg ids). lia.
  - cbn. f_equal. apply IH. rewrite !zlen_cons in H. lia.
Qed.
Lemma combine_snd' (ids vals : list Z) : zlen ids = zlen vals -> map snd (combine ids vals) = vals.
Proof.
  revert vals. induction ids as [|i ids IH]; intros [|v vals] H; try reflexivity.
  - rewrite zlen_cons in H. change (zlen (@nil Z)) with 0 in H. pose proof (zlen_nonneg vals). lia.
  - cbn. f_equal. apply IH. rewrite !zlen_cons in H. lia.
Qed.
Lemma split_map {A B} (l : list (A * B)) : split l = (map fst l, map snd l).
Proof. induction l as [|[a b] l IH]; [reflexivity|]. cbn. rewrite IH. reflexivity. Qed.
Lemma zlen_combine (ids vals : list Z) : zlen ids = zlen vals -> zlen (combine ids vals) = zlen ids.
Proof. unfold zlen. rewrite combine_length. lia. Qed.
Lemma zlen_srt srt l : sorts srt -> zlen (srt l) = zlen l.
Proof. intros H. destruct (H l) as [P _]. unfold zlen. rewrite (Permutation_length P). reflexivity. Qed.

(** Write appends the arranged batch to the buffer and flushes. *)
Lemma SWrite_eq srt ids vals sw : sw_closed sw = false -> zlen ids = zlen vals -> ids <> [] ->
  SWrite srt ids vals sw =
  flush false (mkSW (sw_writer sw) (sw_pendingIDs sw ++ map fst (arrange srt (combine ids vals)))
                    (sw_pendingValues sw ++ map snd (arrange srt (combine ids vals)))
                    (sw_targetBlockSize sw) (sw_closed sw) (sw_totalItems sw)).
Proof.
  intros Hc Hl Hn. unfold SWrite. rewrite Hc. replace (zlen ids =? zlen vals) with true by lia. cbn [negb].
  replace (zlen ids =? 0) with false by (destruct ids; [congruence|rewrite zlen_cons; pose proof (zlen_nonneg ids); lia]).
  unfold arrange. rewrite combine_fst' by exact Hl. destruct (isSorted ids); cbn [negb].
  - rewrite combine_fst', combine_snd' by exact Hl. reflexivity.
  - unfold sortByID. rewrite split_map. reflexivity.
Qed.
Lemma zlen_arrange srt ids vals : sorts srt -> zlen ids = zlen vals -> zlen (arrange srt (combine ids vals)) = zlen ids.
Proof. intros Hs Hl. unfold arrange. destruct (isSorted _); [|rewrite zlen_srt by exact Hs]; apply zlen_combine; exact Hl. Qed.

Lemma call_balanced srt c sw total : sorts srt -> balanced total sw -> (sw_closed sw = true -> sw_pendingIDs sw = []) ->
  let '(r, sw') := run_scall srt c sw in
  balanced (total + taken (c, r)) sw' /\ (sw_closed sw' = true -> sw_pendingIDs sw' = [])
  /\ (forall ids vals, c = SCWrite ids vals -> ids <> [] -> r = Ok tt -> zlen (sw_pendingIDs sw') < 1000).
Proof.
  intros Hs Hb Hcl. assert (Hb0 : balanced (total + 0) sw) by (rewrite Z.add_0_r; exact Hb).
  destruct c as [ids vals|size|now]; cbn [run_scall].
  - destruct (sw_closed sw) eqn:Ec.
    { unfold SWrite. rewrite Ec. split; [exact Hb0|]. split; [intros _; exact (Hcl eq_refl)|discriminate]. }
    destruct (Z.eq_dec (zlen ids) (zlen vals)) as [El|Nl].
    2:{ unfold SWrite. rewrite Ec. replace (zlen ids =? zlen vals) with false by lia. cbn [negb].
        split; [exact Hb0|]. split; [rewrite Ec; discriminate|discriminate]. }
    destruct (list_eq_dec Z.eq_dec ids []) as [->|Nn].
    { unfold SWrite. rewrite Ec. replace (zlen [] =? zlen vals) with true by lia. cbn [negb]. change (zlen [] =? 0) with true. cbv iota.
      split; [exact Hb0|]. split; [rewrite Ec; discriminate|]. intros i v E. injection E as <- _. congruence. }
    rewrite SWrite_eq by assumption. pose proof (zlen_arrange srt ids vals Hs El) as La.
    match goal with |- context [flush false ?x] => set (sw1 := x); pose proof (flush_balanced (S (length (sw_pendingIDs sw1))) false sw1 (total + zlen ids)) as T end.
    destruct Hb as (B1 & B2 & B3).
    assert (Hb1 : balanced (total + zlen ids) sw1).
    { unfold balanced, sw1. cbn [sw_pendingIDs sw_pendingValues sw_totalItems]. rewrite !zlen_app, !zlen_map, La.
      split; [lia|]. split; [rewrite B2; f_equal; lia|lia]. }
    specialize (T Hb1 ltac:(lia)). unfold flush. destruct (flushIfNeeded _ false sw1) as [r sw'] eqn:Ef.
    destruct T as (T1 & T2 & T3 & T4). split; [|split].
    + replace (taken (SCWrite ids vals, r)) with (zlen ids); [exact T1|]. destruct r as [u|er|]; try reflexivity.
      destruct (T4 er eq_refl) as (_ & _ & N). unfold taken. cbn [fst snd].
      destruct N. destruct er; try reflexivity; congruence.
    + rewrite T2. unfold sw1. cbn. rewrite Ec. discriminate.
    + intros i v _ _ ->. apply T3. reflexivity.
  - unfold SetTargetBlockSize. destruct (sw_closed sw) eqn:Ec.
    + split; [exact Hb0|]. split; [intros _; auto|discriminate].
    + split; [exact Hb0|]. split; [cbn; rewrite ?Ec; discriminate|discriminate].
  - unfold SClose. destruct (sw_closed sw) eqn:Ec.
    { split; [exact Hb0|]. split; [intros _; auto|discriminate]. }
    pose proof (flush_balanced (S (length (sw_pendingIDs sw))) true sw total Hb ltac:(lia)) as T. unfold flush.
    destruct (flushIfNeeded _ true sw) as [[[]|er|] sw1]; destruct T as (T1 & T2 & T3 & T4); unfold taken; cbn [fst snd]; rewrite ?Z.add_0_r.
    + destruct (T3 eq_refl) as [_ T5]. specialize (T5 eq_refl). destruct (FinalizeAndClose now (sw_writer sw1)) as [[u|er|] w'].
      all: split; [exact T1|split; [|discriminate]]; cbn; rewrite ?T2; intros; try assumption; congruence.
    + split; [exact T1|]. split; [rewrite T2, Ec; discriminate|discriminate].
    + split; [exact T1|]. split; [rewrite T2, Ec; discriminate|discriminate].
Qed.

Lemma run_scalls_length srt cs : forall sw outs sw', run_scalls srt cs sw = (outs, sw') -> length outs = length cs.
Proof.
  induction cs as [|c cs IH]; intros sw outs sw' H; cbn [run_scalls] in H; [injection H as <- _; reflexivity|].
  destruct (run_scall srt c sw) as [r sw1]. destruct (run_scalls srt cs sw1) as [rs sw2] eqn:E. injection H as <- _.
  cbn. f_equal. eapply IH. exact E.
Qed.
Lemma run_scalls_app srt cs1 cs2 : forall sw, run_scalls srt (cs1 ++ cs2) sw
  = let '(o1, sw1) := run_scalls srt cs1 sw in let '(o2, sw2) := run_scalls srt cs2 sw1 in (o1 ++ o2, sw2).
Proof.
  induction cs1 as [|c cs1 IH]; intros sw; cbn [app run_scalls].
  - destruct (run_scalls srt cs2 sw). reflexivity.
  - destruct (run_scall srt c sw) as [r sw1]. rewrite IH. destruct (run_scalls srt cs1 sw1) as [o1 v1].
    destruct (run_scalls srt cs2 v1) as [o2 v2]. reflexivity.
Qed.

Lemma history_balanced srt cs : sorts srt -> forall sw outs sw' total, run_scalls srt cs sw = (outs, sw') ->
  balanced total sw -> (sw_closed sw = true -> sw_pendingIDs sw = []) ->
  balanced (total + submitted (combine cs outs)) sw' /\ (sw_closed sw' = true -> sw_pendingIDs sw' = [])
  /\ (forall h ids vals, combine cs outs = h ++ [(SCWrite ids vals, Ok tt)] -> ids <> [] -> zlen (sw_pendingIDs sw') < 1000).
Proof.
  intros Hs. induction cs as [|c cs IH]; intros sw outs sw' total H Hb Hc; cbn [run_scalls] in H.
  - injection H as <- <-. rewrite submitted_sum. cbn. rewrite Z.add_0_r. split; [exact Hb|]. split; [exact Hc|].
    intros h ids vals E. destruct h; discriminate.
  - pose proof (call_balanced srt c sw total Hs Hb Hc) as T. destruct (run_scall srt c sw) as [r sw1].
    destruct (run_scalls srt cs sw1) as [rs sw2] eqn:E. injection H as <- <-. destruct T as (T1 & T2 & T3).
    destruct (IH _ _ _ _ E T1 T2) as (I1 & I2 & I3). rewrite submitted_sum in *. cbn [combine map]. unfold zsum in *. cbn [fold_right].
    rewrite Z.add_assoc. split; [exact I1|]. split; [exact I2|]. intros h ids vals Eh Hn. destruct h as [|p h].
    + cbn in Eh. injection Eh as -> -> Er. assert (cs = []) as ->.
      { pose proof (run_scalls_length _ _ _ _ _ E). destruct cs; [reflexivity|]. destruct rs; discriminate. }
      cbn in E. injection E as <- <-. eapply T3; [reflexivity|exact Hn|reflexivity].
    + cbn in Eh. injection Eh as _ Eh. eapply I3; eassumption.
Qed.

Lemma NewSimple_fresh now options faults sw : NewSimpleWriter now options faults = Ok sw ->
  exists w f, NewWriter now options faults = (Ok w, f) /\ sw = mkSW w [] [] 131072 false 0.
Proof.
  unfold NewSimpleWriter. destruct (NewWriter now options faults) as [[w|e|] f]; cbn [fst rbind]; try discriminate.
  intros H. injection H as <-. eauto.
Qed.

Theorem accounting srt options faults h sw : simple_run srt options faults h sw -> sorts srt ->
  0 <= buffered sw <= submitted h /\ TotalItems sw = u64 (submitted h - buffered sw)
  /\ (submitted h < two64 -> TotalItems sw + buffered sw = submitted h)
  /\ (IsClosed sw = true -> buffered sw = 0)
  /\ (forall h0 ids vals, h = h0 ++ [(SCWrite ids vals, Ok tt)] -> ids <> [] -> buffered sw < 1000).
Proof.
  intros [now0 sw0 cs outs Hnew Hopt Hty Hrun ->] Hs. destruct (NewSimple_fresh _ _ _ _ Hnew) as (w & f & _ & ->).
  destruct (history_balanced srt cs Hs _ _ _ 0 Hrun) as ((B1 & B2 & B3) & H2 & H3).
  - split; [reflexivity|]. split; reflexivity || (cbn; lia).
  - discriminate.
  - rewrite Z.add_0_l in *. unfold buffered, TotalItems, IsClosed. pose proof (zlen_nonneg (sw_pendingIDs sw)).
    split; [lia|]. split; [exact B2|]. split; [intros Hlt; rewrite B2; unfold u64, two64 in *; lia|]. split; [intros Hc; rewrite (H2 Hc); reflexivity|exact H3].
Qed.

(** ** Contents *)
Definition SInv (nf : Prop) (e : Z) (sw : swriter) (done : list (Z * Z)) : Prop :=
  exists t L, Good nf e t L (flat_map fst (map snd L)) True (sw_writer sw) /\ is_u32 t
    /\ all_pairs (map snd L) ++ combine (sw_pendingIDs sw) (sw_pendingValues sw) = done
    /\ zlen (sw_pendingIDs sw) = zlen (sw_pendingValues sw)
    /\ Forall is_u64 (sw_pendingIDs sw) /\ Forall is_i64 (sw_pendingValues sw).

Lemma combine_split_at n (a b : list Z) : zlen a = zlen b ->
  combine a b = combine (ztake n a) (ztake n b) ++ combine (zdrop n a) (zdrop n b).
Proof.
  intros H. rewrite <- combine_app'.
  - rewrite !ztake_zdrop. reflexivity.
  - unfold ztake. rewrite !firstn_length. unfold zlen in H. lia.
Qed.
Lemma all_pairs_app b1 b2 : all_pairs (b1 ++ b2) = all_pairs b1 ++ all_pairs b2.
Proof. apply flat_map_app. Qed.

Lemma flush_inv (nf : Prop) e fuel force : forall sw done, SInv nf e sw done -> zlen (sw_pendingIDs sw) <= max_items ->
  (length (sw_pendingIDs sw) < fuel)%nat ->
  match flushIfNeeded fuel force sw with
  | (Ok _, sw') => SInv nf e sw' done
  | (Err er, sw') => ~ (nf /\ consistent e)
  | (Panic, _) => False
  end.
Proof.
  induction fuel as [|fuel IH]; intros sw done Hi Hm Hf; [lia|]. cbn [flushIfNeeded].
  destruct (Z.eqb_spec (zlen (sw_pendingIDs sw)) 0) as [E0|N0]; [exact Hi|].
  destruct (if force then true else zlen (sw_pendingIDs sw) >=? 1000) eqn:Hs; [|exact Hi].
  destruct Hi as (t & L & Hg & Ht & Hd & Hl & Hu & Hv).
  assert (Hty : typed_block (sw_pendingIDs sw) (sw_pendingValues sw)) by (repeat split; try assumption; lia).
  pose proof (write_outcome nf e t L _ True _ _ _ Hg Hty) as O.
  pose proof (WriteBlock_good nf _ _ e t L _ True _ Hty Hg) as T. cbn [run_call] in T. unfold mbind, mret in T.
  destruct (WriteBlock _ _ (sw_writer sw)) as [[u|er|] w']; [| |contradiction].
  - destruct T as (_ & bs & added & He & [(L' & HL & Hg' & _)|([?|?] & _)]); try discriminate.
    assert (bs = [(sw_pendingIDs sw, sw_pendingValues sw)] /\ added = sw_pendingIDs sw) as [-> ->]
      by (inversion He as [i v n' A1 A2 A3 A4|i v n' ? A1 A2 A3 A4|i v n' ? A1 A2 A3 A4|i v e' n' ? ? ? A1 A2 A3 A4|c r Hn A1 A2 A3 A4]; subst;
          [auto|discriminate..|exfalso; eapply Hn; reflexivity]).
    exists t, L'. split.
    { rewrite HL, flat_map_app. cbn [flat_map fst]. rewrite app_nil_r. exact Hg'. }
    split; [exact Ht|]. cbn [sw_pendingIDs sw_pendingValues combine]. split; [|repeat split; constructor].
    rewrite app_nil_r, HL, all_pairs_app. cbn [all_pairs flat_map pairs_of fst snd]. rewrite app_nil_r. exact Hd.
  - assert (D : (exists n, er = ErrBlockFull n) \/ (forall n, er <> ErrBlockFull n)) by (destruct er; eauto; right; discriminate).
    destruct D as [[n ->]|D].
    2:{ assert (X : ~ (nf /\ consistent e)).
        { intros [Hnf Hco]. assert (NN : sw_pendingIDs sw <> []) by (intros E; rewrite E in N0; apply N0; reflexivity).
          destruct er; try (unfold consistent, declared in *; decompose [or and] O; try discriminate; try tauto; lia).
          exact (D _ eq_refl). }
        destruct er; try exact X. destruct (D _ eq_refl). }
    destruct T as (_ & bs & added & He & [(L' & HL & Hg' & _)|([?|?] & _)]); try discriminate.
    assert (1 <= n < zlen (sw_pendingIDs sw) /\ bs = [(ztake n (sw_pendingIDs sw), ztake n (sw_pendingValues sw))] /\ added = ztake n (sw_pendingIDs sw)) as (Hn & -> & ->).
    { inversion He as [i v n' A1 A2 A3 A4|i v n' ? A1 A2 A3 A4|i v n' ? A1 A2 A3 A4|i v e' n' ? Hx ? A1 A2 A3 A4|c r Hx A1 A2 A3 A4]; subst;
        [auto|exfalso; eapply Hx; reflexivity|exfalso; eapply Hx; reflexivity]. }
    match goal with |- context [flushIfNeeded fuel force ?x] => specialize (IH x done) end.
    cbn [sw_pendingIDs sw_pendingValues sw_writer] in IH. apply IH.
    + exists t, L'. cbn [sw_pendingIDs sw_pendingValues sw_writer]. split.
      { rewrite HL, flat_map_app. cbn [flat_map fst]. rewrite app_nil_r. exact Hg'. }
      split; [exact Ht|]. split; [|rewrite !zlen_zdrop; split; [lia|split; apply Forall_zdrop; assumption]].
      rewrite HL, all_pairs_app. cbn [all_pairs flat_map pairs_of fst snd]. rewrite app_nil_r, <- app_assoc.
      unfold pairs_of. cbn [fst snd]. rewrite <- combine_split_at by exact Hl. exact Hd.
    + rewrite zlen_zdrop. lia.
    + assert (zlen (zdrop n (sw_pendingIDs sw)) = zlen (sw_pendingIDs sw) - n) by (rewrite zlen_zdrop; lia). unfold zlen in *. lia.
Qed.

(** What is known of the file of a closed SimpleWriter. *)
Definition SDone (e : Z) (sw : swriter) (done : list (Z * Z)) : Prop :=
  exists t L now X off, is_u32 t /\ all_pairs (map snd L) = done
    /\ finalized (file_of sw) X now e t L (fold_left bm_set (flat_map fst (map snd L)) bm_new) off
    /\ w_blockCount (sw_writer sw) = zlen L
    /\ w_ids (sw_writer sw) = fold_left bm_set (flat_map fst (map snd L)) bm_new.

Definition SState (nf : Prop) (e : Z) (sw : swriter) (done : list (Z * Z)) : Prop :=
  (sw_closed sw = false /\ SInv nf e sw done /\ zlen (sw_pendingIDs sw) < 1000 /\ exists total, balanced total sw)
  \/ (sw_closed sw = true /\ SDone e sw done).

Definition adds (srt : sorter) (p : scall * res unit) : list (Z * Z) :=
  match fst p, snd p with
  | SCWrite ids vals, Ok _ => arrange srt (combine ids vals)
  | _, _ => []
  end.

Lemma Permutation_Forall {A} (P : A -> Prop) l l' : Permutation l l' -> Forall P l -> Forall P l'.
Proof. intros Hp H. rewrite Forall_forall in *. intros x Hx. apply H. eapply Permutation_in; [apply Permutation_sym; exact Hp|exact Hx]. Qed.
Lemma arrange_perm srt b : sorts srt -> Permutation b (arrange srt b).
Proof. intros Hs. unfold arrange. destruct (isSorted _); [apply Permutation_refl|apply Hs]. Qed.

Lemma flush_closed fuel force : forall sw, sw_closed (snd (flushIfNeeded fuel force sw)) = sw_closed sw.
Proof.
  induction fuel as [|fuel IH]; intros sw; cbn [flushIfNeeded]; [reflexivity|].
  destruct (_ =? 0); [reflexivity|]. destruct (if force then true else _); [|reflexivity].
  destruct (WriteBlock _ _ _) as [[u|er|] w']; try reflexivity. destruct er; try reflexivity. rewrite IH. reflexivity.
Qed.

Lemma call_state' (nf : Prop) srt e c sw done : sorts srt -> typed_scall c -> SState nf e sw done ->
  let '(r, sw') := run_scall srt c sw in
  ((r = Ok tt \/ r = Err ErrLength \/ r = Err ErrClosed) -> SState nf e sw' (done ++ adds srt (c, r)))
  /\ (nf -> consistent e ->
      (sw_closed sw = false -> r = Ok tt \/ exists ids vals, c = SCWrite ids vals /\ zlen ids <> zlen vals /\ r = Err ErrLength)
      /\ (sw_closed sw = true -> ((forall now, c <> SCClose now) /\ r = Err ErrClosed) \/ exists now, c = SCClose now /\ r = Ok tt)).
Proof.
  intros Hs Hty HS. destruct HS as [(Hc & Hi & Hp & total & Hb)|(Hc & Hd)].
  2:{ assert (X : SState nf e sw (done ++ [])) by (rewrite app_nil_r; right; auto).
      destruct c as [ids vals|size|now]; cbn [run_scall]; unfold SWrite, SetTargetBlockSize, SClose; rewrite Hc.
      all: split; [intros _; exact X|intros _ _; split; [discriminate|intros _]; first [left; split; [discriminate|reflexivity]|right; eauto]]. }
  assert (X : SState nf e sw (done ++ [])) by (rewrite app_nil_r; left; eauto).
  destruct c as [ids vals|size|now]; cbn [run_scall].
  - destruct (Z.eq_dec (zlen ids) (zlen vals)) as [El|Nl].
    2:{ unfold SWrite. rewrite Hc. replace (zlen ids =? zlen vals) with false by lia. cbn [negb].
        split; [intros _; exact X|]. intros _ _. split; [eauto 8|discriminate]. }
    destruct (list_eq_dec Z.eq_dec ids []) as [->|Nn].
    { unfold SWrite. rewrite Hc. replace (zlen [] =? zlen vals) with true by lia. cbn [negb]. change (zlen [] =? 0) with true. cbv iota.
      split; [intros _; exact X|]. intros _ _. split; [auto|discriminate]. }
    rewrite SWrite_eq by assumption. pose proof (zlen_arrange srt ids vals Hs El) as La.
    destruct Hty as (Ty1 & Ty2 & Ty3).
    set (b := arrange srt (combine ids vals)) in *.
    match goal with |- context [flush false ?x] => set (sw1 := x) end.
    assert (Hb1 : balanced (total + zlen ids) sw1).
    { destruct Hb as (B1 & B2 & B3). unfold balanced, sw1. cbn [sw_pendingIDs sw_pendingValues sw_totalItems]. rewrite !zlen_app, !zlen_map, La.
      split; [lia|]. split; [rewrite B2; f_equal; lia|lia]. }
    assert (Hi1 : SInv nf e sw1 (done ++ b)).
    { destruct Hi as (t & L & Hg & Ht & Hd & Hl & Hu & Hv). exists t, L. unfold sw1. cbn [sw_writer sw_pendingIDs sw_pendingValues].
      assert (Pb : Permutation (combine ids vals) b) by (apply arrange_perm; exact Hs).
      split; [exact Hg|]. split; [exact Ht|].
      split.
      { rewrite combine_app' by (unfold zlen in Hl; lia). rewrite app_assoc, Hd. f_equal. clear.
        induction b as [|[x y] b IH]; [reflexivity|]. cbn. f_equal. exact IH. }
      split; [rewrite !zlen_app, !zlen_map; lia|]. split; apply Forall_app; split; try assumption; apply Forall_map.
      - eapply Permutation_Forall; [exact Pb|]. apply Forall_forall. intros [x y] Hin. apply in_combine_l in Hin. rewrite Forall_forall in Ty1. apply Ty1. exact Hin.
      - eapply Permutation_Forall; [exact Pb|]. apply Forall_forall. intros [x y] Hin. apply in_combine_r in Hin. rewrite Forall_forall in Ty2. apply Ty2. exact Hin. }
    assert (Hm : zlen (sw_pendingIDs sw1) <= max_items).
    { unfold sw1. cbn [sw_pendingIDs]. rewrite zlen_app, zlen_map, La. unfold max_items. lia. }
    pose proof (flush_inv nf e (S (length (sw_pendingIDs sw1))) false sw1 (done ++ b) Hi1 Hm ltac:(lia)) as T.
    pose proof (flush_balanced (S (length (sw_pendingIDs sw1))) false sw1 _ Hb1 ltac:(lia)) as U.
    pose proof (flush_closed (S (length (sw_pendingIDs sw1))) false sw1) as V.
    unfold flush. destruct (flushIfNeeded _ false sw1) as [[[]|er|] sw']; [| |contradiction].
    + destruct U as (U1 & _ & U2 & _). cbn [snd] in V. split.
      * intros _. left. split; [rewrite V; exact Hc|]. split; [exact T|]. split; [apply U2; reflexivity|eauto].
      * intros _ _. split; [auto|intros; congruence].
    + destruct U as (_ & _ & _ & U). destruct (U er eq_refl) as (_ & _ & U1 & U2). split.
      * intros [E|[E|E]]; try discriminate; congruence.
      * intros Hnf Hco. tauto.
  - unfold SetTargetBlockSize. rewrite Hc. split.
    + intros _. left. cbn [sw_closed sw_pendingIDs]. split; [first [exact Hc|reflexivity]|]. split; [|split; [exact Hp|exists total; exact Hb]].
      unfold adds. cbn [fst snd]. rewrite app_nil_r.
      destruct Hi as (t & L & Hg & Ht & Hd & Hl & Hu & Hv). exists (u32 size), L. cbn [sw_writer sw_pendingIDs sw_pendingValues].
      split; [|split; [unfold is_u32, u32, two32; lia|auto]].
      destruct Hg as (wg & D & (fs & -> & Hfs) & HD & (B1 & B2 & B3 & B4 & B5 & B6) & HP & HA & HC).
      exists (set_target wg (u32 size)), D. split; [|split; [exact HD|]].
      { exists fs. split; [reflexivity|exact Hfs]. }
      split; [repeat split; assumption|]. split; [exact HP|]. split; [exact HA|exact HC].
    + intros _ _. split; [auto|discriminate].
  - unfold SClose. rewrite Hc.
    pose proof (flush_inv nf e (S (length (sw_pendingIDs sw))) true sw done Hi ltac:(unfold max_items; lia) ltac:(lia)) as T.
    pose proof (flush_balanced (S (length (sw_pendingIDs sw))) true sw _ Hb ltac:(lia)) as U.
    pose proof (flush_closed (S (length (sw_pendingIDs sw))) true sw) as V.
    unfold flush. destruct (flushIfNeeded _ true sw) as [[[]|er|] sw1]; [| |contradiction].
    2:{ destruct U as (_ & _ & _ & U). destruct (U er eq_refl) as (_ & _ & U1 & U2). split.
        - intros [E|[E|E]]; try discriminate; congruence.
        - intros Hnf Hco. tauto. }
    destruct U as (_ & _ & U & _). destruct (U eq_refl) as [_ U1]. specialize (U1 eq_refl). cbn [snd] in V.
    destruct T as (t & L & Hg & Ht & Hd & Hl & _). rewrite U1 in Hd. cbn [combine] in Hd. rewrite app_nil_r in Hd.
    pose proof (Finalize_good nf e t L _ True now _ Hg) as F. unfold FinalizeAndClose, mbind.
    destruct (Finalize now (sw_writer sw1)) as [[u|er|] w1] eqn:EF; [| |contradiction].
    + destruct F as (Fg & (X0 & L' & off & HL' & HF & _) & F3 & F4 & F5).
      pose proof (closeFile_closes w1) as (C1 & C2 & C3 & C4 & _).
      assert (Q : nf -> exists u, fst (closeFile w1) = Ok u).
      { intros Hnf. destruct Fg as (wg & D & (fs & -> & Hfs) & _). specialize (Hfs Hnf). unfold closeFile, mfile, file_close.
        cbn [w_file set_file f_open f_faults]. destruct fs as [|[|k] fs]; cbn; eauto. inversion Hfs; discriminate. }
      assert (Z0 : forall e', fst (closeFile w1) = Err e' -> e' <> ErrLength /\ e' <> ErrClosed).
      { intros e'. unfold closeFile, mfile, file_close. destruct (f_open (w_file w1)); [|cbn; intros E; injection E as <-; split; discriminate].
        destruct (f_faults (w_file w1)) as [|[|k] fs]; cbn; intros E; try discriminate; injection E as <-; split; discriminate. }
      destruct (closeFile w1) as [[u'|er|] w2]; cbn [fst snd] in *.
      * split; [|intros _ _; split; [auto|discriminate]]. intros _. right. split; [reflexivity|].
        unfold adds. cbn [fst snd]. rewrite app_nil_r.
        exists t, L', now, X0, off. unfold file_of, bytes_of. cbn [sw_writer]. rewrite C2, C3, C4, F3, F4, HL'.
        split; [exact Ht|]. split; [exact Hd|]. split; [exact HF|].
        split; [|reflexivity]. apply (f_equal (@length _)) in HL'. rewrite !map_length in HL'. unfold zlen, pblock in *. rewrite HL'. reflexivity.
      * split; [|intros Hnf _; destruct (Q Hnf); discriminate]. intros [E|[E|E]]; try discriminate; injection E as ->; destruct (Z0 _ eq_refl); congruence.
      * split; [intros [E|[E|E]]; discriminate|intros Hnf _; destruct (Q Hnf); discriminate].
    + destruct F as [F _]. split; [|tauto].
      intros [E|[E|E]]; try discriminate; injection E as ->; apply tame_Finalize in EF; destruct EF as (_ & _ & P1 & P2); congruence.
Qed.

Lemma history_state (nf : Prop) srt e cs : sorts srt -> Forall typed_scall cs -> forall sw done outs sw',
  SState nf e sw done -> run_scalls srt cs sw = (outs, sw') -> undisturbed (combine cs outs) ->
  SState nf e sw' (done ++ flat_map (adds srt) (combine cs outs)).
Proof.
  intros Hs. induction 1 as [|c cs Hc _ IH]; intros sw done outs sw' HS H Hu; cbn [run_scalls] in H.
  - injection H as <- <-. cbn. rewrite app_nil_r. exact HS.
  - pose proof (call_state' nf srt e c sw done Hs Hc HS) as T. destruct (run_scall srt c sw) as [r sw1].
    destruct (run_scalls srt cs sw1) as [rs sw2] eqn:E. injection H as <- <-. cbn [combine flat_map]. rewrite app_assoc.
    destruct T as [T _]. eapply IH; [|exact E|intros c' r' Hin; apply Hu with (c := c'); right; exact Hin].
    apply T. apply Hu with (c := c). left. reflexivity.
Qed.

Lemma new_state (nf : Prop) now options faults sw : (nf -> nofault faults) -> Forall typed_option options ->
  NewSimpleWriter now options faults = Ok sw -> SState nf (encoding_of options) sw [].
Proof.
  intros Hn Ho H. destruct (NewSimple_fresh _ _ _ _ H) as (w & f & Hw & ->). left. split; [reflexivity|].
  pose proof (NewWriter_good nf now options faults w f Hn Hw) as Hg. split; [|split; [reflexivity|exists 0; repeat split; cbn; lia]].
  exists (target_of options), []. split; [exact Hg|]. split; [apply configured_typed; exact Ho|]. repeat split; constructor.
Qed.

Lemma adds_written srt h : flat_map (adds srt) h = concat (map (arrange srt) (written h)).
Proof.
  unfold written. induction h as [|[c r] h IH]; [reflexivity|]. cbn [flat_map]. rewrite IH, map_app, concat_app. f_equal.
  unfold adds. cbn [fst snd]. destruct c; try reflexivity. destruct r; try reflexivity. cbn. rewrite app_nil_r. reflexivity.
Qed.

(** ** isSorted decides the order *)
Lemma isSorted_ordered b : isSorted (map fst b) = true <-> ordered b.
Proof.
  unfold ordered. split.
  - intros H. apply Sorted_StronglySorted; [intros x y z; unfold by_id; lia|].
    induction b as [|p b IH]; [constructor|]. destruct b as [|q b]; [constructor; constructor|]. cbn [map isSorted] in H.
    destruct (Z.ltb_spec (fst q) (fst p)); [discriminate|]. constructor; [apply IH; exact H|]. constructor. unfold by_id. lia.
  - induction 1 as [|p b H IH HF]; [reflexivity|]. destruct b as [|q b]; [reflexivity|]. cbn [map isSorted] in *.
    inversion HF as [|? ? Hq _]; subst. unfold by_id in Hq. destruct (Z.ltb_spec (fst q) (fst p)); [lia|exact IH].
Qed.
Lemma arrange_arrives srt b : sorts srt -> arrives b (arrange srt b).
Proof.
  intros Hs. split; [apply arrange_perm; exact Hs|]. unfold arrange. destruct (isSorted (map fst b)) eqn:E.
  - split; [apply isSorted_ordered; exact E|reflexivity].
  - split; [apply Hs|]. intros H. apply isSorted_ordered in H. congruence.
Qed.

(** ** Closed files *)
Theorem simple_closed srt options faults h sw : simple_run srt options faults h sw -> sorts srt -> undisturbed h ->
  IsClosed sw = true -> fits (sw_writer sw) (file_of sw) ->
  exists t now L off X,
    finalized (file_of sw) X now (encoding_of options) t L (fold_left bm_set (flat_map fst (map snd L)) bm_new) off
    /\ within_limits (file_of sw) (encoding_of options) t L (fold_left bm_set (flat_map fst (map snd L)) bm_new)
    /\ all_pairs (map snd L) = concat (map (arrange srt) (written h)).
Proof.
  intros [now0 sw0 cs outs Hnew Hopt Hty Hrun ->] Hs Hu Hcl Hfit.
  pose proof (new_state False now0 options faults sw0 ltac:(tauto) Hopt Hnew) as H0.
  pose proof (history_state False srt _ cs Hs Hty _ _ _ _ H0 Hrun Hu) as [(Hc & _)|(_ & Hd)]; [unfold IsClosed in Hcl; congruence|].
  destruct Hd as (t & L & now & X & off & Ht & Hp & HF & Hcnt & Hids). exists t, now, L, off, X.
  split; [exact HF|]. split.
  - destruct Hfit as [F1 F2 F3]. constructor; [exact F1|unfold pblock in *; rewrite <- Hcnt; exact F2|apply configured_typed; exact Hopt|exact Ht|rewrite <- Hids; exact F3].
  - rewrite Hp. cbn [app]. apply adds_written.
Qed.

Theorem simple_contents srt options faults h sw : simple_run srt options faults h sw -> sorts srt -> undisturbed h ->
  IsClosed sw = true -> fits (sw_writer sw) (file_of sw) -> faithful (encoding_of options) ->
  exists r blocks, NewReader (file_of sw) = Ok r /\ view r blocks /\ all_pairs blocks = concat (map (arrange srt) (written h)).
Proof.
  intros H1 H2 H3 H4 H5 He. destruct (simple_closed _ _ _ _ _ H1 H2 H3 H4 H5) as (t & now & L & off & X & HF & HL & HP).
  eexists _, (map snd L). split; [eapply NewReader_finalized; eassumption|]. split; [eapply finalized_view; eassumption|exact HP].
Qed.

(** C15 *)
Theorem simple_read_back srt options faults h sw : simple_run srt options faults h sw -> sorts srt -> undisturbed h ->
  IsClosed sw = true -> fits (sw_writer sw) (file_of sw) -> faithful (encoding_of options) ->
  exists r blocks outs, NewReader (file_of sw) = Ok r /\ BlockCount r = zlen blocks
    /\ (forall i, is_u64 i -> GetPairs r i = match nth_error blocks (Z.to_nat i) with Some b => Ok b | None => Err ErrIndex end)
    /\ Forall2 arrives (written h) outs /\ all_pairs blocks = concat outs.
Proof.
  intros H1 H2 H3 H4 H5 He. destruct (simple_contents _ _ _ _ _ H1 H2 H3 H4 H5 He) as (r & blocks & HR & HV & HP).
  exists r, blocks, (map (arrange srt) (written h)). split; [exact HR|]. split; [apply HV|]. split; [apply HV|]. split; [|exact HP].
  clear - H2. induction (written h) as [|b l IH]; cbn [map]; constructor; [apply arrange_arrives; exact H2|exact IH].
Qed.

(** No faults, no errors *)
Theorem simple_no_errors srt now options faults cs : sorts srt -> fault_free faults -> Forall typed_option options ->
  consistent (encoding_of options) -> Forall typed_scall cs ->
  exists sw0 outs sw, NewSimpleWriter now options faults = Ok sw0 /\ run_scalls srt cs sw0 = (outs, sw)
    /\ simple_run srt options faults (combine cs outs) sw /\ undisturbed (combine cs outs)
    /\ forall h1 c r h2, combine cs outs = h1 ++ (c, r) :: h2 ->
         (forall now', c = SCClose now' -> r = Ok tt)
         /\ ((forall now' r', ~ In (SCClose now', r') h1) ->
             r = Ok tt \/ exists ids vals, c = SCWrite ids vals /\ zlen ids <> zlen vals /\ r = Err ErrLength).
Proof.
  intros Hs Hff Ho He Hty.
  destruct (no_faults_no_errors now options faults [] Hff Ho He ltac:(constructor) ltac:(intros c [])) as (w0 & f0 & _ & _ & Hw & _).
  assert (Hnew : NewSimpleWriter now options faults = Ok (mkSW w0 [] [] 131072 false 0)) by (unfold NewSimpleWriter; rewrite Hw; reflexivity).
  pose proof (new_state True now options faults _ (fun _ => Hff) Ho Hnew) as H0.
  exists (mkSW w0 [] [] 131072 false 0). destruct (run_scalls srt cs (mkSW w0 [] [] 131072 false 0)) as [outs sw] eqn:Hrun.
  exists outs, sw. split; [exact Hnew|]. split; [reflexivity|]. split; [econstructor; try eassumption; reflexivity|].
  assert (G : forall sw1, (exists done, SState True (encoding_of options) sw1 done) -> forall outs sw, run_scalls srt cs sw1 = (outs, sw) ->
    undisturbed (combine cs outs)
    /\ forall h1 c r h2, combine cs outs = h1 ++ (c, r) :: h2 ->
         (forall now', c = SCClose now' -> r = Ok tt)
         /\ (sw_closed sw1 = false -> (forall now' r', ~ In (SCClose now', r') h1) ->
             r = Ok tt \/ exists ids vals, c = SCWrite ids vals /\ zlen ids <> zlen vals /\ r = Err ErrLength)).
  { clear Hnew H0 Hrun Hw outs sw. induction Hty as [|c cs Hc _ IH]; intros sw1 (done & HS) outs sw Hrun; cbn [run_scalls] in Hrun.
    - injection Hrun as <- <-. split; [intros c r []|]. intros h1 c r h2 E. destruct h1; discriminate.
    - pose proof (call_state' True srt _ c sw1 done Hs Hc HS) as T.
      assert (V : sw_closed sw1 = false -> (forall now', c <> SCClose now') -> sw_closed (snd (run_scall srt c sw1)) = false).
      { intros Hcl Hn. destruct c as [ids vals|size|now']; [| |destruct (Hn now' eq_refl)]; cbn [run_scall].
        - unfold SWrite. rewrite Hcl. destruct (negb (_ =? _)); [exact Hcl|]. destruct (_ =? 0); [exact Hcl|].
          destruct (if negb (isSorted ids) then _ else _) as [a b]. unfold flush. rewrite flush_closed. reflexivity.
        - unfold SetTargetBlockSize. rewrite Hcl. reflexivity. }
      destruct (run_scall srt c sw1) as [r sw2].
      destruct (run_scalls srt cs sw2) as [rs sw3] eqn:E. injection Hrun as <- <-.
      destruct T as [T1 T2]. destruct (T2 I He) as [T3 T4]. clear T2.
      assert (R : r = Ok tt \/ r = Err ErrLength \/ r = Err ErrClosed).
      { destruct (sw_closed sw1); [destruct (T4 eq_refl) as [[_ ->]|(? & _ & ->)]|destruct (T3 eq_refl) as [->|(? & ? & _ & _ & ->)]]; auto. }
      destruct (IH sw2 (ex_intro _ _ (T1 R)) rs sw3 E) as [I1 I2]. cbn [combine]. split.
      + intros c' r' [Eq|Hin]; [injection Eq as <- <-; exact R|eapply I1; exact Hin].
      + intros h1 c' r' h2 Eq. destruct h1 as [|p h1]; cbn in Eq; [injection Eq as -> -> _|injection Eq as <- Eq].
        * split; [|intros Hcl _; apply T3; exact Hcl]. intros now' ->. destruct (sw_closed sw1).
          -- destruct (T4 eq_refl) as [[N _]|(? & _ & ->)]; [destruct (N now' eq_refl)|reflexivity].
          -- destruct (T3 eq_refl) as [->|(? & ? & ? & _)]; [reflexivity|discriminate].
        * destruct (I2 h1 c' r' h2 Eq) as [J1 J2]. split; [exact J1|]. intros Hcl Hn. apply J2; [|intros now' r0 Hin; eapply Hn; right; exact Hin].
          apply V; [exact Hcl|]. intros now' ->. eapply Hn. left. reflexivity. }
  destruct (G _ (ex_intro _ _ H0) outs sw Hrun) as [G1 G2]. split; [exact G1|].
  intros h1 c r h2 E. destruct (G2 h1 c r h2 E) as [G3 G4]. split; [exact G3|]. apply G4. reflexivity.
Qed.


(** ** Failing writes lose nothing *)
Definition SLive (e : Z) (sw : swriter) (sub : list (Z * Z)) : Prop :=
  zlen (sw_pendingIDs sw) = zlen (sw_pendingValues sw)
  /\ Forall is_u64 (sw_pendingIDs sw) /\ Forall is_i64 (sw_pendingValues sw)
  /\ (closed (sw_writer sw) \/ exists t blocks A rest, Live False e t blocks A False (sw_writer sw) /\ is_u32 t
      /\ Permutation (sub ++ rest) (all_pairs blocks ++ combine (sw_pendingIDs sw) (sw_pendingValues sw))).

Lemma flush_live e fuel force : forall sw sub, SLive e sw sub -> zlen (sw_pendingIDs sw) <= max_items ->
  SLive e (snd (flushIfNeeded fuel force sw)) sub.
Proof.
  induction fuel as [|fuel IH]; intros sw sub Hi Hm; cbn [flushIfNeeded]; [exact Hi|].
  destruct (Z.eqb_spec (zlen (sw_pendingIDs sw)) 0) as [E0|N0]; [exact Hi|].
  destruct (if force then true else zlen (sw_pendingIDs sw) >=? 1000); [|exact Hi].
  destruct Hi as (Hl & Hu & Hv & [Hcl|(t & blocks & A & rest & HL & Ht & HP)]).
  - destruct (run_call_closed (CWriteBlock (sw_pendingIDs sw) (sw_pendingValues sw)) _ Hcl) as (er & E & _).
    cbn [run_call] in E. unfold mbind, mret in E.
    destruct (WriteBlock _ _ (sw_writer sw)) as [[u|er'|] w'] eqn:Ew; try discriminate. injection E as -> ->.
    assert (X : SLive e (mkSW (sw_writer sw) (sw_pendingIDs sw) (sw_pendingValues sw) (sw_targetBlockSize sw) (sw_closed sw) (sw_totalItems sw)) sub)
      by (split; [exact Hl|]; split; [exact Hu|]; split; [exact Hv|]; left; exact Hcl).
    destruct er; try exact X. destruct (WriteBlock_errors _ _ _ _ _ Hl Ew) as [(n & En & Hn)|[N _]]; [|destruct (N _ eq_refl)].
    injection En as ->. apply IH.
    + cbn [sw_pendingIDs sw_pendingValues sw_writer]. split; [cbn; rewrite !zlen_zdrop; lia|].
      split; [apply Forall_zdrop; exact Hu|]. split; [apply Forall_zdrop; exact Hv|]. left. exact Hcl.
    + cbn. rewrite zlen_zdrop. lia.
  - assert (Hty : typed_block (sw_pendingIDs sw) (sw_pendingValues sw)) by (repeat split; try assumption; lia).
    pose proof (call_live False (CWriteBlock (sw_pendingIDs sw) (sw_pendingValues sw)) e t blocks A False _ Hty HL) as T.
    cbn [run_call] in T. unfold mbind, mret in T.
    assert (KEEP : forall w' bs A', Live False e t (blocks ++ bs) A' (False /\ false = false) w' \/ closed w' ->
      SLive e (mkSW w' (sw_pendingIDs sw) (sw_pendingValues sw) (sw_targetBlockSize sw) (sw_closed sw) (sw_totalItems sw)) sub).
    { intros w' bs A' [HL'|Hc]; (split; [exact Hl|]; split; [exact Hu|]; split; [exact Hv|]); [right|left; exact Hc].
      exists t, (blocks ++ bs), A', (rest ++ all_pairs bs). cbn [sw_writer sw_pendingIDs sw_pendingValues].
      split; [eapply Live_weaken; [|exact HL']; tauto|]. split; [exact Ht|]. rewrite all_pairs_app, app_assoc.
      eapply Permutation_trans; [apply Permutation_app_tail; exact HP|]. rewrite <- !app_assoc. apply Permutation_app_head, Permutation_app_comm. }
    destruct (WriteBlock _ _ (sw_writer sw)) as [[u|er|] w'] eqn:Ew.
    + destruct T as (_ & bs & added & He & [[Hf _]|HL']); [discriminate|].
      assert (bs = [(sw_pendingIDs sw, sw_pendingValues sw)]) as ->
        by (inversion He as [i v n' A1 A2 A3 A4|i v n' ? A1 A2 A3 A4|i v n' ? A1 A2 A3 A4|i v e' n' ? ? ? A1 A2 A3 A4|c r Hn A1 A2 A3 A4]; subst;
            [reflexivity|exfalso; eapply Hn; reflexivity]).
      split; [reflexivity|]. split; [constructor|]. split; [constructor|]. cbn [snd sw_writer sw_pendingIDs sw_pendingValues].
      destruct HL' as [HL'|Hc]; [right|left; exact Hc]. exists t, (blocks ++ [(sw_pendingIDs sw, sw_pendingValues sw)]), (A ++ added), rest.
      split; [eapply Live_weaken; [|exact HL']; tauto|]. split; [exact Ht|]. cbn [combine]. rewrite app_nil_r, all_pairs_app.
      cbn [all_pairs flat_map pairs_of fst snd]. rewrite app_nil_r. exact HP.
    + assert (D : (exists n, er = ErrBlockFull n) \/ (forall n, er <> ErrBlockFull n)) by (destruct er; eauto; right; discriminate).
      destruct T as (_ & bs & added & He & [[Hf _]|HL']); [discriminate|].
      destruct D as [[n ->]|D].
      2:{ specialize (KEEP w' bs _ HL'). destruct er; try exact KEEP. destruct (D _ eq_refl). }
      assert (1 <= n < zlen (sw_pendingIDs sw) /\ bs = [(ztake n (sw_pendingIDs sw), ztake n (sw_pendingValues sw))]) as (Hn & ->).
      { inversion He as [i v n' A1 A2 A3 A4|i v n' ? A1 A2 A3 A4|i v n' ? A1 A2 A3 A4|i v e' n' ? Hx ? A1 A2 A3 A4|c r Hx A1 A2 A3 A4]; subst;
          [auto|exfalso; eapply Hx; reflexivity|exfalso; eapply Hx; reflexivity]. }
      apply IH; [|cbn; rewrite zlen_zdrop; lia].
      split; [cbn; rewrite !zlen_zdrop; lia|]. split; [apply Forall_zdrop; exact Hu|]. split; [apply Forall_zdrop; exact Hv|].
      cbn [sw_writer sw_pendingIDs sw_pendingValues]. destruct HL' as [HL'|Hc]; [right|left; exact Hc].
      eexists t, _, (A ++ added), rest. split; [eapply Live_weaken; [|exact HL']; tauto|]. split; [exact Ht|].
      rewrite all_pairs_app. cbn [all_pairs flat_map pairs_of fst snd]. rewrite app_nil_r, <- app_assoc.
      unfold pairs_of. cbn [fst snd]. rewrite <- combine_split_at by exact Hl. exact HP.
    + destruct T as (N & _). congruence.
Qed.

Definition hand (p : scall * res unit) : list (Z * Z) :=
  match fst p, snd p with
  | SCWrite _ _, Err ErrLength | SCWrite _ _, Err ErrClosed => []
  | SCWrite ids vals, _ => combine ids vals
  | _, _ => []
  end.
Lemma handed_hand h : handed h = flat_map hand h.
Proof. unfold handed. rewrite !flat_map_concat_map. f_equal. apply map_ext. intros [c r]. reflexivity. Qed.

Definition SKept (e : Z) (sw : swriter) (sub : list (Z * Z)) : Prop :=
  exists t L now X off A rest, is_u32 t /\ Permutation (sub ++ rest) (all_pairs (map snd L))
    /\ finalized (file_of sw) X now e t L (fold_left bm_set A bm_new) off
    /\ w_blockCount (sw_writer sw) = zlen L /\ w_ids (sw_writer sw) = fold_left bm_set A bm_new.
Definition SKeep (e : Z) (sw : swriter) (sub : list (Z * Z)) : Prop :=
  (sw_closed sw = false /\ SLive e sw sub) \/ (sw_closed sw = true /\ SKept e sw sub).

Lemma call_keeps srt e c sw sub total : sorts srt -> typed_scall c -> SKeep e sw sub -> balanced total sw ->
  (sw_closed sw = true -> sw_pendingIDs sw = []) -> total <= 100000000 ->
  let '(r, sw') := run_scall srt c sw in
  (forall now, c = SCClose now -> r = Ok tt \/ 0 < buffered sw' \/ offset_at_end (sw_writer sw')) ->
  SKeep e sw' (sub ++ hand (c, r)).
Proof.
  intros Hs Hty HS Hb Hpc Htot. pose proof (call_balanced srt c sw total Hs Hb Hpc) as CB.
  destruct HS as [(Hc & Hi)|(Hc & Hd)].
  2:{ assert (X : SKeep e sw (sub ++ [])) by (rewrite app_nil_r; right; auto).
      destruct c as [ids vals|size|now]; cbn [run_scall]; unfold SWrite, SetTargetBlockSize, SClose; rewrite Hc; intros _; exact X. }
  assert (X : SKeep e sw (sub ++ [])) by (rewrite app_nil_r; left; auto).
  assert (Hpend : zlen (sw_pendingIDs sw) <= total) by apply Hb.
  destruct c as [ids vals|size|now]; cbn [run_scall] in *.
  - destruct (Z.eq_dec (zlen ids) (zlen vals)) as [El|Nl].
    2:{ unfold SWrite. rewrite Hc. replace (zlen ids =? zlen vals) with false by lia. intros _. exact X. }
    destruct (list_eq_dec Z.eq_dec ids []) as [->|Nn].
    { unfold SWrite. rewrite Hc. replace (zlen [] =? zlen vals) with true by lia. cbn [negb]. change (zlen [] =? 0) with true. intros _. exact X. }
    rewrite SWrite_eq in * by assumption. pose proof (zlen_arrange srt ids vals Hs El) as La.
    destruct Hty as (Ty1 & Ty2 & Ty3). set (b := arrange srt (combine ids vals)) in *.
    assert (Pb : Permutation (combine ids vals) b) by (apply arrange_perm; exact Hs).
    match goal with |- context [flush false ?x] => set (sw1 := x) in * end.
    assert (Hb1 : balanced (total + zlen ids) sw1).
    { destruct Hb as (B1 & B2 & B3). unfold balanced, sw1. cbn [sw_pendingIDs sw_pendingValues sw_totalItems]. rewrite !zlen_app, !zlen_map, La.
      split; [lia|]. split; [rewrite B2; f_equal; lia|lia]. }
    assert (Hm : zlen (sw_pendingIDs sw1) <= max_items).
    { unfold sw1. cbn [sw_pendingIDs]. rewrite zlen_app, zlen_map, La. unfold max_items. lia. }
    assert (Hi1 : SLive e sw1 (sub ++ combine ids vals)).
    { destruct Hi as (Hl & Hu & Hv & HL). unfold sw1. split; [cbn; rewrite !zlen_app, !zlen_map; lia|].
      split; [|split]; [apply Forall_app; split; [exact Hu|]; apply Forall_map; eapply Permutation_Forall; [exact Pb|]; apply Forall_forall; intros [x y] Hin; apply in_combine_l in Hin; rewrite Forall_forall in Ty1; apply Ty1; exact Hin
        |apply Forall_app; split; [exact Hv|]; apply Forall_map; eapply Permutation_Forall; [exact Pb|]; apply Forall_forall; intros [x y] Hin; apply in_combine_r in Hin; rewrite Forall_forall in Ty2; apply Ty2; exact Hin|].
      cbn [sw_writer sw_pendingIDs sw_pendingValues]. destruct HL as [HL|(t & blocks & A & rest & HL & Ht & HP)]; [left; exact HL|right].
      exists t, blocks, A, rest. split; [exact HL|]. split; [exact Ht|].
      rewrite combine_app' by (unfold zlen in Hl; lia). replace (combine (map fst b) (map snd b)) with b by (clear; induction b as [|[x y] b IH]; [reflexivity|cbn; f_equal; exact IH]).
      rewrite app_assoc. eapply Permutation_trans; [|apply Permutation_app; [exact HP|exact Pb]].
      rewrite <- !app_assoc. apply Permutation_app_head, Permutation_app_comm. }
    pose proof (flush_live e (S (length (sw_pendingIDs sw1))) false sw1 _ Hi1 Hm) as T.
    pose proof (flush_balanced (S (length (sw_pendingIDs sw1))) false sw1 _ Hb1 ltac:(lia)) as U.
    pose proof (flush_closed (S (length (sw_pendingIDs sw1))) false sw1) as V.
    unfold flush. destruct (flushIfNeeded _ false sw1) as [r sw']. cbn [snd] in *. intros _.
    left. split; [rewrite V; exact Hc|]. replace (hand (SCWrite ids vals, r)) with (combine ids vals); [exact T|].
    unfold hand. cbn [fst snd]. destruct r as [u|er|]; try reflexivity. destruct U as (_ & _ & _ & U). destruct (U er eq_refl) as (_ & _ & U1 & U2).
    destruct er; try reflexivity; congruence.
  - unfold SetTargetBlockSize in *. rewrite Hc in *. intros _. left. cbn [sw_closed]. split; [reflexivity|]. unfold hand. cbn [fst snd]. rewrite app_nil_r.
    destruct Hi as (Hl & Hu & Hv & HL). repeat (split; [assumption|]). cbn [sw_writer sw_pendingIDs sw_pendingValues].
    destruct HL as [HL|(t & blocks & A & rest & HL & Ht & HP)]; [left; exact HL|right].
    exists (u32 size), blocks, A, rest. split; [|split; [unfold is_u32, u32, two32; lia|exact HP]].
    destruct HL as [(L & HLb & wg & D & (fs & -> & Hfs) & HD & (B1 & B2 & B3 & B4 & B5 & B6) & HPl & HA & HC)|HB]; [left|right].
    + exists L. split; [exact HLb|]. exists (set_target wg (u32 size)), D. split; [exists fs; split; [reflexivity|exact Hfs]|].
      split; [exact HD|]. split; [repeat split; assumption|]. split; [exact HPl|]. split; [exact HA|exact HC].
    + destruct HB as (wg & p & (D & (fs & -> & Hfs) & Hp) & B1 & B2 & B3 & B4 & B5 & B6 & B7 & B8).
      exists (set_target wg (u32 size)), p. split; [exists D; split; [exists fs; split; [reflexivity|exact Hfs]|exact Hp]|].
      repeat (split; [assumption || reflexivity|]). assumption.
  - unfold SClose in *. rewrite Hc in *.
    pose proof (flush_live e (S (length (sw_pendingIDs sw))) true sw sub Hi ltac:(unfold max_items; lia)) as T.
    pose proof (flush_balanced (S (length (sw_pendingIDs sw))) true sw _ Hb ltac:(lia)) as U.
    pose proof (flush_closed (S (length (sw_pendingIDs sw))) true sw) as V.
    unfold flush in *. destruct (flushIfNeeded _ true sw) as [[[]|er|] sw1]; cbn [snd] in *.
    2:{ intros _. left. split; [rewrite V; exact Hc|]. unfold hand. cbn [fst snd]. rewrite app_nil_r. exact T. }
    2:{ intros _. left. split; [rewrite V; exact Hc|]. unfold hand. cbn [fst snd]. rewrite app_nil_r. exact T. }
    destruct U as (_ & _ & U & _). destruct (U eq_refl) as [_ U1]. specialize (U1 eq_refl).
    assert (FAIL : forall r er w', FinalizeAndClose now (sw_writer sw1) = (r, w') -> r = Err er \/ r = Panic ->
      r <> Ok tt -> 0 < zlen (sw_pendingIDs sw1) \/ offset_at_end w' ->
      SLive e (mkSW w' (sw_pendingIDs sw1) (sw_pendingValues sw1) (sw_targetBlockSize sw1) (sw_closed sw1) (sw_totalItems sw1)) sub).
    { intros r er w' EF Hr Hr' Hend. destruct Hend as [Hend|Hend]; [rewrite U1 in Hend; change (zlen (@nil Z)) with 0 in Hend; lia|].
      destruct T as (Hl & Hu & Hv & HT). split; [exact Hl|]. split; [exact Hu|]. split; [exact Hv|]. cbn [sw_writer sw_pendingIDs sw_pendingValues].
      destruct HT as [Hcl|(t & blocks & A & rest & HL & Ht & HP)].
      - left. destruct (run_call_closed (CFinalizeAndClose now) _ Hcl) as (er' & E & _). cbn [run_call] in E. unfold mbind, mret in E.
        rewrite EF in E. destruct r as [u|er''|]; [discriminate E| |discriminate E]. injection E as _ ->. exact Hcl.
      - pose proof (call_live False (CFinalizeAndClose now) e t blocks A False _ I HL) as C. cbn [run_call] in C. unfold mbind, mret in C.
        rewrite EF in C. destruct r as [[]|er''|]; [congruence| |destruct C as [C _]; congruence].
        destruct C as (_ & bs & added & He & [(_ & _ & N)|[HL'|Hc']]); [contradiction| |left; exact Hc'].
        right. inversion He as [| | | |c r Hx A1 A2 A3 A4]; subst. rewrite !app_nil_r in HL'.
        exists t, blocks, A, rest. split; [eapply Live_weaken; [|exact HL']; tauto|]. auto. }
    destruct (FinalizeAndClose now (sw_writer sw1)) as [[u|er|] w'] eqn:EF; intros H; specialize (H now eq_refl).
    2:{ left. cbn [sw_closed]. split; [rewrite V; exact Hc|]. unfold hand. cbn [fst snd]. rewrite app_nil_r.
        apply (FAIL (Err er) er w' eq_refl); [auto|discriminate|]. destruct H as [H|H]; [discriminate|exact H]. }
    2:{ left. cbn [sw_closed]. split; [rewrite V; exact Hc|]. unfold hand. cbn [fst snd]. rewrite app_nil_r.
        apply (FAIL Panic ErrIO w' eq_refl); [auto|discriminate|]. destruct H as [H|H]; [discriminate|exact H]. }
    assert (EF' : run_call (CFinalizeAndClose now) (sw_writer sw1) = (Ok 0, w')) by (cbn [run_call]; unfold mbind; rewrite EF; reflexivity).
    destruct T as (Hl & Hu & Hv & [Hcl|(t & blocks & A & rest & HL & Ht & HP)]).
    { destruct (run_call_closed (CFinalizeAndClose now) _ Hcl) as (er & E & _). rewrite E in EF'. discriminate. }
    right. split; [reflexivity|]. rewrite U1 in HP. cbn [combine] in HP. rewrite app_nil_r in HP.
    destruct (finalize_readable False _ _ _ _ _ _ _ _ _ _ HL (or_intror eq_refl) EF') as ((X0 & L & off & HLb & HF & _) & F3 & F4).
    exists t, L, now, X0, off, A, rest. unfold hand. cbn [fst snd]. rewrite app_nil_r. split; [exact Ht|].
    split; [rewrite HLb; exact HP|]. split; [exact HF|]. cbn [sw_writer]. split; [|exact F4].
    rewrite F3, <- HLb, zlen_map. reflexivity.
Qed.

Lemma submitted_app h1 h2 : submitted (h1 ++ h2) = submitted h1 + submitted h2.
Proof.
  rewrite !submitted_sum, map_app. generalize (map taken h1) (map taken h2). intros a b. unfold zsum.
  induction a as [|x a IH]; cbn [app fold_right]; lia.
Qed.
Lemma taken_nonneg p : 0 <= taken p.
Proof. destruct p as [[ids vals|size|now] r]; unfold taken; cbn [fst snd]; [|lia|lia]. pose proof (zlen_nonneg ids). destruct r as [u|[]|]; lia. Qed.
Lemma submitted_nonneg h : 0 <= submitted h.
Proof. rewrite submitted_sum. unfold zsum. induction h as [|p h IH]; cbn [map fold_right]; [lia|]. pose proof (taken_nonneg p). lia. Qed.

Lemma history_keeps srt e cs : sorts srt -> Forall typed_scall cs -> forall sw sub total outs sw',
  SKeep e sw sub -> balanced total sw -> (sw_closed sw = true -> sw_pendingIDs sw = []) ->
  run_scalls srt cs sw = (outs, sw') -> closes_ok srt cs sw ->
  total + submitted (combine cs outs) <= 100000000 ->
  SKeep e sw' (sub ++ flat_map hand (combine cs outs)).
Proof.
  intros Hs. induction 1 as [|c cs Hc _ IH]; intros sw sub total outs sw' HS Hb Hp H Hu Ht; cbn [run_scalls] in H.
  - injection H as <- <-. cbn. rewrite app_nil_r. exact HS.
  - assert (Ht0 : total <= 100000000) by (pose proof (submitted_nonneg (combine (c :: cs) outs)); lia).
    pose proof (call_keeps srt e c sw sub total Hs Hc HS Hb Hp Ht0) as T.
    pose proof (call_balanced srt c sw total Hs Hb Hp) as CB. cbn [closes_ok] in Hu. destruct (run_scall srt c sw) as [r sw1].
    destruct (run_scalls srt cs sw1) as [rs sw2] eqn:E. injection H as <- <-. cbn [combine flat_map] in *. rewrite app_assoc.
    destruct Hu as [Hu1 Hu2].
    destruct CB as (C1 & C2 & _). eapply IH; [|exact C1|exact C2|exact E|exact Hu2|].
    + apply T. exact Hu1.
    + rewrite submitted_sum in *. unfold zsum in *. cbn [map fold_right] in Ht. lia.
Qed.

Theorem nothing_lost srt options faults h sw : safe_simple_run srt options faults h sw -> sorts srt ->
  submitted h <= 100000000 ->
  IsClosed sw = true -> fits (sw_writer sw) (file_of sw) -> faithful (encoding_of options) ->
  exists r blocks rest, NewReader (file_of sw) = Ok r /\ BlockCount r = zlen blocks
    /\ (forall i, is_u64 i -> GetPairs r i = match nth_error blocks (Z.to_nat i) with Some b => Ok b | None => Err ErrIndex end)
    /\ Permutation (all_pairs blocks) (handed h ++ rest).
Proof.
  intros [now0 sw0 cs outs Hnew Hopt Hty Hrun -> Hu] Hs Hsub Hcl Hfit He.
  destruct (NewSimple_fresh _ _ _ _ Hnew) as (w & f & Hw & ->).
  pose proof (NewWriter_live False now0 options faults w f ltac:(tauto) Hw) as HL.
  assert (H0 : SKeep (encoding_of options) (mkSW w [] [] 131072 false 0) []).
  { left. split; [reflexivity|]. split; [reflexivity|]. split; [constructor|]. split; [constructor|]. right.
    exists (target_of options), [], [], []. split; [eapply Live_weaken; [|exact HL]; tauto|]. split; [apply configured_typed; exact Hopt|constructor]. }
  destruct (history_keeps srt _ cs Hs Hty _ _ 0 _ _ H0 ltac:(repeat split; cbn; lia) ltac:(discriminate) Hrun Hu ltac:(lia)) as [[Hc _]|[_ HK]].
  { unfold IsClosed in Hcl. congruence. }
  destruct HK as (t & L & now & X & off & A & rest & Ht & HP & HF & Hcnt & Hids). cbn [app] in HP.
  assert (Hlim : within_limits (file_of sw) (encoding_of options) t L (fold_left bm_set A bm_new)).
  { destruct Hfit as [F1 F2 F3]. constructor; [exact F1|unfold pblock in *; rewrite <- Hcnt; exact F2|apply configured_typed; exact Hopt|exact Ht|rewrite <- Hids; exact F3]. }
  pose proof (finalized_view _ _ _ _ _ _ _ _ HF Hlim He) as HV.
  eexists _, (map snd L), rest. split; [eapply NewReader_finalized; eassumption|]. split; [apply HV|]. split; [apply HV|].
  rewrite handed_hand. apply Permutation_sym. exact HP.
Qed.

(** C17 *)
Theorem close_closes now sw sw' : SClose now sw = (Ok tt, sw') -> IsClosed sw' = true.
Proof.
  unfold SClose, IsClosed. destruct (sw_closed sw) eqn:Hc; [intros H; injection H as <-; exact Hc|].
  destruct (flush true sw) as [[u|e|] sw1]; try discriminate.
  destruct (FinalizeAndClose now (sw_writer sw1)) as [[u'|e|] w']; intros H; try discriminate. injection H as <-. reflexivity.
Qed.
Theorem closed_inert srt cs : forall sw outs sw', IsClosed sw = true -> run_scalls srt cs sw = (outs, sw') ->
  sw' = sw /\ Forall2 (fun c r => r = match c with SCClose _ => Ok tt | _ => Err ErrClosed end) cs outs.
Proof.
  induction cs as [|c cs IH]; intros sw outs sw' Hc H; cbn [run_scalls] in H; [injection H as <- <-; split; [reflexivity|constructor]|].
  assert (R : run_scall srt c sw = (match c with SCClose _ => Ok tt | _ => Err ErrClosed end, sw)).
  { unfold IsClosed in Hc. destruct c; cbn [run_scall]; unfold SWrite, SetTargetBlockSize, SClose; rewrite Hc; reflexivity. }
  rewrite R in H. destruct (run_scalls srt cs sw) as [rs sw2] eqn:E. injection H as <- <-.
  destruct (IH _ _ _ Hc E) as [-> F]. split; [reflexivity|]. constructor; [reflexivity|exact F].
Qed.

(** C18 *)
Context {Lw : SroarLaws Srr}.
Theorem target_independent srt o1 f1 h1 sw1 o2 f2 h2 sw2 : sorts srt ->
  simple_run srt o1 f1 h1 sw1 -> undisturbed h1 -> IsClosed sw1 = true -> fits (sw_writer sw1) (file_of sw1) -> faithful (encoding_of o1) ->
  simple_run srt o2 f2 h2 sw2 -> undisturbed h2 -> IsClosed sw2 = true -> fits (sw_writer sw2) (file_of sw2) -> faithful (encoding_of o2) ->
  written h1 = written h2 ->
  exists r1 r2 blocks1 blocks2, NewReader (file_of sw1) = Ok r1 /\ NewReader (file_of sw2) = Ok r2
    /\ (forall i, is_u64 i -> GetPairs r1 i = match nth_error blocks1 (Z.to_nat i) with Some b => Ok b | None => Err ErrIndex end)
    /\ (forall i, is_u64 i -> GetPairs r2 i = match nth_error blocks2 (Z.to_nat i) with Some b => Ok b | None => Err ErrIndex end)
    /\ all_pairs blocks1 = all_pairs blocks2
    /\ forall skip allow deny, skip = true \/ allow <> None \/ deny <> None ->
         exists res1 res2, aggregateSequential r1 (mkOpts skip allow deny 0) = Ok res1
           /\ aggregateSequential r2 (mkOpts skip allow deny 0) = Ok res2
           /\ a_count res1 = a_count res2 /\ a_sum res1 = a_sum res2 /\ a_avg res1 = a_avg res2
           /\ (0 < a_count res1 -> res1 = res2).
Proof.
  intros Hs R1 U1 C1 F1 E1 R2 U2 C2 F2 E2 HW.
  destruct (simple_contents _ _ _ _ _ R1 Hs U1 C1 F1 E1) as (r1 & b1 & N1 & V1 & P1).
  destruct (simple_contents _ _ _ _ _ R2 Hs U2 C2 F2 E2) as (r2 & b2 & N2 & V2 & P2).
  exists r1, r2, b1, b2. split; [exact N1|]. split; [exact N2|]. split; [apply V1|]. split; [apply V2|].
  assert (HP : all_pairs b1 = all_pairs b2) by (rewrite P1, P2, HW; reflexivity). split; [exact HP|].
  intros skip allow deny Ho. set (o := mkOpts skip allow deny 0).
  exists (answer r1 o b1), (answer r2 o b2).
  assert (NF : forall r, uses_footer r o = true -> False).
  { intros r. unfold uses_footer, o, has_filter. cbn. destruct skip, allow, deny; cbn; rewrite ?andb_false_r; try discriminate.
    intros _. destruct Ho as [?|[?|?]]; congruence. }
  split; [apply sequential_answer; [exact V1|intros Hf; destruct (NF _ Hf)]|].
  split; [apply sequential_answer; [exact V2|intros Hf; destruct (NF _ Hf)]|].
  pose proof (answer_aggregate r1 b1 o (v_indexed _ _ V1)) as A1.
  pose proof (answer_aggregate r2 b2 o (v_indexed _ _ V2)) as A2.
  assert (HC : chosen (o_filter o) (o_deny o) b1 = chosen (o_filter o) (o_deny o) b2) by (unfold chosen; rewrite HP; reflexivity).
  rewrite <- HC in A2. set (vs := chosen (o_filter o) (o_deny o) b1) in *.
  pose proof A1 as (X1 & X2 & _ & X4 & X5). pose proof A2 as (Y1 & Y2 & _ & Y4 & Y5).
  split; [congruence|]. split; [congruence|]. split.
  - destruct vs as [|v vs]; [rewrite X4, Y4 by reflexivity; reflexivity|]. rewrite X5, Y5 by discriminate. reflexivity.
  - intros Hpos. apply (aggregate_unique vs); [|exact A1|exact A2]. intros ->. rewrite X1 in Hpos. change (zlen (@nil Z)) with 0 in Hpos. lia.
Qed.

End Simple.
