(** A block with sections of more than 2^32 bytes together. *)
From Coq Require Import Lia ZArith.
From Verif Require Import Machine MachineFacts Encoding EncodingFacts FileIO Sroar Writer Spec FileFacts WriterFacts BlockFacts FinalFacts Reader ReaderFacts Aggregate.
Ltac Zify.zify_post_hook ::= Z.div_mod_to_equations.

(** A block whose sections, as fixed-width integers, have sizes below 2^32. *)
Definition large_block (ids vals : list Z) : Prop :=
  Forall is_u64 ids /\ Forall is_i64 vals /\ zlen ids = zlen vals /\ 1 <= zlen ids /\ zlen ids * 8 < two32.

Lemma raw_chunks_len ids vals : zlen (concat (id_chunks 0 ids)) = zlen ids * 8 /\ zlen (concat (val_chunks 0 vals)) = zlen vals * 8.
Proof. unfold id_chunks, val_chunks. change (useVarIntForIDs 0) with false. change (useVarIntForValues 0) with false. cbv iota. rewrite !zlen_concat_fixed. split; reflexivity. Qed.
Lemma raw_encodeIDs ids : zlen ids * 8 < two32 -> encodeIDs 0 ids = Ok (ids, [], zlen ids * 8).
Proof. intros H. pose proof (zlen_nonneg ids). unfold encodeIDs, encodeData. change (usesDelta 0) with (Some false). change (usesFixedWidth 0) with true. cbv iota. rewrite u32_id by (unfold is_u32; lia). reflexivity. Qed.
Lemma raw_encodeValues vals : zlen vals * 8 < two32 -> encodeValues 0 vals = Ok (vals, [], zlen vals * 8).
Proof. intros H. pose proof (zlen_nonneg vals). unfold encodeValues, encodeData. change (usesDelta 0) with (Some false). change (usesFixedWidth 0) with true. cbv iota. rewrite u32_id by (unfold is_u32; lia). reflexivity. Qed.

Section Big.
Context {Srr : Sroar}.
Let nf := True.
Definition no_error : err -> writer -> Prop := fun _ _ => False.

Definition commit_large (wg : writer) (D : list Z) (ids vals : list Z) : writer :=
  push_block (push_position (set_ids wg (fold_left bm_set ids (w_ids wg))) (zlen D))
    (u32 (zlen (block_image 0 (zlen D) ids vals))) (stats_of ids vals).

Lemma write_large wg D ids vals :
  w_enc wg = 0 -> large_block ids vals -> zlen D < two63 ->
  triple (End nf wg D) (writeBlockInternal ids vals)
    (fun _ w => End nf (commit_large wg D ids vals) (D ++ block_image 0 (zlen D) ids vals) w) no_error.
Proof.
  intros Henc Hgood HD. unfold writeBlockInternal.
  destruct Hgood as (Hi & Hv & Hlen & Hn & H8).
  set (E := no_error).
  set (wg1 := set_ids wg (fold_left bm_set ids (w_ids wg))).
  set (wg2 := push_position wg1 (zlen D)).
  eapply triple_bind with (R := fun _ => End nf wg1 D).
  { apply triple_modify. intros w (fs & -> & Hfs). exists fs. split; [reflexivity|assumption]. }
  intros _. eapply triple_bind with (R := fun w0 w => w_enc w0 = 0 /\ End nf wg1 D w).
  { apply triple_get. intros w (fs & -> & Hfs). split; [exact Henc|]. exists fs. auto. }
  intros w0. apply triple_pure. intros ->.
  rewrite (raw_encodeIDs ids H8).
  eapply triple_bind. { apply triple_lift with (Q := fun a w => a = (ids, [], zlen ids * 8) /\ End nf wg1 D w). auto. }
  intros a. cbv beta. apply triple_pure. intros ->.
  rewrite (raw_encodeValues vals) by lia.
  eapply triple_bind. { apply triple_lift with (Q := fun a w => a = (vals, [], zlen vals * 8) /\ End nf wg1 D w). auto. }
  intros a. cbv beta. apply triple_pure. intros ->.
  destruct (calculateMinMax ids) as [minID maxID] eqn:Emi.
  destruct (calculateMinMax vals) as [minV maxV] eqn:Emv.
  set (sum := calculateSumInt64 vals).
  rewrite (u32_id (zlen ids)) by (unfold is_u32, two32 in *; lia).
  assert (Hst : stats_of ids vals = mkStats minID maxID minV maxV sum (zlen ids)).
  { unfold stats_of. rewrite Emi, Emv. reflexivity. }
  pose proof (zlen_nonneg D) as HD0.
  assert (EP : forall w t, ~ nf -> End nf wg2 (D ++ t) w -> E ErrIO w) by (unfold nf; tauto).
  (* blockStart *)
  eapply triple_bind.
  { apply seek_cur; [|lia]. unfold nf; tauto. }
  intros p. cbv beta. apply triple_pure. intros ->.
  eapply triple_bind with (R := fun _ => End nf wg2 D).
  { apply triple_modify. intros w (fs & -> & Hfs). exists fs. split; [reflexivity|assumption]. }
  intros _.
  (* writeBlockHeader *)
  set (H52 := le_bytes 8 minID ++ le_bytes 8 maxID ++ le_bytes 8 (int64ToUint64 minV)
     ++ le_bytes 8 (int64ToUint64 maxV) ++ le_bytes 8 (int64ToUint64 sum) ++ le_bytes 4 (zlen ids)
     ++ le_bytes 4 0 ++ le_bytes 4 CompressionNone).
  assert (L52 : zlen H52 = 52) by (unfold H52; rewrite !zlen_app, !zlen_le_bytes; reflexivity).
  eapply triple_bind with (R := fun n w => n = 52 /\ End nf wg2 (D ++ H52) w).
  { unfold writeBlockHeader.
    eapply triple_bind.
    { apply seek_cur; [|lia]. unfold nf; tauto. }
    intros p. cbv beta. apply triple_pure. intros ->.
    eapply triple_bind with (R := fun w0 w => w_enc w0 = 0 /\ End nf wg2 D w).
    { apply triple_get. intros w (fs & -> & Hfs). split; [exact Henc|]. exists fs. auto. }
    intros w1. apply triple_pure. intros ->.
    eapply triple_bind.
    { apply writeAll_end. exact EP. }
    intros n. cbv beta. apply triple_pure. intros _.
    cbn [concat]. rewrite app_nil_r. fold H52.
    eapply triple_bind.
    { apply seek_cur; [|apply zlen_nonneg]. unfold nf; tauto. }
    intros p. cbv beta. apply triple_pure. intros ->.
    rewrite zlen_app, L52. replace (zlen D + 52 - zlen D =? 52) with true by lia.
    apply triple_ret. intros w Hw. split; [lia|]. unfold End. rewrite zlen_app, L52. exact Hw. }
  intros n. apply triple_pure. intros ->.
  assert (EP' : forall t, (forall w t', ~ nf -> End nf wg2 ((D ++ t) ++ t') w -> E ErrIO w)) by (unfold nf; tauto).
  eapply triple_bind; [apply write_end, EP'|]. intros n1. cbv beta. apply triple_pure. intros _.
  rewrite <- (app_assoc D H52).
  eapply triple_bind; [apply write_end, EP'|]. intros n2. cbv beta. apply triple_pure. intros _.
  rewrite <- (app_assoc D).
  eapply triple_bind; [apply seek_cur; [intros w Hnf Hw; apply (EP w _ Hnf Hw)|apply zlen_nonneg]|].
  intros n3. cbv beta. apply triple_pure. intros _.
  eapply triple_bind; [apply write_end, EP'|]. intros n4. cbv beta. apply triple_pure. intros _.
  rewrite <- (app_assoc D).
  set (H68 := ((H52 ++ le_bytes 4 0) ++ le_bytes 4 0) ++ le_bytes 8 0).
  assert (E68 : H68 = (H52 ++ zeros 12) ++ zeros 4).
  { unfold H68. rewrite <- !app_assoc. reflexivity. }
  assert (L68 : zlen H68 = 68) by (rewrite E68, !zlen_app, L52, !zlen_zeros; reflexivity).
  change (blockHeaderSize - (52 + 4 + 4 + 8)) with (-4).
  eapply triple_bind.
  { apply seek_rel; [intros w Hnf Hw; apply (EP w _ Hnf Hw)|]. rewrite zlen_app, L68. lia. }
  intros n5. cbv beta.
  replace (zlen (D ++ H68) + -4) with (zlen D + 64) by (rewrite zlen_app, L68; lia).
  change (52 + 4 + 4 + 8 + -4) with 64. change (64 =? blockHeaderSize) with true. cbn [negb].
  destruct (Z.eqb_spec (zlen ids * 8) 0) as [?|_]; [lia|].
  destruct (Z.eqb_spec (zlen vals * 8) 0) as [?|_]; [lia|].
  change (le_bytes 4 0 ++ le_bytes 4 (zlen ids * 8) ++ le_bytes 4 (zlen ids * 8) ++ le_bytes 4 (zlen vals * 8)) with (block_layout 0 ids vals).
  set (HH := H52 ++ zeros 12) in *.
  assert (LH : zlen HH = 64) by (unfold HH; rewrite zlen_app, L52, zlen_zeros; reflexivity).
  set (LL := block_layout 0 ids vals). assert (LLL : zlen LL = 16) by apply zlen_block_layout.
  eapply triple_bind with (R := fun n w => n = 16 /\ End nf wg2 (D ++ HH ++ LL) w).
  { eapply triple_post.
    - apply write_rule. unfold nf; tauto.
    - cbv beta. intros n w [-> Hw]. split; [exact LLL|].
      rewrite E68, app_assoc in Hw.
      rewrite overwrite_tail in Hw by (rewrite ?zlen_app, ?LH, ?LLL, ?zlen_zeros; lia).
      unfold End. rewrite app_assoc. rewrite !zlen_app, LH. exact Hw. }
  intros n6. apply triple_pure. intros ->. change (16 =? 16) with true. cbn [negb].
  eapply triple_bind; [apply seek_cur; [intros w Hnf Hw; apply (EP w _ Hnf Hw)|apply zlen_nonneg]|].
  intros n7. cbv beta. apply triple_pure. intros _.
  destruct (raw_chunks_len ids vals) as [Ai Av].
  change (writeSection (useVarIntForIDs 0) ids []) with (writeAll (id_chunks 0 ids) 0).
  change (writeSection (useVarIntForValues 0) vals []) with (writeAll (val_chunks 0 vals) 0).
  set (CI := concat (id_chunks 0 ids)) in *. set (CV := concat (val_chunks 0 vals)) in *.
  eapply triple_bind; [apply writeAll_end, EP'|]. intros n8. cbv beta. apply triple_pure. intros ->.
  fold CI. rewrite Z.add_0_l. rewrite (u32_id (zlen CI)) by (unfold is_u32; lia).
  destruct (Z.eqb_spec (zlen CI) (zlen ids * 8)) as [Ei|Ni]; [|lia]; cbn [negb].
  rewrite <- (app_assoc D).
  eapply triple_bind; [apply writeAll_end, EP'|]. intros n9. cbv beta. apply triple_pure. intros ->.
  fold CV. rewrite Z.add_0_l. rewrite (u32_id (zlen CV)) by (unfold is_u32; lia).
  destruct (Z.eqb_spec (zlen CV) (zlen vals * 8)) as [Ev|Nv]; [|lia]; cbn [negb].
  rewrite <- (app_assoc D).
  assert (EB : (((HH ++ LL) ++ CI) ++ CV) = block_body 0 ids vals).
  { unfold block_body, block_header. rewrite Hst. cbn [st_minID st_maxID st_minValue st_maxValue st_sum st_count].
    fold H52. fold HH. fold LL. fold CI. fold CV. rewrite !app_assoc. reflexivity. }
  rewrite EB.
  assert (LB : zlen (block_body 0 ids vals) = 80 + zlen CI + zlen CV) by apply zlen_block_body.
  eapply triple_bind; [apply seek_cur; [intros w Hnf Hw; apply (EP w _ Hnf Hw)|apply zlen_nonneg]|].
  intros n10. cbv beta. apply triple_pure. intros ->.
  replace (zlen (D ++ block_body 0 ids vals) - zlen D) with (zlen (block_body 0 ids vals)) by (rewrite zlen_app; lia).
  rewrite (zlen_app D).
  set (pad := calculatePadding (zlen D + zlen (block_body 0 ids vals)) PageSize).
  assert (Hpad : 0 <= pad < PageSize) by apply calculatePadding_range.
  assert (EI : block_image 0 (zlen D) ids vals = block_body 0 ids vals ++ zeros pad) by reflexivity.
  eapply triple_bind with (R := fun _ => End nf wg2 (D ++ block_image 0 (zlen D) ids vals)).
  { rewrite EI. destruct (Z.gtb_spec pad 0).
    - eapply triple_post; [apply triple_pre with (P := End nf wg2 (D ++ block_body 0 ids vals)); [apply write_end, EP'|]|].
      + intros w Hw. unfold End. rewrite zlen_app. exact Hw.
      + intros a w [_ Hw]. rewrite <- app_assoc in Hw. exact Hw.
    - apply triple_ret. intros w Hw. rewrite zeros_nil by lia. rewrite app_nil_r. unfold End. rewrite zlen_app. exact Hw. }
  intros n11.
  assert (LI : zlen (block_image 0 (zlen D) ids vals) = zlen (block_body 0 ids vals) + pad) by apply zlen_block_image.
  unfold PageSize, two32 in *.
  rewrite (u64_id (zlen (block_body 0 ids vals))) by (unfold is_u64, two64; lia).
  rewrite <- LI.
  rewrite (u64_id (zlen (block_image _ _ _ _))) by (unfold is_u64, two64; lia).
  replace (zlen (block_image 0 (zlen D) ids vals) - pad) with (zlen (block_body 0 ids vals)) by lia.
  rewrite (u64_id (zlen (block_body 0 ids vals))) by (unfold is_u64, two64; lia).
  replace (zlen (block_body 0 ids vals) - _) with 0 by (unfold blockHeaderSize, blockLayoutSize; lia).
  change (u64 0 =? 0) with true. cbn [negb].
  eapply triple_bind with (R := fun _ => End nf (commit_large wg D ids vals) (D ++ block_image 0 (zlen D) ids vals)).
  { apply triple_modify. intros w (fs & -> & Hfs). exists fs. split; [|assumption].
    unfold commit_large. fold wg1. fold wg2. rewrite Hst. reflexivity. }
  intros _. eapply triple_post.
  - apply sync_rule. unfold nf; tauto.
  - intros a w Hw. exact Hw.
Qed.

(** The estimate wraps around. *)
Lemma estimate_large wg D p ids vals :
  w_enc wg = 0 -> large_block ids vals -> 0 <= p ->
  triple (St nf wg D p) (EstimateBlockSize ids vals)
    (fun n w => (let t := u32 (80 + zlen ids * 16) in n = t + calculatePadding (p + t) PageSize) /\ St nf wg D p w) no_error.
Proof.
  intros Henc (Hi & Hv & Hlen & Hn & H8) Hp. unfold EstimateBlockSize.
  replace (zlen ids =? zlen vals) with true by lia. cbn [negb].
  destruct (Z.eqb_spec (zlen ids) 0) as [?|_]; [lia|].
  eapply triple_bind with (R := fun w0 w => w_enc w0 = 0 /\ St nf wg D p w).
  { apply triple_get. intros w (fs & -> & Hfs). split; [exact Henc|]. exists fs. auto. }
  intros w0. apply triple_pure. intros ->.
  rewrite (raw_encodeIDs ids H8).
  eapply triple_bind. { apply triple_lift with (Q := fun a w => a = (ids, [], zlen ids * 8) /\ St nf wg D p w). auto. }
  intros a. cbv beta. apply triple_pure. intros ->.
  rewrite (raw_encodeValues vals) by lia.
  eapply triple_bind. { apply triple_lift with (Q := fun a w => a = (vals, [], zlen vals * 8) /\ St nf wg D p w). auto. }
  intros a. cbv beta. apply triple_pure. intros ->.
  eapply triple_bind.
  { apply seek_cur; [|lia]. unfold nf; tauto. }
  intros q. cbv beta. apply triple_pure. intros ->.
  change (blockHeaderSize + blockLayoutSize) with 80. replace (80 + zlen ids * 8 + zlen vals * 8) with (80 + zlen ids * 16) by lia.
  set (t := u32 (80 + zlen ids * 16)). pose proof (calculatePadding_range (p + t)).
  cbv zeta. destruct (Z.gtb_spec (calculatePadding (p + t) PageSize) 0).
  - apply triple_ret. intros w Hw. split; [reflexivity|assumption].
  - apply triple_ret. intros w Hw. split; [lia|assumption].
Qed.

Lemma WriteBlock_large wg D ids vals :
  w_enc wg = 0 -> large_block ids vals -> zlen D < two63 ->
  (let t := u32 (80 + zlen ids * 16) in t + calculatePadding (zlen D + t) PageSize <= w_target wg) ->
  triple (End nf wg D) (WriteBlock ids vals)
    (fun _ w => End nf (commit_large wg D ids vals) (D ++ block_image 0 (zlen D) ids vals) w) no_error.
Proof.
  intros Henc HL HD HT. unfold WriteBlock. pose proof HL as (_ & _ & Hlen & Hn & _).
  replace (zlen ids =? zlen vals) with true by lia. cbn [negb].
  destruct (Z.eqb_spec (zlen ids) 0) as [?|_]; [lia|].
  eapply triple_bind; [apply (estimate_large wg D (zlen D) ids vals Henc HL (zlen_nonneg D))|].
  intros n. cbv beta. apply triple_pure. intros ->.
  eapply triple_bind with (R := fun w0 w => w_target w0 = w_target wg /\ End nf wg D w).
  { apply triple_get. intros w (fs & -> & Hfs). split; [reflexivity|]. exists fs. auto. }
  intros w0. apply triple_pure. intros ->. cbv zeta in *. set (t := u32 (80 + zlen ids * 16)) in *.
  destruct (Z.gtb_spec (t + calculatePadding (zlen D + t) PageSize) (w_target wg)); [lia|]. cbn [andb].
  apply write_large; assumption.
Qed.

(** A file with one footer entry. *)
Definition one_entry (p s : Z) (st : blockStats) : footerEntry :=
  mkEntry (u64 p) (u32 s) (u64 (st_minID st)) (u64 (st_maxID st)) (u64 (int64ToUint64 (st_minValue st)))
    (u64 (int64ToUint64 (st_maxValue st))) (u64 (int64ToUint64 (st_sum st))) (u32 (st_count st)).
Lemma readEntry_one p s st : readEntry (entry_bytes p s st) 0 = Ok (one_entry p s st).
Proof.
  unfold readEntry. change (u32 (0 * 56)) with 0. change (u32 (0 + 8)) with 8. change (u32 (0 + 12)) with 12. change (u32 (0 + 20)) with 20.
  change (u32 (0 + 28)) with 28. change (u32 (0 + 36)) with 36. change (u32 (0 + 44)) with 44. change (u32 (0 + 52)) with 52.
  unfold readBufferedUint64, readBufferedUint32.
  set (buf := entry_bytes p s st). pose proof (zlen_entry_bytes p s st) as Lb. fold buf in Lb.
  assert (P : buf = concat [le_bytes 8 p; le_bytes 4 (u32 s); le_bytes 8 (st_minID st); le_bytes 8 (st_maxID st);
     le_bytes 8 (int64ToUint64 (st_minValue st)); le_bytes 8 (int64ToUint64 (st_maxValue st)); le_bytes 8 (int64ToUint64 (st_sum st)); le_bytes 4 (st_count st)] ++ []).
  { unfold buf, entry_bytes. cbn [concat]. rewrite !app_nil_r. reflexivity. }
  assert (G : forall pre y post k n, concat [le_bytes 8 p; le_bytes 4 (u32 s); le_bytes 8 (st_minID st); le_bytes 8 (st_maxID st);
     le_bytes 8 (int64ToUint64 (st_minValue st)); le_bytes 8 (int64ToUint64 (st_maxValue st)); le_bytes 8 (int64ToUint64 (st_sum st)); le_bytes 4 (st_count st)] = concat (pre ++ y :: post) ->
     k = zlen (concat pre) -> n = zlen y -> 0 <= k -> 0 <= n -> k + n <= 56 -> readBuffered n buf k = Ok (le_val y)).
  { intros pre y post k n HP Hk Hn K0 N0 KN. apply readBuffered_ok; [lia|lia|lia|]. rewrite P, HP. apply slice_field; assumption. }
  rewrite (G [] (le_bytes 8 p) _ 0 8 eq_refl eq_refl eq_refl) by lia. cbn [rbind].
  rewrite (G [_] (le_bytes 4 (u32 s)) _ 8 4 eq_refl eq_refl eq_refl) by lia. cbn [rbind].
  rewrite (G [_; _] (le_bytes 8 (st_minID st)) _ 12 8 eq_refl eq_refl eq_refl) by lia. cbn [rbind].
  rewrite (G [_; _; _] (le_bytes 8 (st_maxID st)) _ 20 8 eq_refl eq_refl eq_refl) by lia. cbn [rbind].
  rewrite (G [_; _; _; _] (le_bytes 8 (int64ToUint64 (st_minValue st))) _ 28 8 eq_refl eq_refl eq_refl) by lia. cbn [rbind].
  rewrite (G [_; _; _; _; _] (le_bytes 8 (int64ToUint64 (st_maxValue st))) _ 36 8 eq_refl eq_refl eq_refl) by lia. cbn [rbind].
  rewrite (G [_; _; _; _; _; _] (le_bytes 8 (int64ToUint64 (st_sum st))) _ 44 8 eq_refl eq_refl eq_refl) by lia. cbn [rbind].
  rewrite (G [_; _; _; _; _; _; _] (le_bytes 4 (st_count st)) _ 52 4 eq_refl eq_refl eq_refl) by lia. cbn [rbind].
  rewrite !le_val_8, !le_val_4. rewrite (u32_id (u32 s)) by apply u32_range. reflexivity.
Qed.

Lemma NewReader_one F X now target e off size p s st :
  F = X ++ footer_bytes 1 [entry_bytes p s st] -> ztake 60 X = header_bytes now 1 target e off size -> 64 <= zlen X -> zlen F < two63 ->
  is_u32 target -> is_u32 e -> is_u64 off -> is_u64 size ->
  NewReader F = Ok (mkReader F true (mkHeader MagicNumber 1 0 1 target 0 e (u64 now) off size) (mkMeta 60 0 MagicNumber) [one_entry p s st] None false).
Proof.
  intros HF HH HX HL Ht He Ho Hs.
  assert (LenF : zlen F = zlen X + 84).
  { rewrite HF, zlen_app. unfold footer_bytes. rewrite !zlen_app, !zlen_le_bytes. cbn [concat]. rewrite app_nil_r, zlen_entry_bytes. reflexivity. }
  unfold NewReader.
  rewrite (readHeader_ok F now 1 target e off size); [|lia|assumption|rewrite HF, ztake_app_l by lia; exact HH|unfold is_u64, two64; lia|assumption|assumption|assumption|assumption].
  cbn [rbind]. unfold readFooter. destruct (Z.ltb_spec (zlen F) 24); [lia|].
  rewrite readBytesAt_ok by lia. cbn [rbind].
  unfold footer_bytes in HF. cbn [concat] in HF. rewrite app_nil_r in HF. rewrite zlen_entry_bytes in HF. change (4 + 56) with 60 in HF.
  set (tail := le_bytes 8 60 ++ le_bytes 8 0 ++ le_bytes 8 MagicNumber) in HF.
  assert (S1 : slice F (zlen F - 24) 24 = tail).
  { rewrite HF at 1. replace (X ++ le_bytes 4 (u32 1) ++ entry_bytes p s st ++ tail) with ((X ++ le_bytes 4 (u32 1) ++ entry_bytes p s st) ++ tail ++ []) by (rewrite app_nil_r, <- !app_assoc; reflexivity).
    apply slice_mid; [|reflexivity]. rewrite !zlen_app, zlen_entry_bytes, zlen_le_bytes, LenF. lia. }
  rewrite S1.
  change (readBufferedUint64 tail 0) with (Ok 60). change (readBufferedUint64 tail 8) with (Ok 0). change (readBufferedUint64 tail 16) with (Ok MagicNumber). cbn [rbind].
  rewrite Z.eqb_refl. cbn [negb]. rewrite (i64_id 60) by (unfold is_i64, two63; lia).
  replace (zlen F - 24 - 60) with (zlen X) by lia. rewrite (i64_id (zlen X)) by (unfold is_i64, two63 in *; lia).
  destruct (Z.ltb_spec (zlen X) 64); [lia|].
  rewrite readBytesAt_ok by lia. cbn [rbind].
  assert (S2 : slice F (zlen X) 4 = le_bytes 4 (u32 1)) by (rewrite HF; apply slice_mid; reflexivity).
  rewrite S2. change (readBufferedUint32 (le_bytes 4 (u32 1)) 0) with (Ok 1). cbn [rbind].
  cbn [h_blockCount]. change (1 >? 1) with false. cbv iota.
  rewrite (i64_id (zlen X + 4)) by (unfold is_i64, two63 in *; lia). change (1 * 56) with 56.
  rewrite readBytesAt_ok by lia. cbn [rbind].
  assert (S3 : slice F (zlen X + 4) 56 = entry_bytes p s st).
  { rewrite HF. rewrite app_assoc. apply slice_mid; [rewrite zlen_app, zlen_le_bytes; reflexivity|symmetry; apply zlen_entry_bytes]. }
  rewrite S3. change (zseq 1) with [0]. cbn [readEntries]. rewrite readEntry_one. cbn [rbind]. reflexivity.
Qed.
End Big.
Section Unreadable.
Context {Srr : Sroar}.

Lemma slice_with_header wg now D p o n : 60 <= o -> 0 <= n -> o + n <= zlen D -> p = zlen D ->
  slice (with_header wg now D p) o n = slice D o n.
Proof.
  intros H1 H2 H3 Hp. unfold with_header, with_bitmap. rewrite overwrite_end by exact Hp.
  rewrite slice_app_r by (rewrite zlen_header_bytes; lia). rewrite zlen_header_bytes. unfold slice at 1. rewrite zdrop_zdrop by lia.
  replace (o - 60 + 60) with o by lia. fold (slice (D ++ bitmap_bytes (w_ids wg)) o n). apply slice_app_l; lia.
Qed.

(** What a Reader finds in a file of one block at offset 64 whose image is too long for the
    four bytes of its size. *)
Lemma reader_large ids vals w0 now1 now0 w2 :
  large_block ids vals -> two32 <= zlen ids * 16 + 80 < two32 + 16384 - 63 ->
  let wg := new_writer [] (mkFile [] 0 true []) in
  let D0 := initial_data now0 [] in
  let D := D0 ++ block_image 0 (zlen D0) ids vals in
  w0 = commit_large wg D0 ids vals -> End True w0 (final_data w0 now1 D (zlen D)) w2 -> zlen (bytes_of w2) < two63 ->
  exists r, NewReader (bytes_of w2) = Ok r /\ BlockCount r = 1 /\ GetPairs r 0 = Err ErrSection
    /\ (exists res, Aggregate r = Ok res /\ a_count res = zlen ids)
    /\ aggregateSequential r (mkOpts true None None 0) = Ok (result_of acc0).
Proof.
  intros HL Hn wg D0 D E0 (fs & -> & _) HZ.
  pose proof HL as (Hi & Hv & Hlen & H1 & H8).
  change (bytes_of _) with (final_data w0 now1 D (zlen D)) in *.
  assert (L0 : zlen D0 = 64) by apply zlen_initial.
  destruct (raw_chunks_len ids vals) as [Ci Cv].
  assert (LB : zlen (block_body 0 ids vals) = 80 + zlen ids * 16) by (rewrite zlen_block_body; lia).
  set (pad := calculatePadding (64 + zlen (block_body 0 ids vals)) PageSize).
  assert (Hpad : 0 <= pad < 4096) by (apply calculatePadding_range).
  assert (Hpa : (64 + zlen (block_body 0 ids vals) + pad) mod 4096 = 0) by apply calculatePadding_aligned.
  assert (LI : zlen (block_image 0 (zlen D0) ids vals) = 80 + zlen ids * 16 + pad) by (rewrite zlen_block_image, L0, LB; unfold pad; rewrite LB; reflexivity).
  assert (LD : zlen D = 64 + 80 + zlen ids * 16 + pad) by (unfold D; rewrite zlen_app; lia).
  set (off := zlen D). set (X := with_header w0 now1 D off ++ zeros (calculatePadding (zlen (with_header w0 now1 D off)) PageSize)).
  assert (HF : final_data w0 now1 D off = X ++ footer_bytes 1 [entry_bytes 64 (u32 (zlen (block_image 0 (zlen D0) ids vals))) (stats_of ids vals)]).
  { unfold final_data, X. rewrite <- app_assoc. subst w0. change (w_blockCount (commit_large wg D0 ids vals)) with 1. change (1 >? 0) with true. cbv iota.
    do 2 refine (f_equal (fun z => _ ++ z) _). unfold entries_of, commit_large, push_block, push_position. cbn [w_positions w_sizes w_stats wg new_writer set_ids app combine map]. rewrite L0. reflexivity. }
  assert (LW : zlen D <= zlen (with_header w0 now1 D off)).
  { unfold with_header, with_bitmap. rewrite overwrite_end by reflexivity. rewrite zlen_app, zlen_header_bytes, zlen_zdrop, zlen_app. pose proof (zlen_nonneg (bitmap_bytes (w_ids w0))). lia. }
  assert (LX : zlen D <= zlen X) by (unfold X; rewrite zlen_app; pose proof (zlen_nonneg (zeros (calculatePadding (zlen (with_header w0 now1 D off)) PageSize))); lia).
  assert (LF : zlen X <= zlen (final_data w0 now1 D off)) by (rewrite HF, zlen_app; match goal with |- _ <= _ + zlen ?l => pose proof (zlen_nonneg l) end; lia).
  assert (HS : 4 + zlen (bm_ser (w_ids w0)) < two63).
  { assert (zlen D + (4 + zlen (bm_ser (w_ids w0))) <= zlen (with_header w0 now1 D off)).
    { unfold with_header, with_bitmap. rewrite overwrite_end by reflexivity. rewrite zlen_app, zlen_header_bytes, zlen_zdrop, zlen_app. unfold bitmap_bytes. rewrite zlen_app, zlen_le_bytes. pose proof (zlen_nonneg (bm_ser (w_ids w0))). lia. }
    assert (zlen (with_header w0 now1 D off) <= zlen X) by (unfold X; rewrite zlen_app; pose proof (zlen_nonneg (zeros (calculatePadding (zlen (with_header w0 now1 D off)) PageSize))); lia).
    fold off in HZ. lia. }
  fold off in HZ |- *. pose proof (zlen_nonneg (bm_ser (w_ids w0))) as HS0.
  assert (HR : NewReader (final_data w0 now1 D off) = Ok (mkReader (final_data w0 now1 D off) true
     (mkHeader MagicNumber 1 0 1 (w_target w0) 0 (w_enc w0) (u64 now1) off (4 + zlen (bm_ser (w_ids w0)))) (mkMeta 60 0 MagicNumber)
     [one_entry 64 (u32 (zlen (block_image 0 (zlen D0) ids vals))) (stats_of ids vals)] None false)).
  { apply (NewReader_one _ X now1); [exact HF| |unfold two32 in *; lia|exact HZ| | | |].
    - unfold X. rewrite ztake_app_l by (unfold two32 in *; lia). unfold with_header. rewrite ztake_app_exact by (rewrite zlen_header_bytes; reflexivity). subst w0. reflexivity.
    - subst w0. change (0 <= 16384 < two32). unfold two32. lia.
    - subst w0. change (0 <= 0 < two32). unfold two32. lia.
    - unfold off, is_u64, two64, two63 in *. lia.
    - unfold is_u64, two64, two63 in *. lia. }
  rewrite HR. eexists. split; [reflexivity|]. split; [reflexivity|].
  assert (SZ : u32 (u32 (zlen (block_image 0 (zlen D0) ids vals))) = 80 + zlen ids * 16 + pad - two32).
  { rewrite (u32_id (u32 _)) by apply u32_range. rewrite LI. unfold u32, two32 in *. lia. }
  assert (HG : readBlock (mkReader (final_data w0 now1 D off) true
     (mkHeader MagicNumber 1 0 1 (w_target w0) 0 (w_enc w0) (u64 now1) off (4 + zlen (bm_ser (w_ids w0)))) (mkMeta 60 0 MagicNumber)
     [one_entry 64 (u32 (zlen (block_image 0 (zlen D0) ids vals))) (stats_of ids vals)] None false) 0 = Err ErrSection).
  { unfold readBlock. cbn [r_index zlen length]. change (0 >=? Z.of_nat 1) with false. change (0 <? 0) with false. cbn [orb Z.to_nat nth_error].
    cbn [one_entry e_offset e_size r_data r_open e_count r_header h_encodingType]. rewrite SZ. change (i64 (u64 64)) with 64. change (i64 (64 + blockHeaderSize)) with 128.
    unfold blockHeaderSize, two32 in *.
    set (sz := 80 + zlen ids * 16 + pad - 4294967296 - 64).
    assert (Hsz : 16 <= sz <= 16384) by (unfold sz; lia).
    rewrite readBytesAt_ok by lia. cbn [rbind]. unfold layoutField, readBufferedUint32.
    set (F := final_data w0 now1 D off) in *.
    assert (SF : slice F 128 16 = block_layout 0 ids vals).
    { rewrite HF. rewrite slice_app_l by lia. unfold X. rewrite slice_app_l by lia. rewrite slice_with_header by (try lia; reflexivity).
      unfold D. rewrite slice_app_r by lia. rewrite L0. change (128 - 64) with 64. unfold block_image. rewrite slice_app_l by lia. unfold block_body.
      apply slice_mid; [rewrite zlen_block_header; reflexivity|rewrite zlen_block_layout; reflexivity]. }
    assert (G : forall k x, 0 <= k -> k + 4 <= 16 -> slice (block_layout 0 ids vals) k 4 = le_bytes 4 x -> readBuffered 4 (slice F 128 sz) k = Ok (u32 x)).
    { intros k x K0 K1 Hx. rewrite <- le_val_4. apply readBuffered_ok; [lia|lia|rewrite zlen_slice by lia; lia|]. rewrite slice_slice by lia. rewrite <- Hx, <- SF. rewrite slice_slice by lia. reflexivity. }
    rewrite (G 0 0) by (try lia; reflexivity). cbn [rbind].
    rewrite (G 4 (id_claim 0 ids)) by (try lia; reflexivity). cbn [rbind].
    rewrite (G 8 (id_claim 0 ids)) by (try lia; reflexivity). cbn [rbind].
    rewrite (G 12 (val_claim 0 vals)) by (try lia; reflexivity). cbn [rbind].
    change (id_claim 0 ids) with (zlen ids * 8). change (val_claim 0 vals) with (zlen vals * 8). rewrite !(u32_id (_ * 8)) by (unfold is_u32, two32; lia).
    change (u32 0) with 0.
    destruct (Z.eqb_spec (zlen ids * 8) 0); [lia|]. destruct (Z.eqb_spec (zlen vals * 8) 0); [lia|].
    rewrite zlen_slice by lia.
    destruct (Z.gtb_spec (16 + 0 + zlen ids * 8) (Z.max 0 (Z.min sz (zlen F - 128)))); [reflexivity|]. lia. }
  split; [exact HG|]. split.
  - eexists. split; [reflexivity|]. cbn [result_of a_count r_index fold_left add_entry one_entry e_count c_count acc0 stats_of st_count Aggregate]. rewrite u32_id by (unfold is_u32, two32 in *; lia). rewrite Z.add_0_l. apply i64_id. unfold is_i64, two63, two32 in *. lia.
  - unfold aggregateSequential. cbn [has_filter o_filter o_deny o_skip r_index negb]. rewrite Bool.andb_false_r. cbv iota.
    change (zseq (BlockCount _)) with [0]. cbn [scan]. change (GetPairs _ 0) with (readBlock (mkReader (final_data w0 now1 D off) true
     (mkHeader MagicNumber 1 0 1 (w_target w0) 0 (w_enc w0) (u64 now1) off (4 + zlen (bm_ser (w_ids w0)))) (mkMeta 60 0 MagicNumber)
     [one_entry 64 (u32 (zlen (block_image 0 (zlen D0) ids vals))) (stats_of ids vals)] None false) 0). rewrite HG. reflexivity.
Qed.
End Unreadable.
