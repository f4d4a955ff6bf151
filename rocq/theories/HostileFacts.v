(** A 92-byte file whose header and footer announce any numbers of blocks. *)
From Verif Require Import Machine MachineFacts Encoding FileIO Sroar Writer Reader Aggregate Spec ArbFacts FinalFacts ReaderFacts ReachFacts AggFacts PowerFacts.
Ltac Zify.zify_post_hook ::= Z.div_mod_to_equations.

Definition announces (blockCount indexCount : Z) : list Z :=
  (le_bytes 8 MagicNumber ++ le_bytes 4 Version ++ le_bytes 4 0 ++ le_bytes 8 blockCount ++ le_bytes 4 4096
   ++ le_bytes 4 0 ++ le_bytes 4 0 ++ le_bytes 8 0 ++ le_bytes 8 0 ++ le_bytes 8 0 ++ zeros 4)
  ++ le_bytes 4 indexCount ++ le_bytes 8 4 ++ zeros 8 ++ le_bytes 8 MagicNumber.

Lemma announces_split n c : announces n c
  = header_bytes 0 n 4096 0 0 0 ++ zeros 4 ++ le_bytes 4 c ++ (le_bytes 8 4 ++ zeros 8 ++ le_bytes 8 MagicNumber).
Proof. unfold announces, header_bytes, headerFields. cbn [concat]. rewrite <- ?app_assoc. cbn [app]. reflexivity. Qed.
Lemma zlen_announces n c : zlen (announces n c) = 92.
Proof. rewrite announces_split, !zlen_app, zlen_header_bytes, !zlen_le_bytes, !zlen_zeros. reflexivity. Qed.
Lemma announces_bytes n c : Forall is_byte (announces n c).
Proof.
  rewrite announces_split. apply Forall_app. split; [apply header_bytes_bytes|].
  apply Forall_app. split; [apply zeros_bytes|]. apply Forall_app. split; [apply le_bytes_bytes|].
  apply Forall_app. split; [apply le_bytes_bytes|]. apply Forall_app. split; [apply zeros_bytes|apply le_bytes_bytes].
Qed.

Lemma readEntry_no_err buf i e : readEntry buf i <> Err e.
Proof.
  unfold readEntry, readBufferedUint64, readBufferedUint32, readBuffered.
  repeat (destruct (_ || _); cbn [rbind]; [discriminate|]). discriminate.
Qed.
Lemma readEntries_no_err buf idx : forall e, readEntries buf idx <> Err e.
Proof.
  induction idx as [|i idx IH]; intros e; cbn [readEntries]; [discriminate|].
  pose proof (readEntry_no_err buf i) as N. destruct (readEntry buf i) as [x|e'|]; cbn [rbind]; [|intros _; exact (N _ eq_refl)|discriminate].
  destruct (readEntries buf idx) as [x'|e'|]; cbn [rbind]; [discriminate| |discriminate]. intros _. exact (IH _ eq_refl).
Qed.

Theorem announces_opens n c : is_u64 n -> is_u32 c ->
  exists r, NewReader (announces n c) = Ok r /\ BlockCount r = Z.max n c /\ zlen (r_index r) = c.
Proof.
  intros Hn Hc. pose proof (zlen_announces n c) as HL. pose proof (announces_bytes n c) as HB.
  unfold NewReader. rewrite (readHeader_ok _ 0 n 4096 0 0 0);
    try (unfold is_u32, is_u64, two32, two64, two63 in *; lia).
  2: { rewrite announces_split. apply ztake_app_exact. rewrite zlen_header_bytes. reflexivity. }
  cbn [rbind]. pose proof (readFooter_no_panic (announces n c) (mkHeader MagicNumber 1 0 n 4096 0 0 (u64 0) 0 0) HB) as NP.
  revert NP. unfold readFooter. rewrite HL. destruct (Z.ltb_spec 92 24); [lia|].
  rewrite readBytesAt_ok by (rewrite ?HL; unfold two63; lia). cbn [rbind].
  assert (S1 : slice (announces n c) (92 - 24) 24 = le_bytes 8 4 ++ zeros 8 ++ le_bytes 8 MagicNumber).
  { rewrite announces_split, !app_assoc. rewrite <- (app_assoc _ (zeros 8)). rewrite <- (app_assoc _ (le_bytes 8 4)). rewrite slice_app_r by (rewrite !zlen_app, zlen_header_bytes, zlen_zeros, zlen_le_bytes; lia).
    rewrite !zlen_app, zlen_header_bytes, zlen_zeros, zlen_le_bytes. reflexivity. }
  rewrite S1.
  change (readBufferedUint64 (le_bytes 8 4 ++ zeros 8 ++ le_bytes 8 MagicNumber) 0) with (@Ok Z 4).
  change (readBufferedUint64 (le_bytes 8 4 ++ zeros 8 ++ le_bytes 8 MagicNumber) 8) with (@Ok Z 0).
  change (readBufferedUint64 (le_bytes 8 4 ++ zeros 8 ++ le_bytes 8 MagicNumber) 16) with (@Ok Z MagicNumber).
  cbn [rbind]. rewrite Z.eqb_refl. cbn [negb].
  change (i64 (92 - 24 - i64 4)) with 64. cbn [Z.ltb Z.compare Pos.compare Pos.compare_cont].
  rewrite readBytesAt_ok by (rewrite ?HL; unfold two63; lia). cbn [rbind].
  assert (S2 : slice (announces n c) 64 4 = le_bytes 4 c).
  { rewrite announces_split, (app_assoc (header_bytes _ _ _ _ _ _)). rewrite slice_app_r by (rewrite !zlen_app, zlen_header_bytes, zlen_zeros; lia).
    rewrite !zlen_app, zlen_header_bytes, zlen_zeros. change (64 - (60 + 4)) with 0. unfold slice. rewrite zdrop_0 by lia. apply ztake_app_exact. rewrite zlen_le_bytes. reflexivity. }
  rewrite S2. unfold readBufferedUint32, readBuffered. rewrite zlen_le_bytes. change ((0 <? 0) || (0 + 4 >? Z.of_nat 4)) with false. cbn [rbind].
  assert (S3 : le_val (slice (le_bytes 4 c) 0 4) = c).
  { unfold slice. rewrite zdrop_0 by lia. rewrite ztake_all by (rewrite zlen_le_bytes; lia). rewrite le_val_4. unfold u32. apply Z.mod_small. exact Hc. }
  rewrite S3. cbn [rbind].
  change (i64 (64 + 4)) with 68.
  destruct (readBytesAt (announces n c) true 68 (c * 56)) as [ib|e|] eqn:E3.
  - cbn [rbind]. destruct (readEntries ib (zseq c)) as [ix|e|] eqn:EE; cbn [rbind]; [|intros _|congruence].
    + intros _. eexists. split; [reflexivity|]. split; [|cbn [r_index]; rewrite (readEntries_len _ _ _ EE), zlen_zseq; unfold is_u32 in Hc; lia].
      unfold BlockCount. cbn [r_header h_blockCount]. destruct (Z.gtb_spec c n); cbn; lia.
    + exfalso. exact (readEntries_no_err _ _ _ EE).
  - exfalso. unfold readBytesAt in E3. unfold is_u32, two32, max_int64 in *. destruct (Z.ltb_spec (c * 56) 0); [lia|].
    destruct (68 <? 0) eqn:E6; [discriminate|]. destruct (c * 56 =? 0); [discriminate|]. cbn [negb] in E3.
    destruct (Z.gtb_spec (68 + c * 56) 9223372036854775807); [lia|discriminate].
  - exfalso. unfold readBytesAt in E3. unfold is_u32 in *. destruct (Z.ltb_spec (c * 56) 0); [lia|].
    destruct (68 <? 0) eqn:E6; [discriminate|]. destruct (c * 56 =? 0); [discriminate|]. cbn [negb] in E3. destruct (_ >? _); discriminate.
Qed.

Section Written.
Context {Srr : Sroar} {Laws : SroarLaws Srr}.
Theorem written_index options faults h now w : finished_run options faults h now w ->
  exists r, NewReader (bytes_of w) = Ok r /\ BlockCount r = zlen (r_index r) /\ 92 + 56 * zlen (r_index r) <= zlen (bytes_of w).
Proof.
  intros H. destruct (ReachFacts.finished_facts options faults h now w H) as (blocks & A & X & L & off & _ & HL & HF & Hlim & _ & _ & HR).
  eexists. split; [exact HR|]. pose proof (finalized_indexed _ _ _ _ _ _ _ _ HF Hlim) as HI.
  rewrite (index_length _ _ HI). split; [apply (v_count _ _ HI)|].
  destruct HF as [HD _ _ [HO HO2] _]. rewrite HD, zlen_app, zlen_footer, zlen_map.
  pose proof (zlen_nonneg (bitmap_bytes (fold_left bm_set A bm_new))). unfold pblock in *. lia.
Qed.
End Written.
