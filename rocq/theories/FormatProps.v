(** The two halves of the format document: the reader accepts every file that follows it, and the
    writer's files follow it. *)
From Verif Require Import Machine MachineFacts Encoding EncodingFacts FileIO Sroar Writer Spec FileFacts
  WriterFacts BlockFacts FinalFacts Reader ReaderFacts DecodeFacts HistoryFacts RunFacts ReachFacts WriterProps
  Aggregate Parallel ArbFacts AggFacts ParallelFacts AggProps FormatSpec FormatFacts.
Ltac Zify.zify_post_hook ::= Z.div_mod_to_equations.

Section Props.
Context {Srr : Sroar}.

(** ** Reading *)
Lemma doc_bitmap r F b boff bsize : r_data r = F -> r_open r = true -> zlen F < two63 ->
  h_bitmapOffset (r_header r) = boff -> h_bitmapSize (r_header r) = bsize -> bitmap_at F boff bsize b ->
  loadGlobalIDBitmap r = bm_deser (bm_ser b).
Proof.
  intros HF Ho Hlen E1 E2 (B1 & B2 & B3 & B4 & B5). unfold loadGlobalIDBitmap. rewrite HF, Ho, E1, E2.
  pose proof (zlen_nonneg (bm_ser b)) as H0.
  destruct (Z.eqb_spec boff 0); [lia|]. destruct (Z.eqb_spec bsize 0); [lia|]. cbn [orb].
  rewrite (i64_id boff) by (unfold is_i64, two63 in *; lia).
  rewrite (i64_id (boff + 4)) by (unfold is_i64, two63 in *; lia).
  rewrite readBytesAt_ok by lia. cbn [rbind]. unfold readBufferedUint32.
  pose proof (field_read 4 F boff _ boff 4 ltac:(lia) B4 Hlen ltac:(lia) ltac:(lia) ltac:(lia) ltac:(lia)) as R.
  rewrite Z.sub_diag in R. rewrite R. cbn [rbind].
  destruct (Z.eq_dec (zlen (bm_ser b)) 0) as [E0|N0].
  - rewrite E0. apply zlen_0_nil in E0. rewrite E0. unfold readBytesAt.
    destruct (Z.ltb_spec 0 0); [lia|]. destruct (Z.ltb_spec (boff + 4) 0); [lia|]. reflexivity.
  - rewrite readBytesAt_ok by lia. cbn [rbind]. rewrite B5. reflexivity.
Qed.

Lemma Forall2_nth {A B} (P : A -> B -> Prop) l1 l2 i y : Forall2 P l1 l2 -> nth_error l2 i = Some y ->
  exists x, nth_error l1 i = Some x /\ P x y.
Proof.
  intros H. revert i. induction H as [|a b l1 l2 Hab _ IH]; intros [|i] E; cbn in E; try discriminate.
  - injection E as <-. exists a. split; [reflexivity|exact Hab].
  - apply IH. exact E.
Qed.
Lemma Forall2_len {A B} (P : A -> B -> Prop) l1 l2 : Forall2 P l1 l2 -> zlen l1 = zlen l2.
Proof. induction 1; [reflexivity|]. rewrite !zlen_cons. lia. Qed.

Definition readable_as (r : reader) (target encoding time : Z) (b : bm) (blocks : list block) : Prop :=
  RVersion r = 1 /\ EncodingType r = encoding /\ h_blockSizeTarget (r_header r) = target
  /\ h_creationTime (r_header r) = time /\ view r blocks
  /\ loadGlobalIDBitmap r = bm_deser (bm_ser b) /\ r_globalIDs r = None /\ r_cacheGlobalIDs r = false.

Theorem conforming_read F target encoding time b blocks :
  conforms F target encoding time b blocks -> format_limits F blocks -> doc_readable encoding ->
  exists r, NewReader F = Ok r /\ readable_as r target encoding time b blocks.
Proof.
  intros (boff & bsize & start & entries & Hh & Hb & Hids & Hf & H2) (L1 & L2 & L3) Hd.
  pose proof (Forall2_len _ _ _ H2) as Hlen. rewrite <- Hlen in Hh.
  fold two63 in L1. fold two32 in L2.
  destruct (NewReader_fields F target encoding time boff bsize start entries Hh Hf L1 ltac:(rewrite Hlen; exact L2)) as [ck HR].
  eexists. split; [exact HR|].
  assert (HG : Forall good_block blocks).
  { eapply Forall_impl; [|exact L3]. intros [ids vals] [T [W1 W2]]. cbn [fst snd] in *. apply typed_good; [exact T|exact W1|].
    intros E. apply W2. apply zlen_0_nil. exact E. }
  unfold readable_as. split; [reflexivity|]. split; [reflexivity|]. split; [reflexivity|]. split; [reflexivity|].
  split; [|split; [|split; reflexivity]].
  - constructor.
    + constructor.
      * exact Hlen.
      * exact L2.
      * exact HG.
      * cbn [doc_reader r_index]. clear - H2. induction H2 as [|e x l1 l2 (H & _) _ IH]; constructor; assumption.
      * cbn [doc_reader r_index]. clear - H2. induction H2 as [|e x l1 l2 (_ & _ & H) _ IH]; constructor; [|assumption].
        destruct H as (_ & _ & io & isz & vo & vsz & F1 & F2 & _ & _ & B & _).
        pose proof (field_word _ _ _ _ F1). pose proof (field_word _ _ _ _ F2). lia.
    + intros i Hi. unfold GetPairs. destruct (nth_error blocks (Z.to_nat i)) as [x|] eqn:Ex.
      * destruct (Forall2_nth _ _ _ _ _ H2 Ex) as (en & Hen & (T & _ & B)).
        assert (Hlt : (Z.to_nat i < length blocks)%nat) by (apply nth_error_Some; congruence).
        assert (Hr : 0 <= i < zlen blocks) by (unfold zlen, is_u64 in *; lia).
        rewrite i64_id by (unfold is_i64, is_u64, two63, two32 in *; lia).
        assert (Gx : good_block x) by (rewrite Forall_forall in HG; apply HG; eapply nth_error_In; exact Ex).
        apply (readBlock_fields _ encoding i x en); try assumption; try reflexivity.
        -- cbn [doc_reader r_index]. lia.
        -- apply T.
        -- destruct B as [B _]. lia.
      * apply nth_error_None in Ex. unfold readBlock. cbn [doc_reader r_index].
        assert (Hge : zlen entries <= i) by (unfold zlen, is_u64 in *; lia).
        unfold is_u64, two64 in Hi.
        assert (i64 i < 0 \/ i64 i = i) as [Hneg|Heq] by (unfold i64, two63, two64; lia).
        -- destruct (Z.ltb_spec (i64 i) 0); [reflexivity|lia].
        -- rewrite Heq. destruct (Z.ltb_spec i 0); [lia|]. destruct (Z.geb_spec i (zlen entries)); [reflexivity|lia].
  - eapply doc_bitmap; try reflexivity; [exact L1|exact Hb].
Qed.

Theorem view_aggregate {Lw : SroarLaws Srr} r blocks gomaxprocs sched opts x : view r blocks ->
  (o_filter opts = None -> o_deny opts = None -> o_skip opts = false -> Forall no_min_stat blocks) ->
  AggregateWithOptions gomaxprocs sched r opts = Some x ->
  exists res, x = Ok res /\ aggregate_of (chosen (o_filter opts) (o_deny opts) blocks) res.
Proof.
  intros V Hn Hx. pose proof (v_indexed _ _ V) as HI.
  apply (parallel_sequential _ _ _ _ _ (indexed_sane r blocks opts HI)) in Hx. subst x.
  rewrite (sequential_answer r blocks) by
    (try exact V; intros U; unfold uses_footer, has_filter in U; apply Hn; destruct (o_filter opts), (o_deny opts), (o_skip opts);
     rewrite ?andb_false_r in U; cbn in U; rewrite ?andb_false_r in U; congruence).
  eexists. split; [reflexivity|]. apply answer_aggregate. exact HI.
Qed.

Theorem reader_follows_document {Lw : SroarLaws Srr} F target encoding time b blocks :
  conforms F target encoding time b blocks -> format_limits F blocks -> doc_readable encoding ->
  exists r, NewReader F = Ok r
    /\ RVersion r = 1 /\ EncodingType r = encoding /\ h_blockSizeTarget (r_header r) = target
    /\ h_creationTime (r_header r) = time /\ BlockCount r = zlen blocks
    /\ (forall i, is_u64 i ->
          GetPairs r i = match nth_error blocks (Z.to_nat i) with Some x => Ok x | None => Err ErrIndex end)
    /\ (forall hp, exists p r' hp' b', GetGlobalIDBitmap r hp = (Ok p, r', hp') /\ nth_error hp' p = Some b' /\ bm_equiv b' b)
    /\ forall gomaxprocs sched opts x, AggregateWithOptions gomaxprocs sched r opts = Some x ->
         (o_filter opts = None -> o_deny opts = None -> o_skip opts = false -> Forall no_min_stat blocks) ->
         exists res, x = Ok res /\ aggregate_of (chosen (o_filter opts) (o_deny opts) blocks) res.
Proof.
  intros HC HL Hd. destruct (conforming_read _ _ _ _ _ _ HC HL Hd) as (r & HR & A1 & A2 & A3 & A4 & V & B1 & B2 & B3).
  exists r. split; [exact HR|]. repeat (split; [assumption|]). split; [apply V|]. split; [apply V|]. split.
  - intros hp. destruct (law_ser b) as (b' & Hb & Heq). rewrite Hb in B1. unfold GetGlobalIDBitmap. rewrite B2, B3, B1.
    eexists (length hp), r, (hp ++ [b']), b'. split; [reflexivity|]. split; [|exact Heq].
    rewrite nth_error_app2 by lia. rewrite Nat.sub_diag. reflexivity.
  - intros g sched opts x Hx Hn. eapply view_aggregate; eassumption.
Qed.

(** ** Writing *)
Lemma field_8 F o v : is_u64 v -> 0 <= o -> o + 8 <= zlen F -> slice F o 8 = le_bytes 8 v -> field 8 F o v.
Proof. intros Hv H0 H1 H2. split; [lia|]. split; [lia|]. split; [exact Hv|]. rewrite H2, le_val_8. apply u64_id. exact Hv. Qed.
Lemma field_4 F o v : is_u32 v -> 0 <= o -> o + 4 <= zlen F -> slice F o 4 = le_bytes 4 v -> field 4 F o v.
Proof. intros Hv H0 H1 H2. split; [lia|]. split; [lia|]. split; [exact Hv|]. rewrite H2, le_val_4. apply u32_id. exact Hv. Qed.

(** [parts] is at offset [o]. *)
Definition laid (F : list Z) (o : Z) (parts : list (list Z)) : Prop :=
  0 <= o /\ o + zlen (concat parts) <= zlen F /\ slice F o (zlen (concat parts)) = concat parts.
Lemma laid_part F o pre x post k : laid F o (pre ++ x :: post) -> k = o + zlen (concat pre) -> 0 <= k /\ k + zlen x <= zlen F /\ slice F k (zlen x) = x.
Proof.
  intros (H0 & H1 & H2) ->. pose proof (zlen_nonneg (concat pre)) as P1. pose proof (zlen_nonneg x) as P2.
  pose proof (zlen_nonneg (concat post)) as P3. rewrite concat_app in *. cbn [concat] in *. rewrite !zlen_app in *.
  split; [lia|]. split; [lia|].
  rewrite <- (slice_slice F o (zlen (concat pre) + (zlen x + zlen (concat post)))) by lia. rewrite H2.
  apply slice_mid; reflexivity.
Qed.
Lemma laid_8 F o pre v post k : laid F o (pre ++ le_bytes 8 v :: post) -> k = o + zlen (concat pre) -> is_u64 v -> field 8 F k v.
Proof. intros H E Hv. apply (laid_part F o pre _ post k) in H; [|exact E]. rewrite zlen_le_bytes in H. apply field_8; tauto. Qed.
Lemma laid_4 F o pre v post k : laid F o (pre ++ le_bytes 4 v :: post) -> k = o + zlen (concat pre) -> is_u32 v -> field 4 F k v.
Proof. intros H E Hv. apply (laid_part F o pre _ post k) in H; [|exact E]. rewrite zlen_le_bytes in H. apply field_4; tauto. Qed.
Lemma laid_sub F o x parts : laid F o [x] -> x = concat parts -> laid F o parts.
Proof. unfold laid. cbn [concat]. rewrite app_nil_r. intros H ->. exact H. Qed.

Lemma laid_cons F o x post : laid F o (x :: post) -> slice F o (zlen x) = x /\ laid F (o + zlen x) post.
Proof.
  intros H. pose proof (laid_part F o [] x post o H ltac:(change (zlen (concat [])) with 0; lia)) as (A & B & C). split; [exact C|].
  destruct H as (H0 & H1 & H2). cbn [concat] in *. rewrite zlen_app in *. pose proof (zlen_nonneg x). pose proof (zlen_nonneg (concat post)).
  split; [lia|]. split; [lia|]. rewrite <- (slice_slice F o (zlen x + zlen (concat post))) by lia. rewrite H2, slice_app_r by lia.
  rewrite Z.sub_diag. apply slice_all; lia.
Qed.
Lemma laid_8_cons F o v post : laid F o (le_bytes 8 v :: post) -> is_u64 v -> field 8 F o v /\ laid F (o + 8) post.
Proof.
  intros H Hv. split; [apply (laid_8 F o [] v post); [exact H| |exact Hv]; change (zlen (concat [])) with 0; lia|].
  apply laid_cons in H. rewrite zlen_le_bytes in H. apply H.
Qed.
Lemma laid_4_cons F o v post : laid F o (le_bytes 4 v :: post) -> is_u32 v -> field 4 F o v /\ laid F (o + 4) post.
Proof.
  intros H Hv. split; [apply (laid_4 F o [] v post); [exact H| |exact Hv]; change (zlen (concat [])) with 0; lia|].
  apply laid_cons in H. rewrite zlen_le_bytes in H. apply H.
Qed.

Lemma field_at n F o o' v : field n F o v -> o = o' -> field n F o' v.
Proof. intros H <-. exact H. Qed.
Ltac fa B := refine (field_at _ _ _ _ _ B _); lia.

Lemma base128_loop fuel v : 0 < v < 2 ^ (7 * Z.of_nat fuel) -> base128 v (encodeVarInt_loop fuel v).
Proof.
  revert v. induction fuel as [|fuel IH]; intros v Hv; [cbn in Hv; lia|].
  rewrite encodeVarInt_loop_S by lia. destruct (Z.ltb_spec v 128) as [Hs|Hs]; [constructor; lia|].
  rewrite Nat2Z.inj_succ, <- Z.add_1_r, pow2_7 in Hv by lia.
  assert (E : v = v mod 128 + 128 * (v / 128)) by lia. rewrite E at 1.
  replace (v mod 128 + 128) with (128 + v mod 128) by lia. constructor; [lia|]. apply IH. lia.
Qed.
Lemma base128_encode v : is_u64 v -> base128 v (encodeVarInt v) /\ zlen (encodeVarInt v) <= 10.
Proof.
  intros Hv. unfold encodeVarInt. destruct (Z.eqb_spec v 0) as [->|N].
  - split; [constructor; lia|]. unfold zlen. cbn. lia.
  - assert (H : 0 < v < 2 ^ (7 * Z.of_nat 10)) by (unfold is_u64, two64 in Hv; change (2 ^ (7 * Z.of_nat 10)) with 1180591620717411303424; lia).
    split; [apply base128_loop; exact H|]. apply encodeVarInt_loop_len in H. cbv zeta in H. lia.
Qed.
Lemma varints_encode l : Forall is_u64 l -> varints l (concat (map encodeVarInt l)).
Proof.
  intros H. exists (map encodeVarInt l). split; [reflexivity|]. split; induction H as [|x l Hx _ IH]; cbn [map]; constructor; auto; apply base128_encode; exact Hx.
Qed.
Lemma varints_signed l : Forall is_i64 l -> varints (map zigzag_number l) (concat (map encodeSignedVarInt l)).
Proof.
  intros H. replace (map encodeSignedVarInt l) with (map encodeVarInt (map zigzag_number l)).
  - apply varints_encode. apply Forall_map. eapply Forall_impl; [|exact H]. intros v Hv. cbv beta. rewrite zigzag_number_eq by exact Hv. apply zigzag_range. exact Hv.
  - rewrite map_map. apply map_ext_in. intros v Hv. rewrite Forall_forall in H. unfold encodeSignedVarInt. rewrite zigzag_number_eq by (apply H; exact Hv). reflexivity.
Qed.
Lemma sections e ids vals : faithful e -> good_block (ids, vals) ->
  id_section e ids (concat (id_chunks e ids)) /\ val_section e vals (concat (val_chunks e vals)).
Proof.
  intros He (Hi & Hv & _). cbn [fst snd] in *. unfold id_section, val_section. rewrite !differences_delta.
  fold (deltaEncode ids). fold (deltaEncodeInt64 vals).
  pose proof (deltaEncode_range ids Hi) as Hdi. pose proof (deltaEncodeInt64_range vals Hv) as Hdv.
  unfold id_chunks, val_chunks, id_items, val_items.
  destruct He as [->|[->|[->| ->]]]; cbn [existsb Z.eqb Pos.eqb orb]; cbn -[deltaEncode deltaEncodeInt64 encodeVarInt encodeSignedVarInt varints words];
    (split; [first [reflexivity|apply varints_encode; assumption]|first [reflexivity|apply varints_signed; assumption]]).
Qed.

Lemma header_laid F X now e target L b off : finalized F X now e target L b off -> within_limits F e target L b ->
  header_fields F (zlen L) target e (u64 now) off (4 + zlen (bm_ser b)).
Proof.
  intros [HF HH HB HO HM] [LF LI LE LT LB]. pose proof (zlen_nonneg (bm_ser b)) as N0. pose proof (zlen_nonneg L) as N1.
  assert (Lbm : zlen (bitmap_bytes b) = 4 + zlen (bm_ser b)) by (unfold bitmap_bytes; rewrite zlen_app, zlen_le_bytes; lia).
  assert (LX : zlen X <= zlen F) by (rewrite HF, zlen_app; pose proof (zlen_nonneg (footer_bytes (zlen L) (map (pentry e) L))); lia).
  assert (HL : laid F 0 (headerFields now (zlen L) target e off (4 + zlen (bm_ser b)))).
  { fold (header_bytes now (zlen L) target e off (4 + zlen (bm_ser b))) in *. unfold laid.
    fold (header_bytes now (zlen L) target e off (4 + zlen (bm_ser b))). rewrite zlen_header_bytes. split; [lia|]. split; [lia|].
    rewrite HF, slice_app_l by lia. unfold slice. change (zdrop 0 X) with X. exact HH. }
  unfold headerFields in HL.
  assert (U0 : is_u64 MagicNumber) by (vm_compute; split; [discriminate|reflexivity]).
  assert (U1 : is_u32 Version) by (unfold is_u32, two32, Version; lia).
  assert (U2 : is_u32 DataTypeInt64) by (unfold is_u32, two32, DataTypeInt64; lia).
  assert (U3 : is_u32 CompressionNone) by (unfold is_u32, two32, CompressionNone; lia).
  assert (U4 : is_u64 (zlen L)) by (unfold is_u64, two64, two32 in *; lia).
  assert (U5 : is_u64 off) by (unfold is_u64, two64, two63 in *; lia).
  assert (U6 : is_u64 (4 + zlen (bm_ser b))) by (unfold is_u64, two64, two32 in *; lia).
  destruct (laid_8_cons _ _ _ _ HL U0) as [B1 HL1]. destruct (laid_4_cons _ _ _ _ HL1 U1) as [B2 HL2].
  destruct (laid_4_cons _ _ _ _ HL2 U2) as [B3 HL3]. destruct (laid_8_cons _ _ _ _ HL3 U4) as [B4 HL4].
  destruct (laid_4_cons _ _ _ _ HL4 LT) as [B5 HL5]. destruct (laid_4_cons _ _ _ _ HL5 U3) as [B6 HL6].
  destruct (laid_4_cons _ _ _ _ HL6 LE) as [B7 HL7]. destruct (laid_8_cons _ _ _ _ HL7 (u64_range now)) as [B8 HL8].
  destruct (laid_8_cons _ _ _ _ HL8 U5) as [B9 HL9]. destruct (laid_8_cons _ _ _ _ HL9 U6) as [B10 _].
  assert (HX : 64 <= zlen F) by lia. clear - B1 B2 B3 B4 B5 B6 B7 B8 B9 B10 HX.
  constructor; [fa B1|fa B2|fa B3|fa B4|fa B5|fa B6|fa B7|fa B8|fa B9|fa B10|exact HX].
Qed.
Lemma bitmap_laid F X now e target L b off : finalized F X now e target L b off -> within_limits F e target L b ->
  bitmap_at F off (4 + zlen (bm_ser b)) b.
Proof.
  intros [HF HH HB HO HM] [LF LI LE LT LB]. pose proof (zlen_nonneg (bm_ser b)) as N0.
  assert (Lbm : zlen (bitmap_bytes b) = 4 + zlen (bm_ser b)) by (unfold bitmap_bytes; rewrite zlen_app, zlen_le_bytes; lia).
  assert (LX : zlen X <= zlen F) by (rewrite HF, zlen_app; pose proof (zlen_nonneg (footer_bytes (zlen L) (map (pentry e) L))); lia).
  assert (HL : laid F off [le_bytes 4 (u32 (zlen (bm_ser b))); bm_ser b]).
  { unfold laid. cbn [concat]. rewrite app_nil_r. fold (bitmap_bytes b). split; [lia|]. split; [lia|].
    rewrite HF, slice_app_l by lia. exact HM. }
  rewrite u32_id in HL by (unfold is_u32; lia).
  unfold bitmap_at. split; [lia|]. split; [reflexivity|]. split; [lia|]. split.
  - apply (laid_4_cons _ _ _ _ HL). unfold is_u32; lia.
  - apply (laid_part F off [le_bytes 4 (zlen (bm_ser b))] _ []) with (k := off + 4) in HL; [apply HL|].
    cbn [concat]. rewrite zlen_app, zlen_le_bytes. reflexivity.
Qed.

Lemma block_laid e F x : faithful e -> is_u32 e -> zlen F < two63 -> placed e F x ->
  block_header_fields F e (entry_of e x) /\ block_at F e (entry_of e x) (snd x)
  /\ slice F (fst x + 52) 8 = zeros 8.
Proof.
  intros He HeU HF (Hg & [C1 C2] & Hp & Hend & Hsl). destruct x as [p [ids vals]]. cbn [fst snd] in *.
  pose proof (sections e ids vals He Hg) as [SI SV].
  pose proof (stats_ranges ids vals Hg) as (R1 & R2 & R3 & R4 & R5 & R6).
  pose proof (block_image_small e p ids vals Hg) as Hsm.
  pose proof (zlen_nonneg (concat (id_chunks e ids))) as Zi. pose proof (zlen_nonneg (concat (val_chunks e vals))) as Zv.
  set (st := stats_of ids vals) in *.
  assert (HL : laid F p [le_bytes 8 (st_minID st); le_bytes 8 (st_maxID st); le_bytes 8 (int64ToUint64 (st_minValue st));
    le_bytes 8 (int64ToUint64 (st_maxValue st)); le_bytes 8 (int64ToUint64 (st_sum st)); le_bytes 4 (st_count st); le_bytes 4 e;
    le_bytes 4 CompressionNone; zeros 8; zeros 4; le_bytes 4 0; le_bytes 4 (id_claim e ids); le_bytes 4 (id_claim e ids);
    le_bytes 4 (val_claim e vals); concat (id_chunks e ids); concat (val_chunks e vals);
    zeros (calculatePadding (p + zlen (block_body e ids vals)) PageSize)]).
  { eapply laid_sub with (x := image_of e (p, (ids, vals))).
    - unfold laid. cbn [concat]. rewrite app_nil_r. split; [lia|]. split; [exact Hend|exact Hsl].
    - unfold image_of, block_image, block_body, block_header, block_layout. cbn [fst snd concat]. fold st.
      change (zeros 12) with (zeros 8 ++ zeros 4). rewrite <- !app_assoc, app_nil_r. reflexivity. }
  assert (Lim : zlen (image_of e (p, (ids, vals))) = 80 + id_claim e ids + val_claim e vals
     + zlen (zeros (calculatePadding (p + zlen (block_body e ids vals)) PageSize))).
  { unfold image_of, block_image, block_body. cbn [fst snd]. rewrite !zlen_app, zlen_block_header, C1, C2. unfold block_layout. rewrite !zlen_app, !zlen_le_bytes. lia. }
  pose proof (zlen_nonneg (zeros (calculatePadding (p + zlen (block_body e ids vals)) PageSize))) as Zp.
  change (image_of e (p, (ids, vals))) with (block_image e p ids vals) in *.
  assert (Ui : is_u32 (id_claim e ids)) by (unfold is_u32; lia). assert (Uv : is_u32 (val_claim e vals)) by (unfold is_u32; lia).
  assert (Uc : is_u32 CompressionNone) by (unfold is_u32, two32, CompressionNone; lia). assert (U0 : is_u32 0) by (unfold is_u32, two32; lia).
  assert (Us : forall v, is_i64 v -> is_u64 (int64ToUint64 v)) by (intros; apply int64ToUint64_range; assumption).
  pose proof C1 as D1. pose proof C2 as D2. clear C1 C2 Hsl.
  destruct (laid_8_cons _ _ _ _ HL R1) as [B1 HL1]. destruct (laid_8_cons _ _ _ _ HL1 R2) as [B2 HL2].
  destruct (laid_8_cons _ _ _ _ HL2 (Us _ R3)) as [B3 HL3]. destruct (laid_8_cons _ _ _ _ HL3 (Us _ R4)) as [B4 HL4].
  destruct (laid_8_cons _ _ _ _ HL4 (Us _ R5)) as [B5 HL5]. destruct (laid_4_cons _ _ _ _ HL5 R6) as [B6 HL6].
  destruct (laid_4_cons _ _ _ _ HL6 HeU) as [B7 HL7]. destruct (laid_4_cons _ _ _ _ HL7 Uc) as [B8 HL8].
  destruct (laid_cons _ _ _ _ HL8) as [B9 HL9]. change (zlen (zeros 8)) with 8 in *.
  destruct (laid_cons _ _ _ _ HL9) as [_ HL10]. change (zlen (zeros 4)) with 4 in *.
  destruct (laid_4_cons _ _ _ _ HL10 U0) as [B10 HL11]. destruct (laid_4_cons _ _ _ _ HL11 Ui) as [B11 HL12].
  destruct (laid_4_cons _ _ _ _ HL12 Ui) as [B12 HL13]. destruct (laid_4_cons _ _ _ _ HL13 Uv) as [B13 HL14].
  destruct (laid_cons _ _ _ _ HL14) as [B14 HL15]. destruct (laid_cons _ _ _ _ HL15) as [B15 _].
  unfold entry_of, pstats. cbn [fst snd]. change (stats_of ids vals) with st. change (image_of e (p, (ids, vals))) with (block_image e p ids vals).
  split; [constructor; cbn [e_offset e_minID e_maxID e_minValue e_maxValue e_sum e_count]; [fa B1|fa B2|fa B3|fa B4|fa B5|fa B6|fa B7|fa B8]|].
  split; [|replace (p + 52) with (p + 8 + 8 + 8 + 8 + 8 + 4 + 4 + 4) by lia; exact B9]. unfold block_at. cbn [e_offset e_size fst snd]. split; [exact Hp|]. split; [exact Hend|].
  exists 0, (id_claim e ids), (id_claim e ids), (val_claim e vals). split; [fa B10|]. split; [fa B11|]. split; [fa B12|]. split; [fa B13|].
  split; [lia|]. split; [lia|]. split.
  - rewrite D1, Z.add_0_r. replace (p + 80) with (p + 8 + 8 + 8 + 8 + 8 + 4 + 4 + 4 + 8 + 4 + 4 + 4 + 4 + 4) by lia. rewrite B14. exact SI.
  - rewrite D1, D2. replace (p + 80 + zlen (concat (id_chunks e ids))) with (p + 8 + 8 + 8 + 8 + 8 + 4 + 4 + 4 + 8 + 4 + 4 + 4 + 4 + 4 + zlen (concat (id_chunks e ids))) by lia.
    rewrite B15. exact SV.
Qed.

Lemma footer_laid F X now e target L b off : finalized F X now e target L b off -> within_limits F e target L b ->
  footer_fields F (zlen X) (map (entry_of e) L) /\ slice F (zlen F - 16) 8 = zeros 8.
Proof.
  intros [HF HH HB HO HM] [LF LI LE LT LB]. pose proof (zlen_nonneg L) as N1. pose proof (zlen_nonneg (bitmap_bytes b)) as N2.
  pose proof (concat_entries_len e L) as LC.
  assert (HL : laid F (zlen X) [le_bytes 4 (u32 (zlen L)); concat (map (pentry e) L); le_bytes 8 (4 + zlen (concat (map (pentry e) L))); le_bytes 8 0; le_bytes 8 MagicNumber]).
  { eapply laid_sub with (x := footer_bytes (zlen L) (map (pentry e) L)); [|unfold footer_bytes; cbn [concat]; rewrite app_nil_r; reflexivity].
    unfold laid. cbn [concat]. rewrite app_nil_r, HF, zlen_app. split; [apply zlen_nonneg|]. split; [lia|].
    rewrite slice_app_r by lia. rewrite Z.sub_diag. apply slice_all; lia. }
  assert (LenF : zlen F = zlen X + 28 + 56 * zlen L).
  { rewrite HF, zlen_app. unfold footer_bytes. rewrite !zlen_app, !zlen_le_bytes, LC. lia. }
  rewrite LC in HL. rewrite u32_id in HL by (unfold is_u32, two32 in *; lia).
  assert (U0 : is_u64 MagicNumber) by (vm_compute; split; [discriminate|reflexivity]).
  assert (U1 : is_u32 (zlen L)) by (unfold is_u32, two32 in *; lia).
  assert (U2 : is_u64 (4 + 56 * zlen L)) by (unfold is_u64, two64, two32 in *; lia).
  destruct (laid_4_cons _ _ _ _ HL U1) as [B1 HL1]. destruct (laid_cons _ _ _ _ HL1) as [B2 HL2].
  destruct (laid_8_cons _ _ _ _ HL2 U2) as [B3 HL3]. destruct (laid_cons _ _ _ _ HL3) as [B4 HL4].
  rewrite zlen_le_bytes in *. destruct (laid_8_cons _ _ _ _ HL4 U0) as [B5 _]. rewrite LC in *. change (Z.of_nat 8) with 8 in *.
  split.
  - assert (LM : zlen (map (entry_of e) L) = zlen L) by apply zlen_map. constructor.
    + lia.
    + rewrite LM. lia.
    + rewrite LM. exact B1.
    + intros i en Hen. rewrite nth_error_map in Hen. destruct (nth_error L i) as [x|] eqn:Ex; [|discriminate]. cbn [option_map] in Hen. injection Hen as <-.
      assert (Hi : Z.of_nat i < zlen L) by (assert (N : nth_error L i <> None) by congruence; apply nth_error_Some in N; unfold zlen; lia).
      assert (Px : placed e X x) by (rewrite Forall_forall in HB; apply HB; eapply nth_error_In; exact Ex).
      pose proof (nth_entry e L i x Ex) as S.
      assert (HE : laid F (zlen X + 4 + 56 * Z.of_nat i) [pentry e x]).
      { unfold laid. cbn [concat]. rewrite app_nil_r. assert (Lp : zlen (pentry e x) = 56) by apply zlen_entry_bytes. rewrite Lp.
        pose proof (zlen_nonneg X). split; [lia|]. split; [lia|]. rewrite <- S, <- B2. rewrite slice_slice by lia. f_equal. lia. }
      apply (laid_sub _ _ _ [le_bytes 8 (fst x); le_bytes 4 (u32 (zlen (image_of e x))); le_bytes 8 (st_minID (pstats x)); le_bytes 8 (st_maxID (pstats x));
         le_bytes 8 (int64ToUint64 (st_minValue (pstats x))); le_bytes 8 (int64ToUint64 (st_maxValue (pstats x)));
         le_bytes 8 (int64ToUint64 (st_sum (pstats x))); le_bytes 4 (st_count (pstats x))]) in HE;
        [|unfold pentry, entry_bytes; cbn [concat]; rewrite app_nil_r; reflexivity].
      destruct Px as (Hg & _ & Hp & Hend & _). destruct x as [p [ids vals]]. cbn [fst snd] in *. unfold pstats in HE. cbn [fst snd] in HE.
      pose proof (stats_ranges ids vals Hg) as (R1 & R2 & R3 & R4 & R5 & R6).
      pose proof (block_image_small e p ids vals Hg) as Hsm. change (image_of e (p, (ids, vals))) with (block_image e p ids vals) in *.
      rewrite u32_id in HE by (unfold is_u32; lia).
      assert (Us : forall v, is_i64 v -> is_u64 (int64ToUint64 v)) by (intros; apply int64ToUint64_range; assumption).
      assert (V1 : is_u64 p) by (unfold is_u64, two64, two63 in *; lia).
      assert (V2 : is_u32 (zlen (block_image e p ids vals))) by (unfold is_u32; lia).
      destruct (laid_8_cons _ _ _ _ HE V1) as [E1 HE1]. destruct (laid_4_cons _ _ _ _ HE1 V2) as [E2 HE2].
      destruct (laid_8_cons _ _ _ _ HE2 R1) as [E3 HE3]. destruct (laid_8_cons _ _ _ _ HE3 R2) as [E4 HE4].
      destruct (laid_8_cons _ _ _ _ HE4 (Us _ R3)) as [E5 HE5]. destruct (laid_8_cons _ _ _ _ HE5 (Us _ R4)) as [E6 HE6].
      destruct (laid_8_cons _ _ _ _ HE6 (Us _ R5)) as [E7 HE7]. destruct (laid_4_cons _ _ _ _ HE7 R6) as [E8 _].
      unfold entry_of, pstats. cbn [fst snd]. clear - E1 E2 E3 E4 E5 E6 E7 E8.
      constructor; cbn [e_offset e_size e_minID e_maxID e_minValue e_maxValue e_sum e_count];
        [fa E1|fa E2|fa E3|fa E4|fa E5|fa E6|fa E7|fa E8].
    + rewrite LM. clear - B3 LenF. fa B3.
    + clear - B5 LenF. fa B5.
  - replace (zlen F - 16) with (zlen X + 4 + 56 * zlen L + 8) by lia. exact B4.
Qed.

Theorem writer_follows_document {Lw : SroarLaws Srr} options faults h now w :
  finished_run options faults h now w -> faithful (encoding_of options) ->
  exists b blocks, stored h blocks
    /\ conforms (bytes_of w) (target_of options) (encoding_of options) (u64 now) b blocks
    /\ format_limits (bytes_of w) blocks
    /\ (no_torn_block h -> forall id, is_u64 id -> bm_contains b id = true -> In id (flat_map fst blocks))
    /\ slice (bytes_of w) (zlen (bytes_of w) - 16) 8 = zeros 8
    /\ exists r, NewReader (bytes_of w) = Ok r /\ Forall (fun e => slice (bytes_of w) (e_offset e + 52) 8 = zeros 8) (r_index r).
Proof.
  intros H He. assert (Hty : Forall (fun p => typed_call (fst p)) h).
  { destruct H as [now0 w0 f0 cs outs w1 fin n _ _ Hty _ -> _ _ _ _]. clear - Hty. revert outs.
    induction Hty as [|c cs Hc _ IH]; intros [|o outs]; cbn [combine]; constructor; auto. }
  destruct (finished_facts options faults h now w H) as (blocks & A & X & L & off & Hef & HL & HF & Hlim & HX & HC & HR).
  set (F := bytes_of w) in *. set (e := encoding_of options) in *. set (t := target_of options) in *.
  set (b := fold_left bm_set A bm_new) in *.
  exists b, blocks. split; [eapply effects_stored; exact Hef|].
  destruct (effects_typed _ _ _ Hef Hty) as [HA HT].
  pose proof (footer_laid _ _ _ _ _ _ _ _ HF Hlim) as [FF CK].
  pose proof (fz_blocks _ _ _ _ _ _ _ _ HF) as HB. pose proof (lim_enc _ _ _ _ _ Hlim) as LE. pose proof (lim_file _ _ _ _ _ Hlim) as LF.
  assert (HB' : Forall (placed e F) L).
  { rewrite (fz_data _ _ _ _ _ _ _ _ HF). eapply Forall_impl; [|exact HB]. intros x. apply placed_app. }
  split; [|split; [|split; [|split]]].
  - exists off, (4 + zlen (bm_ser b)), (zlen X), (map (entry_of e) L).
    split; [rewrite <- HL, zlen_map; eapply header_laid; eassumption|].
    split; [eapply bitmap_laid; eassumption|]. split; [|split; [exact FF|]].
    + intros id Hin. assert (Hid : is_u64 id).
      { apply in_flat_map in Hin. destruct Hin as (x & Hx1 & Hx2). rewrite Forall_forall in HT. apply HT in Hx1. destruct Hx1 as [Hx1 _].
        rewrite Forall_forall in Hx1. apply Hx1. exact Hx2. }
      unfold b. apply bm_fold_contains; [assumption|assumption|]. left. eapply effects_ids; eassumption.
    + rewrite <- HL. clear - HB' He LE LF. induction HB' as [|x L Hx _ IH]; cbn [map]; constructor; [|exact IH].
      split; [apply entry_true; apply Hx|]. destruct (block_laid e F x He LE LF Hx) as (P1 & P2 & _). split; [exact P1|exact P2].
  - split; [exact LF|]. split; [rewrite <- HL, zlen_map; exact (lim_index _ _ _ _ _ Hlim)|].
    rewrite <- HL. apply Forall_map. eapply Forall_impl; [|exact HB']. intros x ((G1 & G2 & G3 & G4) & _).
    split; [split; [exact G1|]; split; [exact G2|]; lia|]. split; [exact G3|].
    intros E. rewrite E in G4. change (zlen (@nil Z)) with 0 in G4. lia.
  - intros Hnt id Hid Hc. unfold b in Hc. apply bm_fold_contains in Hc; [|assumption|assumption].
    destruct Hc as [Hin|Hc]; [|rewrite law_new in Hc by assumption; discriminate].
    rewrite <- (effects_ids_exact _ _ _ Hef Hnt). exact Hin.
  - exact CK.
  - eexists. split; [exact HR|]. cbn [the_reader r_index]. apply Forall_map. eapply Forall_impl; [|exact HB'].
    intros x Hx. destruct (block_laid e F x He LE LF Hx) as (_ & _ & P). exact P.
Qed.
(** Delta-ID and delta-value files. *)
Lemma delta_from_same (w : Z -> Z) (Q : Z -> Prop) : (forall x y, Q x -> Q y -> w (x - y) = x -> y = 0) ->
  forall l p, Q p -> Forall Q l -> delta_from w p l = l -> Forall (fun n => n = 0) (removelast (p :: l)).
Proof.
  intros H. induction l as [|x l IH]; intros p Hp Hl E; [constructor|]. cbn [delta_from] in E.
  assert (E1 : w (x - p) = x) by (injection E; auto). assert (E2 : delta_from w x l = l) by (injection E; auto).
  inversion Hl as [|? ? Hx Hl']; subst. change (removelast (p :: x :: l)) with (p :: removelast (x :: l)). constructor; [|apply IH; assumption].
  apply (H x p); assumption.
Qed.
Lemma delta_same (w : Z -> Z) (Q : Z -> Prop) l : (forall x y, Q x -> Q y -> w (x - y) = x -> y = 0) -> Forall Q l ->
  delta_encode_with w l = l -> Forall (fun n => n = 0) (removelast l).
Proof.
  intros H HQ E. destruct l as [|p l]; [constructor|]. cbn [delta_encode_with] in E. inversion HQ; subst.
  eapply delta_from_same; try eassumption. injection E; auto.
Qed.

Theorem single_delta_shows {Lw : SroarLaws Srr} options faults h now w :
  finished_run options faults h now w ->
  encoding_of options = EncodingDeltaID \/ encoding_of options = EncodingDeltaValue ->
  exists blocks, stored h blocks
    /\ forall target time b, conforms (bytes_of w) target (encoding_of options) time b blocks ->
         Forall (fun x => Forall (fun n => n = 0)
                   (removelast (if encoding_of options =? EncodingDeltaID then snd x else fst x))) blocks.
Proof.
  intros H He. destruct (finished_facts options faults h now w H) as (blocks & A & X & L & off & Hef & HL & HF & Hlim & HX & HC & HR).
  exists blocks. split; [eapply effects_stored; exact Hef|]. intros target time b HCf.
  assert (HB : Forall good_block blocks).
  { rewrite <- HL. apply Forall_map. eapply Forall_impl; [|exact (fz_blocks _ _ _ _ _ _ _ _ HF)]. intros x Hx. apply Hx. }
  assert (HLim : format_limits (bytes_of w) blocks).
  { split; [exact (lim_file _ _ _ _ _ Hlim)|]. split; [rewrite <- HL, zlen_map; exact (lim_index _ _ _ _ _ Hlim)|].
    eapply Forall_impl; [|exact HB]. intros x (G1 & G2 & G3 & G4).
    split; [split; [exact G1|]; split; [exact G2|]; lia|]. split; [exact G3|].
    intros E. rewrite E in G4. change (zlen (@nil Z)) with 0 in G4. lia. }
  destruct (conforming_read _ _ _ _ _ _ HCf HLim) as (r & HR' & _ & _ & _ & _ & V & _).
  { destruct He as [-> | ->]; cbn; tauto. }
  rewrite HR in HR'. apply (f_equal (fun z => match z with Ok a => a | _ => r end)) in HR'. cbv beta iota in HR'. subst r.
  apply Forall_forall. intros x Hx. apply In_nth_error in Hx. destruct Hx as [i Hi].
  assert (Hlt : (i < length blocks)%nat) by (apply nth_error_Some; intros EN; pose proof (eq_trans (eq_sym EN) Hi); discriminate).
  assert (Hiu : is_u64 (Z.of_nat i)).
  { pose proof (lim_index _ _ _ _ _ Hlim) as LI. rewrite <- HL, map_length in Hlt. unfold is_u64, two64, two32, zlen, pblock, block in *. lia. }
  assert (Hc : consistent (encoding_of options)) by (unfold consistent, EncodingDeltaID, EncodingDeltaValue in *; tauto).
  pose proof (v_pairs _ _ V (Z.of_nat i) Hiu) as G. rewrite Nat2Z.id in G. unfold pblock, block in *. rewrite Hi in G.
  rewrite (GetPairs_finalized _ X) in G by assumption. rewrite Nat2Z.id in G.
  rewrite <- HL, nth_error_map in Hi. destruct (nth_error L i) as [y|] eqn:Ey; [|discriminate]. cbn [option_map] in Hi. injection Hi as Hi.
  unfold pblock, block in *. rewrite Ey in G. rewrite Hi in G. apply (f_equal (fun z => match z with Ok a => a | _ => x end)) in G. cbv beta iota in G.
  assert (Gx : good_block x). { rewrite Forall_forall in HB. apply HB. rewrite <- HL. rewrite <- Hi. apply in_map. eapply nth_error_In. exact Ey. }
  destruct Gx as (G1 & G2 & _). clear - He G G1 G2. destruct x as [ids vals]. cbn [fst snd] in *.
  destruct He as [He|He]; rewrite He in *; cbn in G |- *.
  - apply (f_equal snd) in G. cbn [snd] in G. eapply delta_same; [|exact G2|exact G].
    intros a c Ha Hb E. unfold is_i64, i64, two63, two64 in *. lia.
  - apply (f_equal fst) in G. cbn [fst] in G. eapply delta_same; [|exact G1|exact G].
    intros a c Ha Hb E. unfold is_u64, u64, two64 in *. lia.
Qed.
End Props.
