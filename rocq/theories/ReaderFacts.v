(** The reader, run on any finalized file. *)
From Verif Require Import Machine MachineFacts Encoding EncodingFacts FileIO Sroar Writer Spec FileFacts
  WriterFacts BlockFacts FinalFacts Reader.
Ltac Zify.zify_post_hook ::= Z.div_mod_to_equations.

(** A block with the offset at which it is stored. *)
Definition pblock : Type := Z * block.
Definition image_of (e : Z) (x : pblock) : list Z := block_image e (fst x) (fst (snd x)) (snd (snd x)).
Definition pstats (x : pblock) : blockStats := stats_of (fst (snd x)) (snd (snd x)).
Definition claims_ok (e : Z) (b : block) : Prop :=
  id_claim e (fst b) = zlen (concat (id_chunks e (fst b)))
  /\ val_claim e (snd b) = zlen (concat (val_chunks e (snd b))).
Definition placed (e : Z) (D : list Z) (x : pblock) : Prop :=
  good_block (snd x) /\ claims_ok e (snd x) /\ 64 <= fst x
  /\ fst x + zlen (image_of e x) <= zlen D
  /\ slice D (fst x) (zlen (image_of e x)) = image_of e x.

Definition pentry (e : Z) (x : pblock) : list Z := entry_bytes (fst x) (zlen (image_of e x)) (pstats x).

(** Generic field access. *)
Lemma slice_field (pre : list (list Z)) x post tl off n :
  off = zlen (concat pre) -> n = zlen x -> slice (concat (pre ++ x :: post) ++ tl) off n = x.
Proof.
  intros -> ->. rewrite concat_app. cbn [concat]. rewrite <- !app_assoc. apply slice_mid; reflexivity.
Qed.

Lemma readBuffered_ok n buf off x : 0 <= n -> 0 <= off -> off + n <= zlen buf -> slice buf off n = x ->
  readBuffered n buf off = Ok (le_val x).
Proof.
  intros Hn Ho Hl <-. unfold readBuffered.
  destruct (Z.ltb_spec off 0); [lia|]. destruct (Z.gtb_spec (off + n) (zlen buf)); [lia|]. reflexivity.
Qed.

Lemma readBytesAt_ok data off n : 0 < n -> 0 <= off -> off + n <= zlen data -> zlen data < two63 ->
  readBytesAt data true off n = Ok (slice data off n).
Proof.
  intros. unfold readBytesAt. unfold two63, max_int64 in *.
  destruct (Z.ltb_spec n 0); [lia|]. destruct (Z.ltb_spec off 0); [lia|].
  destruct (Z.eqb_spec n 0); [lia|]. cbn [negb].
  destruct (Z.gtb_spec (off + n) 9223372036854775807); [lia|].
  rewrite zeros_nil; [rewrite app_nil_r; reflexivity|]. rewrite zlen_slice by lia. lia.
Qed.

(** ** Header *)
Ltac hfield Hh := apply readBuffered_ok; [lia|lia|lia|].

Lemma readHeader_ok F now count target enc off size :
  64 <= zlen F -> zlen F < two63 ->
  ztake 60 F = header_bytes now count target enc off size ->
  is_u64 count -> is_u32 target -> is_u32 enc -> is_u64 off -> is_u64 size ->
  readHeader F = Ok (mkHeader MagicNumber 1 0 count target 0 enc (u64 now) off size).
Proof.
  intros HL HS HH Hc Ht He Ho Hs. unfold readHeader, headerSize.
  rewrite readBytesAt_ok by lia. cbn [rbind].
  set (buf := slice F 0 64).
  assert (Lb : zlen buf = 64) by (unfold buf; rewrite zlen_slice by lia; lia).
  assert (Hbuf : buf = header_bytes now count target enc off size ++ zdrop 60 buf).
  { rewrite <- HH. rewrite <- (ztake_zdrop 60 buf) at 1. f_equal. unfold buf, slice.
    rewrite zdrop_0 by lia. rewrite ztake_ztake. reflexivity. }
  unfold readBufferedUint64, readBufferedUint32. unfold header_bytes in Hbuf.
  set (hf := headerFields now count target enc off size) in *.
  assert (G : forall k n x, 0 <= n -> 0 <= k -> k + n <= 64 ->
     slice (concat hf ++ zdrop 60 buf) k n = x -> readBuffered n buf k = Ok (le_val x)).
  { intros k n x Hn Hk Hkn Hsl. apply readBuffered_ok; [lia|lia|lia|]. rewrite Hbuf. exact Hsl. }
  unfold hf, headerFields in G.
  rewrite (G 0 8 (le_bytes 8 MagicNumber) ltac:(lia) ltac:(lia) ltac:(lia))
    by (apply (slice_field [] _ _); reflexivity). cbn [rbind].
  rewrite (G 8 4 (le_bytes 4 Version) ltac:(lia) ltac:(lia) ltac:(lia))
    by (apply (slice_field [_] _ _); reflexivity). cbn [rbind].
  rewrite (G 12 4 (le_bytes 4 DataTypeInt64) ltac:(lia) ltac:(lia) ltac:(lia))
    by (apply (slice_field [_; _] _ _); reflexivity). cbn [rbind].
  rewrite (G 16 8 (le_bytes 8 count) ltac:(lia) ltac:(lia) ltac:(lia))
    by (apply (slice_field [_; _; _] _ _); reflexivity). cbn [rbind].
  rewrite (G 24 4 (le_bytes 4 target) ltac:(lia) ltac:(lia) ltac:(lia))
    by (apply (slice_field [_; _; _; _] _ _); reflexivity). cbn [rbind].
  rewrite (G 28 4 (le_bytes 4 CompressionNone) ltac:(lia) ltac:(lia) ltac:(lia))
    by (apply (slice_field [_; _; _; _; _] _ _); reflexivity). cbn [rbind].
  rewrite (G 32 4 (le_bytes 4 enc) ltac:(lia) ltac:(lia) ltac:(lia))
    by (apply (slice_field [_; _; _; _; _; _] _ _); reflexivity). cbn [rbind].
  rewrite (G 36 8 (le_bytes 8 (u64 now)) ltac:(lia) ltac:(lia) ltac:(lia))
    by (apply (slice_field [_; _; _; _; _; _; _] _ _); reflexivity). cbn [rbind].
  rewrite (G 44 8 (le_bytes 8 off) ltac:(lia) ltac:(lia) ltac:(lia))
    by (apply (slice_field [_; _; _; _; _; _; _; _] _ _); reflexivity). cbn [rbind].
  rewrite (G 52 8 (le_bytes 8 size) ltac:(lia) ltac:(lia) ltac:(lia))
    by (apply (slice_field [_; _; _; _; _; _; _; _; _] _ _); reflexivity). cbn [rbind].
  rewrite !le_val_8, !le_val_4.
  rewrite (u64_id count), (u64_id off), (u64_id size), (u32_id target), (u32_id enc) by assumption.
  rewrite (u64_id (u64 now)) by apply u64_range. reflexivity.
Qed.

(** ** Footer *)
Definition entry_of (e : Z) (x : pblock) : footerEntry :=
  mkEntry (fst x) (zlen (image_of e x)) (st_minID (pstats x)) (st_maxID (pstats x))
          (int64ToUint64 (st_minValue (pstats x))) (int64ToUint64 (st_maxValue (pstats x)))
          (int64ToUint64 (st_sum (pstats x))) (st_count (pstats x)).

Lemma calculateMinMax_in l : l <> [] -> In (fst (calculateMinMax l)) l /\ In (snd (calculateMinMax l)) l.
Proof.
  destruct l as [|v0 l]; [congruence|]. intros _.
  assert (G : forall l' mn mx, (In mn (v0 :: l) /\ In mx (v0 :: l)) -> incl l' (v0 :: l) ->
    In (fst (fold_left (fun '(mn, mx) v => (if v <? mn then v else mn, if v >? mx then v else mx)) l' (mn, mx))) (v0 :: l)
    /\ In (snd (fold_left (fun '(mn, mx) v => (if v <? mn then v else mn, if v >? mx then v else mx)) l' (mn, mx))) (v0 :: l)).
  { induction l' as [|v l' IH]; intros mn mx H Hi; [exact H|]. cbn [fold_left]. apply IH.
    - assert (In v (v0 :: l)) by (apply Hi; left; reflexivity).
      destruct (v <? mn), (v >? mx); tauto.
    - intros y Hy. apply Hi. right. exact Hy. }
  unfold calculateMinMax. apply G; [split; left; reflexivity|apply incl_refl].
Qed.
Lemma calculateSum_range l : is_i64 (calculateSumInt64 l).
Proof.
  unfold calculateSumInt64. assert (H : is_i64 0) by (unfold is_i64, two63; lia). revert H. generalize 0.
  induction l as [|v l IH]; intros s H; [exact H|]. cbn [fold_left]. apply IH, i64_range.
Qed.

Lemma stats_ranges ids vals : good_block (ids, vals) ->
  is_u64 (st_minID (stats_of ids vals)) /\ is_u64 (st_maxID (stats_of ids vals))
  /\ is_i64 (st_minValue (stats_of ids vals)) /\ is_i64 (st_maxValue (stats_of ids vals))
  /\ is_i64 (st_sum (stats_of ids vals)) /\ is_u32 (st_count (stats_of ids vals)).
Proof.
  intros (Hi & Hv & Hl & Hn). cbn [fst snd] in *. unfold stats_of.
  cbn [st_minID st_maxID st_minValue st_maxValue st_sum st_count].
  assert (Ni : ids <> []) by (intros ->; unfold zlen in Hn; cbn in Hn; lia).
  assert (Nv : vals <> []) by (intros ->; unfold zlen in *; cbn in *; lia).
  destruct (calculateMinMax_in ids Ni) as [I1 I2]. destruct (calculateMinMax_in vals Nv) as [V1 V2].
  rewrite Forall_forall in Hi, Hv. repeat split; try (apply Hi; assumption); try (apply Hv; assumption);
    try apply calculateSum_range; unfold max_items, two32 in *; lia.
Qed.

Lemma concat_entries_len e L : zlen (concat (map (pentry e) L)) = 56 * zlen L.
Proof.
  induction L as [|x L IH]; [reflexivity|]. cbn [map concat]. rewrite zlen_app, IH, zlen_cons.
  unfold pentry. rewrite zlen_entry_bytes. lia.
Qed.
Lemma nth_entry e L i x : nth_error L i = Some x ->
  slice (concat (map (pentry e) L)) (Z.of_nat i * 56) 56 = pentry e x.
Proof.
  intros H. apply nth_error_split in H. destruct H as (l1 & l2 & -> & Hl). rewrite map_app. cbn [map].
  pose proof (slice_field (map (pentry e) l1) (pentry e x) (map (pentry e) l2) [] (Z.of_nat i * 56) 56) as G.
  rewrite app_nil_r in G. apply G.
  - rewrite concat_entries_len. unfold zlen. rewrite Hl. lia.
  - unfold pentry. rewrite zlen_entry_bytes. reflexivity.
Qed.

Lemma readEntry_ok e L i x : nth_error L i = Some x -> 56 * zlen L < two32 ->
  good_block (snd x) -> is_u64 (fst x) ->
  readEntry (concat (map (pentry e) L)) (Z.of_nat i) = Ok (entry_of e x).
Proof.
  intros Hx HL Hg Hp. unfold readEntry.
  assert (Hi : 0 <= Z.of_nat i < zlen L).
  { assert (nth_error L i <> None) as N by congruence. apply nth_error_Some in N. unfold zlen. lia. }
  set (buf := concat (map (pentry e) L)).
  assert (Lb : zlen buf = 56 * zlen L) by apply concat_entries_len.
  unfold two32 in HL.
  rewrite (u32_id (Z.of_nat i * 56)) by (unfold is_u32, two32; lia).
  rewrite !u32_id by (unfold is_u32, two32; lia).
  unfold readBufferedUint64, readBufferedUint32.
  assert (G : forall k n y, 0 <= n -> 0 <= k -> k + n <= 56 -> slice (pentry e x) k n = y ->
     readBuffered n buf (Z.of_nat i * 56 + k) = Ok (le_val y)).
  { intros k n y Hn Hk Hkn <-. apply readBuffered_ok; [lia|lia|lia|].
    rewrite <- (nth_entry e L i x Hx). fold buf. rewrite slice_slice by lia. reflexivity. }
  rewrite <- (Z.add_0_r (Z.of_nat i * 56)) at 1.
  assert (F : forall pre y post k n, pentry e x = concat (pre ++ y :: post) -> k = zlen (concat pre) -> n = zlen y ->
     slice (pentry e x) k n = y).
  { intros pre y post k n -> Hk Hn. pose proof (slice_field pre y post [] k n Hk Hn) as S. rewrite app_nil_r in S. exact S. }
  assert (P : pentry e x = concat [le_bytes 8 (fst x); le_bytes 4 (u32 (zlen (image_of e x)));
     le_bytes 8 (st_minID (pstats x)); le_bytes 8 (st_maxID (pstats x));
     le_bytes 8 (int64ToUint64 (st_minValue (pstats x))); le_bytes 8 (int64ToUint64 (st_maxValue (pstats x)));
     le_bytes 8 (int64ToUint64 (st_sum (pstats x))); le_bytes 4 (st_count (pstats x))]).
  { unfold pentry, entry_bytes. cbn [concat]. rewrite app_nil_r. reflexivity. }
  rewrite (G 0 8 (le_bytes 8 (fst x)) ltac:(lia) ltac:(lia) ltac:(lia))
    by (eapply (F []); [exact P|reflexivity|reflexivity]). cbn [rbind].
  rewrite (G 8 4 (le_bytes 4 (u32 (zlen (image_of e x)))) ltac:(lia) ltac:(lia) ltac:(lia))
    by (eapply (F [_]); [exact P|reflexivity|reflexivity]). cbn [rbind].
  rewrite (G 12 8 (le_bytes 8 (st_minID (pstats x))) ltac:(lia) ltac:(lia) ltac:(lia))
    by (eapply (F [_; _]); [exact P|reflexivity|reflexivity]). cbn [rbind].
  rewrite (G 20 8 (le_bytes 8 (st_maxID (pstats x))) ltac:(lia) ltac:(lia) ltac:(lia))
    by (eapply (F [_; _; _]); [exact P|reflexivity|reflexivity]). cbn [rbind].
  rewrite (G 28 8 (le_bytes 8 (int64ToUint64 (st_minValue (pstats x)))) ltac:(lia) ltac:(lia) ltac:(lia))
    by (eapply (F [_; _; _; _]); [exact P|reflexivity|reflexivity]). cbn [rbind].
  rewrite (G 36 8 (le_bytes 8 (int64ToUint64 (st_maxValue (pstats x)))) ltac:(lia) ltac:(lia) ltac:(lia))
    by (eapply (F [_; _; _; _; _]); [exact P|reflexivity|reflexivity]). cbn [rbind].
  rewrite (G 44 8 (le_bytes 8 (int64ToUint64 (st_sum (pstats x)))) ltac:(lia) ltac:(lia) ltac:(lia))
    by (eapply (F [_; _; _; _; _; _]); [exact P|reflexivity|reflexivity]). cbn [rbind].
  rewrite (G 52 4 (le_bytes 4 (st_count (pstats x))) ltac:(lia) ltac:(lia) ltac:(lia))
    by (eapply (F [_; _; _; _; _; _; _]); [exact P|reflexivity|reflexivity]). cbn [rbind].
  rewrite !le_val_8, !le_val_4.
  destruct x as [p [ids vals]]. cbn [fst snd] in *. unfold pstats. cbn [fst snd].
  pose proof (stats_ranges ids vals Hg) as (R1 & R2 & R3 & R4 & R5 & R6).
  pose proof (block_image_small e p ids vals Hg) as Hsm.
  rewrite (u64_id p), (u64_id (st_minID _)), (u64_id (st_maxID _)), (u32_id (st_count _)) by assumption.
  rewrite !(u64_id (int64ToUint64 _)) by (apply int64ToUint64_range; assumption).
  rewrite (u32_id (u32 _)) by apply u32_range.
  unfold image_of. cbn [fst snd]. rewrite u32_id by (unfold is_u32; lia). reflexivity.
Qed.

Lemma readEntries_ok e L : 56 * zlen L < two32 ->
  Forall (fun x => good_block (snd x) /\ is_u64 (fst x)) L ->
  readEntries (concat (map (pentry e) L)) (zseq (zlen L)) = Ok (map (entry_of e) L).
Proof.
  intros HL Hg.
  assert (G : forall rest pre, L = pre ++ rest ->
    readEntries (concat (map (pentry e) L)) (map Z.of_nat (seq (length pre) (length rest))) = Ok (map (entry_of e) rest)).
  { induction rest as [|x rest IH]; intros pre Hp; [reflexivity|].
    cbn [length seq map readEntries].
    assert (Hx : nth_error L (length pre) = Some x).
    { rewrite Hp, nth_error_app2 by lia. rewrite Nat.sub_diag. reflexivity. }
    assert (Hgx : good_block (snd x) /\ is_u64 (fst x)).
    { rewrite Forall_forall in Hg. apply Hg. eapply nth_error_In. exact Hx. }
    rewrite (readEntry_ok e L (length pre) x Hx HL) by tauto. cbn [rbind].
    specialize (IH (pre ++ [x])). rewrite app_length in IH. cbn [length] in IH.
    rewrite Nat.add_1_r in IH. rewrite IH by (rewrite <- app_assoc; exact Hp). reflexivity. }
  specialize (G L [] eq_refl). unfold zseq, zlen. rewrite Nat2Z.id. exact G.
Qed.

(** A finalized file: everything the reader needs, independent of how it came about. *)
Section Finalized.
Context {Srr : Sroar}.

Record finalized (F X : list Z) (now e target : Z) (L : list pblock) (b : bm) (off : Z) : Prop := {
  fz_data : F = X ++ footer_bytes (zlen L) (map (pentry e) L);
  fz_header : ztake 60 X = header_bytes now (zlen L) target e off (4 + zlen (bm_ser b));
  fz_blocks : Forall (placed e X) L;
  fz_off : 64 <= off /\ off + zlen (bitmap_bytes b) <= zlen X;
  fz_bitmap : slice X off (zlen (bitmap_bytes b)) = bitmap_bytes b
}.

(** Size limits of the format. *)
Record within_limits (F : list Z) (e target : Z) (L : list pblock) (b : bm) : Prop := {
  lim_file : zlen F < two63;
  lim_index : 56 * zlen L < two32;
  lim_enc : is_u32 e;
  lim_target : is_u32 target;
  lim_bitmap : zlen (bm_ser b) < two32
}.

Definition the_reader (F : list Z) (now e target : Z) (L : list pblock) (b : bm) (off : Z) : reader :=
  mkReader F true
    (mkHeader MagicNumber 1 0 (zlen L) target 0 e (u64 now) off (4 + zlen (bm_ser b)))
    (mkMeta (4 + 56 * zlen L) 0 MagicNumber) (map (entry_of e) L) None false.

Lemma zlen_footer e L : zlen (footer_bytes (zlen L) (map (pentry e) L)) = 28 + 56 * zlen L.
Proof.
  unfold footer_bytes. rewrite !zlen_app, !zlen_le_bytes, concat_entries_len. lia.
Qed.

Theorem NewReader_finalized F X now e target L b off :
  finalized F X now e target L b off -> within_limits F e target L b ->
  NewReader F = Ok (the_reader F now e target L b off).
Proof.
  intros Hf Hl. destruct Hf as [HF HH HB HO HM]. destruct Hl as [LF LI LE LT LB].
  pose proof (zlen_nonneg L) as HL0. pose proof (zlen_nonneg (bitmap_bytes b)) as Hbb.
  assert (LenF : zlen F = zlen X + 28 + 56 * zlen L) by (rewrite HF, zlen_app, zlen_footer; lia).
  unfold NewReader.
  assert (T60 : ztake 60 F = header_bytes now (zlen L) target e off (4 + zlen (bm_ser b))).
  { rewrite HF, ztake_app_l by lia. exact HH. }
  pose proof (zlen_nonneg (bm_ser b)) as Hs0.
  rewrite (readHeader_ok F now (zlen L) target e off (4 + zlen (bm_ser b)));
    [|lia|assumption|exact T60|unfold is_u64, two64, two32 in *; lia|assumption|assumption
     |unfold is_u64, two64, two63 in *; lia|unfold is_u64, two64, two32 in *; lia].
  cbn [rbind]. unfold readFooter.
  destruct (Z.ltb_spec (zlen F) 24); [lia|].
  rewrite readBytesAt_ok by lia. cbn [rbind].
  unfold footer_bytes in HF.
  set (tail := le_bytes 8 (4 + zlen (concat (map (pentry e) L))) ++ le_bytes 8 0 ++ le_bytes 8 MagicNumber) in HF.
  assert (Ltail : zlen tail = 24) by (unfold tail; rewrite !zlen_app, !zlen_le_bytes; reflexivity).
  set (pre := le_bytes 4 (u32 (zlen L)) ++ concat (map (pentry e) L)).
  assert (HF' : F = (X ++ pre) ++ tail) by (rewrite HF; unfold pre; rewrite <- !app_assoc; reflexivity).
  assert (Lpre : zlen pre = 4 + 56 * zlen L) by (unfold pre; rewrite zlen_app, zlen_le_bytes, concat_entries_len; lia).
  assert (S1 : slice F (zlen F - 24) 24 = tail).
  { rewrite HF'. replace ((X ++ pre) ++ tail) with ((X ++ pre) ++ tail ++ []) by (rewrite app_nil_r; reflexivity).
    apply slice_mid; rewrite ?app_nil_r, ?zlen_app; lia. }
  rewrite S1.
  unfold readBufferedUint64, readBufferedUint32.
  assert (Pt : tail = concat [le_bytes 8 (4 + zlen (concat (map (pentry e) L))); le_bytes 8 0; le_bytes 8 MagicNumber] ++ []).
  { unfold tail. cbn [concat]. rewrite !app_nil_r. reflexivity. }
  rewrite (readBuffered_ok 8 tail 0 (le_bytes 8 (4 + zlen (concat (map (pentry e) L))))) by
    (try lia; rewrite Pt; apply (slice_field [] _ _); reflexivity). cbn [rbind].
  rewrite (readBuffered_ok 8 tail 8 (le_bytes 8 0)) by
    (try lia; rewrite Pt; apply (slice_field [_] _ _); reflexivity). cbn [rbind].
  rewrite (readBuffered_ok 8 tail 16 (le_bytes 8 MagicNumber)) by
    (try lia; rewrite Pt; apply (slice_field [_; _] _ _); reflexivity). cbn [rbind].
  rewrite !le_val_8. change (u64 MagicNumber =? MagicNumber) with true. cbn [negb].
  rewrite concat_entries_len.
  rewrite (u64_id (4 + 56 * zlen L)) by (unfold is_u64, two64, two32 in *; lia).
  rewrite (i64_id (4 + 56 * zlen L)) by (unfold is_i64, two63, two32 in *; lia).
  replace (zlen F - 24 - (4 + 56 * zlen L)) with (zlen X) by lia.
  rewrite (i64_id (zlen X)) by (unfold is_i64, two63 in *; lia).
  destruct (Z.ltb_spec (zlen X) 64); [lia|].
  rewrite readBytesAt_ok by lia. cbn [rbind].
  assert (S2 : slice F (zlen X) 4 = le_bytes 4 (u32 (zlen L))).
  { rewrite HF. rewrite slice_mid by (rewrite ?zlen_le_bytes; lia). reflexivity. }
  rewrite S2.
  rewrite (readBuffered_ok 4 (le_bytes 4 (u32 (zlen L))) 0 (le_bytes 4 (u32 (zlen L)))) by
    (rewrite ?zlen_le_bytes; try lia; apply slice_all; rewrite ?zlen_le_bytes; reflexivity).
  cbn [rbind]. rewrite le_val_4. rewrite !(u32_id (zlen L)) by (unfold is_u32, two32 in *; lia).
  destruct (Z.gtb_spec (zlen L) (h_blockCount (mkHeader MagicNumber 1 0 (zlen L) target 0 e (u64 now) off (4 + zlen (bm_ser b)))))
    as [Hc|_]; [cbn in Hc; lia|].
  rewrite (i64_id (zlen X + 4)) by (unfold is_i64, two63 in *; lia).
  assert (S3 : readBytesAt F true (zlen X + 4) (zlen L * 56) = Ok (concat (map (pentry e) L))).
  { destruct (Z.eq_dec (zlen L) 0) as [E0|N0].
    - rewrite E0. apply zlen_0_nil in E0. rewrite E0. cbn [map concat]. unfold readBytesAt.
      destruct (Z.ltb_spec (0 * 56) 0); [lia|]. destruct (Z.ltb_spec (zlen X + 4) 0); [lia|].
      reflexivity.
    - rewrite readBytesAt_ok by lia. f_equal. rewrite HF'. unfold pre.
      replace ((X ++ le_bytes 4 (u32 (zlen L)) ++ concat (map (pentry e) L)) ++ tail)
        with ((X ++ le_bytes 4 (u32 (zlen L))) ++ concat (map (pentry e) L) ++ tail)
        by (rewrite <- !app_assoc; reflexivity).
      apply slice_mid; rewrite ?zlen_app, ?zlen_le_bytes, ?concat_entries_len; lia. }
  rewrite S3. cbn [rbind].
  rewrite readEntries_ok; [|assumption|].
  - reflexivity.
  - eapply Forall_impl; [|exact HB]. intros x (G1 & _ & G3 & G4 & _). split; [assumption|].
    pose proof (zlen_nonneg (image_of e x)). unfold is_u64, two64, two63 in *. lia.
Qed.

End Finalized.
