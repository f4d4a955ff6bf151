(** The reader on every file that follows the format document, and the writer's files follow it. *)
From Verif Require Import Machine MachineFacts Encoding EncodingFacts FileIO Sroar Writer Spec FileFacts
  WriterFacts BlockFacts FinalFacts Reader ReaderFacts DecodeFacts FormatSpec.
Ltac Zify.zify_post_hook ::= Z.div_mod_to_equations.

(** ** Varints *)
Lemma base128_pos v bs : base128 v bs -> 0 <= v /\ 1 <= zlen bs.
Proof.
  induction 1 as [v H|low v bs H _ IH]; [rewrite zlen_cons; unfold zlen; cbn; lia|]. rewrite zlen_cons. lia.
Qed.
Lemma land_127_high low : 0 <= low < 128 -> Z.land (128 + low) 127 = low.
Proof. intros H. rewrite land_127 by lia. replace (128 + low) with (low + 1 * 128) by lia. rewrite Z.mod_add by lia. apply Z.mod_small. lia. Qed.
Lemma base128_uvarint v bs : base128 v bs -> forall rest x i, 0 <= i -> i + zlen bs <= 10 ->
  0 <= x < 2 ^ (7 * i) -> v * 2 ^ (7 * i) < two64 ->
  uvarint_loop (bs ++ rest) i x (7 * i) = (x + v * 2 ^ (7 * i), i + zlen bs).
Proof.
  induction 1 as [v Hv|low v bs Hl Hb IH]; intros rest x i Hi Hn Hx Hs.
  - assert (Hp : 0 < 2 ^ (7 * i)) by (apply Z.pow_pos_nonneg; lia).
    rewrite zlen_cons in *. change (zlen (@nil Z)) with 0 in *. cbn [app uvarint_loop].
    destruct (Z.eqb_spec i 10); [lia|]. destruct (Z.ltb_spec v 128); [|lia].
    rewrite u64_id by (unfold is_u64; rewrite Z.shiftl_mul_pow2 by lia; nia).
    rewrite lor_shiftl_add by lia.
    destruct (Z.eqb_spec i 9) as [->|]; cbn [andb].
    + destruct (Z.gtb_spec v 1) as [H1|H1]; [|f_equal; lia].
      exfalso. change (2 ^ (7 * 9)) with 9223372036854775808 in *. unfold two64 in Hs. lia.
    + f_equal; lia.
  - assert (Hp : 0 < 2 ^ (7 * i)) by (apply Z.pow_pos_nonneg; lia).
    destruct (base128_pos v bs Hb) as [Hv0 Hl1]. rewrite zlen_cons in *. cbn [app uvarint_loop].
    destruct (Z.eqb_spec i 10); [lia|]. destruct (Z.ltb_spec (128 + low) 128); [lia|].
    rewrite land_127_high by lia.
    assert (H7 : 2 ^ (7 * (i + 1)) = 2 ^ (7 * i) * 128).
    { replace (7 * (i + 1)) with (7 * i + 7) by lia. rewrite Z.pow_add_r by lia. reflexivity. }
    rewrite u64_id by (unfold is_u64; rewrite Z.shiftl_mul_pow2 by lia; nia).
    rewrite lor_shiftl_add by lia.
    replace (7 * i + 7) with (7 * (i + 1)) by lia.
    rewrite IH; [|lia|lia|nia|nia]. f_equal; nia.
Qed.
Lemma base128_decode v bs : base128 v bs -> forall rest x i, 0 <= i -> i + zlen bs <= 10 ->
  0 <= x < 2 ^ (7 * i) -> v * 2 ^ (7 * i) < two64 ->
  decodeVarInt_loop (bs ++ rest) x (7 * i) i = (x + v * 2 ^ (7 * i), i + zlen bs).
Proof.
  induction 1 as [v Hv|low v bs Hl Hb IH]; intros rest x i Hi Hn Hx Hs.
  - assert (Hp : 0 < 2 ^ (7 * i)) by (apply Z.pow_pos_nonneg; lia).
    rewrite zlen_cons in *. change (zlen (@nil Z)) with 0 in *. cbn [app decodeVarInt_loop].
    rewrite land_127, land_128_small by lia. rewrite Z.eqb_refl, Z.mod_small by lia.
    rewrite u64_id by (unfold is_u64; rewrite Z.shiftl_mul_pow2 by lia; nia).
    rewrite lor_shiftl_add by lia. f_equal; lia.
  - assert (Hp : 0 < 2 ^ (7 * i)) by (apply Z.pow_pos_nonneg; lia).
    destruct (base128_pos v bs Hb) as [Hv0 Hl1]. rewrite zlen_cons in *. cbn [app decodeVarInt_loop].
    rewrite land_127_high by lia. replace (128 + low) with (low + 128) by lia.
    rewrite land_128_big by lia. change (128 =? 0) with false. cbv iota.
    assert (H7 : 2 ^ (7 * (i + 1)) = 2 ^ (7 * i) * 128).
    { replace (7 * (i + 1)) with (7 * i + 7) by lia. rewrite Z.pow_add_r by lia. reflexivity. }
    destruct (Z.geb_spec (7 * i + 7) 70) as [Hge|_]; [lia|].
    rewrite u64_id by (unfold is_u64; rewrite Z.shiftl_mul_pow2 by lia; nia).
    rewrite lor_shiftl_add by lia.
    replace (7 * i + 7) with (7 * (i + 1)) by lia.
    rewrite IH; [|lia|lia|nia|nia]. f_equal; nia.
Qed.

Lemma loop_chunks items chunks rest first : Forall2 base128 items chunks -> Forall (fun c => zlen c <= 10) chunks -> Forall is_u64 items ->
  decodeUVarInts_loop (length items) first (concat chunks ++ rest) = Ok (items, false).
Proof.
  intros H2. revert first. induction H2 as [|x c items chunks Hx _ IH]; intros first Hl Hu; [reflexivity|].
  inversion Hl as [|? ? Hc Hl']; subst. inversion Hu as [|? ? Hxu Hu']; subst.
  cbn [length concat decodeUVarInts_loop]. destruct (base128_pos x c Hx) as [Hx0 Hc1]. rewrite <- app_assoc.
  destruct (c ++ concat chunks ++ rest) as [|b0 bs0] eqn:Eb.
  { exfalso. apply (f_equal zlen) in Eb. rewrite zlen_app, zlen_nil in Eb. pose proof (zlen_nonneg (concat chunks ++ rest)). lia. }
  rewrite <- Eb. unfold uvarint. change 0 with (7 * 0) at 3.
  rewrite (base128_uvarint x c Hx) by (change (2 ^ (7 * 0)) with 1; unfold is_u64, two64 in *; lia).
  change (2 ^ (7 * 0)) with 1. rewrite Z.mul_1_r, !Z.add_0_l.
  destruct (Z.leb_spec (zlen c) 0); [lia|]. rewrite zdrop_app_exact by reflexivity.
  rewrite IH by assumption. reflexivity.
Qed.
Lemma decodeUVarInts_varints items bs count : varints items bs -> Forall is_u64 items -> count = zlen items ->
  decodeUVarInts bs count = Ok items.
Proof.
  intros (chunks & -> & H2 & Hl) Hu ->. unfold decodeUVarInts.
  replace (Z.to_nat (zlen items)) with (length items) by (unfold zlen; lia).
  rewrite <- (app_nil_r (concat chunks)). rewrite loop_chunks by assumption. cbn [rbind].
  rewrite zdrop_all by (rewrite zlen_zseq; pose proof (zlen_nonneg items); lia). cbn [map]. rewrite app_nil_r. reflexivity.
Qed.
Lemma zigzag_number_eq v : is_i64 v -> zigzag_number v = zigzag v.
Proof. intros H. rewrite zigzag_val by exact H. reflexivity. Qed.
Lemma decodeValues_chunks vals chunks rest i : Forall2 base128 (map zigzag_number vals) chunks -> Forall (fun c => zlen c <= 10) chunks ->
  Forall is_i64 vals -> decodeVarIntValues (length vals) i (concat chunks ++ rest) = vals.
Proof.
  revert chunks i. induction vals as [|v vals IH]; intros chunks i H2 Hl Hu; [reflexivity|].
  cbn [map] in H2. inversion H2 as [|? c ? chunks' Hx H2']; subst. inversion Hl as [|? ? Hc Hl']; subst.
  inversion Hu as [|? ? Hv Hu']; subst.
  cbn [length concat decodeVarIntValues]. destruct (base128_pos _ c Hx) as [Hx0 Hc1]. rewrite <- app_assoc.
  destruct (c ++ concat chunks' ++ rest) as [|b0 bs0] eqn:Eb.
  { exfalso. apply (f_equal zlen) in Eb. rewrite zlen_app, zlen_nil in Eb. pose proof (zlen_nonneg (concat chunks' ++ rest)). lia. }
  rewrite <- Eb. unfold decodeSignedVarInt, decodeVarInt. rewrite zigzag_number_eq in * by exact Hv.
  pose proof (zigzag_range v Hv) as Hz.
  pose proof (base128_decode _ c Hx (concat chunks' ++ rest) 0 0 ltac:(lia) ltac:(lia) ltac:(cbn; lia)
                ltac:(change (2 ^ (7 * 0)) with 1; unfold is_u64 in Hz; lia)) as D.
  change (7 * 0) with 0 in D. rewrite D. change (2 ^ 0) with 1. rewrite Z.mul_1_r, !Z.add_0_l.
  rewrite unzigzag_zigzag by exact Hv.
  destruct (Z.leb_spec (zlen c) 0); [lia|]. rewrite zdrop_app_exact by reflexivity. f_equal. apply IH; assumption.
Qed.

(** ** Differences *)
Lemma differences_from w l : forall p, map (fun q => w (snd q - fst q)) (combine (p :: l) l) = delta_from w p l.
Proof. induction l as [|x l IH]; intros p; [reflexivity|]. cbn [combine map delta_from fst snd]. f_equal. apply IH. Qed.
Lemma differences_delta w l : differences w l = delta_encode_with w l.
Proof. destruct l as [|x l]; [reflexivity|]. cbn [differences delta_encode_with]. f_equal. apply differences_from. Qed.

Lemma delta_length w l : zlen (delta_encode_with w l) = zlen l.
Proof. unfold zlen. rewrite delta_encode_length. reflexivity. Qed.

(** ** Decoding the sections of a block *)
Lemma words_nonempty (l : list Z) : zlen (concat (map (le_bytes 8) l)) = 8 * zlen l.
Proof. rewrite zlen_concat_fixed. lia. Qed.
Definition doc_readable (e : Z) : Prop := In e [0; 1; 2; 3; 4; 7].

Lemma decode_fixed (is vs : list Z) n : Forall is_u64 is -> Forall is_i64 vs -> zlen is = n -> zlen vs = n ->
  (let maxCount := zlen (concat (map (le_bytes 8) is)) / 8 in
   let count := if n >? maxCount then maxCount else n in
   let ids' := decodeFixed (concat (map (le_bytes 8) is)) count (fun x => x) (fun i => u64 (i + 1)) in
   let maxCount := zlen (concat (map (le_bytes 8) vs)) / 8 in
   let '(count, ids') :=
     if count >? maxCount then
       (maxCount, if zlen ids' >? maxCount then ztake maxCount ids' else ids')
     else (count, ids') in
   Ok (ids', decodeFixed (concat (map (le_bytes 8) vs)) count i64 (fun i => i64 ((i + 1) * 100)))) = Ok (is, vs).
Proof.
  intros Hi Hv E1 E2. cbv zeta. rewrite !zlen_concat_fixed, !Z.div_mul by lia. rewrite E1, E2.
  destruct (Z.gtb_spec n n); [lia|]. destruct (Z.gtb_spec n n); [lia|].
  rewrite <- E1 at 1. rewrite (decodeFixed_ok _ _ is_u64) by (try assumption; intros; apply u64_id; assumption).
  rewrite <- E2. rewrite (decodeFixed_ok _ _ is_i64) by (try assumption; intros; rewrite i64_u64; apply i64_id; assumption).
  reflexivity.
Qed.
Theorem decode_sections e ids vals ib vb : doc_readable e -> good_block (ids, vals) ->
  id_section e ids ib -> val_section e vals vb -> decodeBlockData ib vb (zlen ids) e = Ok (ids, vals).
Proof.
  intros He (Hi & Hv & Hl & Hn) HI HV. cbn [fst snd] in *.
  pose proof (deltaEncode_range ids Hi) as Hdi. pose proof (deltaEncodeInt64_range vals Hv) as Hdv.
  pose proof (delta_length u64 ids) as Ldi. pose proof (delta_length i64 vals) as Ldv.
  unfold id_section, val_section in *. rewrite !differences_delta in *.
  fold deltaEncode in *. fold deltaEncodeInt64 in *. unfold decodeBlockData, words in *.
  assert (Hn' : Z.to_nat (zlen ids) = length vals) by (unfold zlen in *; lia).
  destruct He as [<-|[<-|[<-|[<-|[<-|[<-|[]]]]]]]; cbn [existsb Z.eqb Pos.eqb orb] in HI, HV.
  - subst ib vb. change (isVarInt 0) with false. cbv iota. rewrite decode_fixed by (auto; lia). reflexivity.
  - subst ib vb. change (isVarInt 1) with false. cbv iota. rewrite decode_fixed by (auto; lia). cbn [rbind].
    cbn -[deltaDecode deltaEncode deltaDecodeInt64 deltaEncodeInt64]. rewrite deltaDecode_encode by assumption. reflexivity.
  - subst ib vb. change (isVarInt 2) with false. cbv iota. rewrite decode_fixed by (auto; lia). cbn [rbind].
    cbn -[deltaDecode deltaEncode deltaDecodeInt64 deltaEncodeInt64]. rewrite deltaDecodeInt64_encode by assumption. reflexivity.
  - subst ib vb. change (isVarInt 3) with false. cbv iota. rewrite decode_fixed by (auto; lia). cbn [rbind].
    cbn -[deltaDecode deltaEncode deltaDecodeInt64 deltaEncodeInt64]. rewrite deltaDecode_encode, deltaDecodeInt64_encode by assumption. reflexivity.
  - change (isVarInt 4) with true. cbv iota. rewrite (decodeUVarInts_varints ids ib) by (auto; lia). cbn [rbind].
    destruct HV as (chunks & -> & H2 & Hc). rewrite Hn', <- (app_nil_r (concat chunks)), decodeValues_chunks by assumption. reflexivity.
  - change (isVarInt 7) with true. cbv iota. rewrite (decodeUVarInts_varints (deltaEncode ids) ib) by (auto; lia). cbn [rbind].
    destruct HV as (chunks & -> & H2 & Hc).
    replace (Z.to_nat (zlen ids)) with (length (deltaEncodeInt64 vals)) by (unfold zlen in *; lia).
    rewrite <- (app_nil_r (concat chunks)), decodeValues_chunks by assumption.
    cbn -[deltaDecode deltaEncode deltaDecodeInt64 deltaEncodeInt64]. rewrite deltaDecode_encode, deltaDecodeInt64_encode by assumption. reflexivity.
Qed.

(** ** Fields *)
Lemma field_read n F o v base len : 0 < n -> field n F o v -> zlen F < two63 ->
  0 <= base -> base <= o -> o + n <= base + len -> base + len <= zlen F ->
  readBuffered n (slice F base len) (o - base) = Ok v.
Proof.
  intros Hn (H0 & H1 & H2 & H3) HF Hb1 Hb2 Hb3 Hb4. subst v. apply readBuffered_ok; [lia|lia| |].
  - rewrite zlen_slice by lia. lia.
  - rewrite slice_slice by lia. f_equal. lia.
Qed.
Lemma field_word n F o v : field n F o v -> 0 <= v < 2 ^ (8 * n).
Proof. intros H. apply H. Qed.

Lemma field_header n F k v : 0 < n -> field n F k v -> zlen F < two63 -> 64 <= zlen F -> k + n <= 64 ->
  readBuffered n (slice F 0 64) k = Ok v.
Proof.
  intros Hn Hf HF HL Hk. pose proof Hf as (H0 & _). rewrite <- (Z.sub_0_r k). apply field_read; try assumption; lia.
Qed.
Lemma readHeader_fields F count target encoding time boff bsize :
  header_fields F count target encoding time boff bsize -> zlen F < two63 ->
  readHeader F = Ok (mkHeader MagicNumber 1 0 count target 0 encoding time boff bsize).
Proof.
  intros [H1 H2 H3 H4 H5 H6 H7 H8 H9 H10 HL] HF. unfold readHeader, headerSize.
  rewrite readBytesAt_ok by lia. cbn [rbind]. unfold readBufferedUint64, readBufferedUint32.
  rewrite (field_header 8 F 0 format_magic) by (assumption || lia). cbn [rbind].
  rewrite (field_header 4 F 8 1) by (assumption || lia). cbn [rbind].
  rewrite (field_header 4 F 12 0) by (assumption || lia). cbn [rbind].
  rewrite (field_header 8 F 16 count) by (assumption || lia). cbn [rbind].
  rewrite (field_header 4 F 24 target) by (assumption || lia). cbn [rbind].
  rewrite (field_header 4 F 28 0) by (assumption || lia). cbn [rbind].
  rewrite (field_header 4 F 32 encoding) by (assumption || lia). cbn [rbind].
  rewrite (field_header 8 F 36 time) by (assumption || lia). cbn [rbind].
  rewrite (field_header 8 F 44 boff) by (assumption || lia). cbn [rbind].
  rewrite (field_header 8 F 52 bsize) by (assumption || lia). cbn [rbind]. reflexivity.
Qed.

Lemma field_entry n F start len i k v : 0 < n -> field n F (start + 56 * i + k) v -> zlen F < two63 ->
  0 <= start -> 0 <= i -> 0 <= k -> k + n <= 56 -> 56 * (i + 1) <= len -> start + len <= zlen F ->
  readBuffered n (slice F start len) (i * 56 + k) = Ok v.
Proof.
  intros Hn Hf HF H1 H2 H3 H4 H5 H6. replace (i * 56 + k) with (start + 56 * i + k - start) by lia.
  apply field_read; try assumption; lia.
Qed.
Lemma readEntry_fields F start len i e : entry_fields F (start + 56 * i) e -> zlen F < two63 ->
  0 <= start -> 0 <= i -> 56 * (i + 1) <= len -> len < two32 -> start + len <= zlen F ->
  readEntry (slice F start len) i = Ok e.
Proof.
  intros [H1 H2 H3 H4 H5 H6 H7 H8] HF Hs Hi Hlen Hl32 Hend. unfold readEntry, two32 in *.
  rewrite (u32_id (i * 56)) by (unfold is_u32, two32; lia).
  rewrite !u32_id by (unfold is_u32, two32; lia).
  unfold readBufferedUint64, readBufferedUint32.
  rewrite <- (Z.add_0_r (i * 56)) at 1. rewrite <- (Z.add_0_r (start + 56 * i)) in H1.
  rewrite (field_entry 8 F start len i 0 (e_offset e)) by (assumption || lia). cbn [rbind].
  rewrite (field_entry 4 F start len i 8 (e_size e)) by (assumption || lia). cbn [rbind].
  rewrite (field_entry 8 F start len i 12 (e_minID e)) by (assumption || lia). cbn [rbind].
  rewrite (field_entry 8 F start len i 20 (e_maxID e)) by (assumption || lia). cbn [rbind].
  rewrite (field_entry 8 F start len i 28 (e_minValue e)) by (assumption || lia). cbn [rbind].
  rewrite (field_entry 8 F start len i 36 (e_maxValue e)) by (assumption || lia). cbn [rbind].
  rewrite (field_entry 8 F start len i 44 (e_sum e)) by (assumption || lia). cbn [rbind].
  rewrite (field_entry 4 F start len i 52 (e_count e)) by (assumption || lia). cbn [rbind].
  destruct e. reflexivity.
Qed.
Lemma readEntries_fields F start entries : zlen F < two63 -> 0 <= start -> 56 * zlen entries < two32 ->
  start + 56 * zlen entries <= zlen F ->
  (forall i e, nth_error entries i = Some e -> entry_fields F (start + 56 * Z.of_nat i) e) ->
  readEntries (slice F start (56 * zlen entries)) (zseq (zlen entries)) = Ok entries.
Proof.
  intros HF Hs Hl Hend HE.
  assert (G : forall rest pre, entries = pre ++ rest ->
    readEntries (slice F start (56 * zlen entries)) (map Z.of_nat (seq (length pre) (length rest))) = Ok rest).
  { induction rest as [|x rest IH]; intros pre Hp; [reflexivity|].
    cbn [length seq map readEntries].
    assert (Hx : nth_error entries (length pre) = Some x).
    { rewrite Hp, nth_error_app2 by lia. rewrite Nat.sub_diag. reflexivity. }
    assert (Hb : 56 * (Z.of_nat (length pre) + 1) <= 56 * zlen entries).
    { assert (nth_error entries (length pre) <> None) as N by congruence. apply nth_error_Some in N. unfold zlen. lia. }
    rewrite (readEntry_fields F start (56 * zlen entries) (Z.of_nat (length pre)) x) by (try apply HE; assumption || lia).
    cbn [rbind]. specialize (IH (pre ++ [x])). rewrite app_length in IH. cbn [length] in IH.
    rewrite Nat.add_1_r in IH. rewrite IH by (rewrite <- app_assoc; exact Hp). reflexivity. }
  specialize (G entries [] eq_refl). unfold zseq, zlen in *. rewrite Nat2Z.id. exact G.
Qed.

Definition doc_reader (F : list Z) (count target encoding time boff bsize checksum : Z) (entries : list footerEntry) : reader :=
  mkReader F true (mkHeader MagicNumber 1 0 count target 0 encoding time boff bsize)
    (mkMeta (4 + 56 * zlen entries) checksum MagicNumber) entries None false.

Theorem NewReader_fields F target encoding time boff bsize start entries :
  header_fields F (zlen entries) target encoding time boff bsize -> footer_fields F start entries ->
  zlen F < two63 -> 56 * zlen entries < two32 ->
  exists checksum, NewReader F = Ok (doc_reader F (zlen entries) target encoding time boff bsize checksum entries).
Proof.
  intros Hh [F1 F2 F3 F4 F5 F6] HF Hl. pose proof (zlen_nonneg entries) as Hn0.
  unfold NewReader. rewrite (readHeader_fields _ _ _ _ _ _ _ Hh HF). cbn [rbind]. unfold readFooter.
  destruct (Z.ltb_spec (zlen F) 24); [lia|].
  rewrite readBytesAt_ok by lia. cbn [rbind]. unfold readBufferedUint64, readBufferedUint32.
  replace (readBuffered 8 (slice F (zlen F - 24) 24) 0) with (readBuffered 8 (slice F (zlen F - 24) 24) (zlen F - 24 - (zlen F - 24)))
    by (f_equal; lia).
  rewrite (field_read 8 F (zlen F - 24) _ _ _ ltac:(lia) F5) by lia. cbn [rbind].
  replace (readBuffered 8 (slice F (zlen F - 24) 24) 16) with (readBuffered 8 (slice F (zlen F - 24) 24) (zlen F - 8 - (zlen F - 24)))
    by (f_equal; lia).
  rewrite (field_read 8 F (zlen F - 8) _ _ _ ltac:(lia) F6) by lia.
  unfold readBuffered at 1. rewrite zlen_slice by lia.
  replace ((8 <? 0) || (8 + 8 >? Z.max 0 (Z.min 24 (zlen F - (zlen F - 24))))) with false by lia. cbn [rbind].
  change (format_magic =? MagicNumber) with true. cbn [negb].
  rewrite (i64_id (4 + 56 * zlen entries)) by (unfold is_i64, two63, two32 in *; lia).
  replace (zlen F - 24 - (4 + 56 * zlen entries)) with start by lia.
  rewrite (i64_id start) by (unfold is_i64, two63 in *; lia).
  destruct (Z.ltb_spec start 64); [lia|].
  rewrite readBytesAt_ok by lia. cbn [rbind].
  replace (readBuffered 4 (slice F start 4) 0) with (readBuffered 4 (slice F start 4) (start - start)) by (f_equal; lia).
  rewrite (field_read 4 F start _ _ _ ltac:(lia) F3) by lia. cbn [rbind h_blockCount].
  destruct (Z.gtb_spec (zlen entries) (zlen entries)); [lia|].
  rewrite (i64_id (start + 4)) by (unfold is_i64, two63 in *; lia).
  assert (S3 : readBytesAt F true (start + 4) (zlen entries * 56) = Ok (slice F (start + 4) (56 * zlen entries))).
  { destruct (Z.eq_dec (zlen entries) 0) as [E0|N0].
    - rewrite E0. unfold readBytesAt. destruct (Z.ltb_spec (0 * 56) 0); [lia|]. destruct (Z.ltb_spec (start + 4) 0); [lia|]. reflexivity.
    - rewrite readBytesAt_ok by lia. f_equal. f_equal. lia. }
  rewrite S3. cbn [rbind]. rewrite readEntries_fields by (assumption || lia). cbn [rbind].
  eexists. reflexivity.
Qed.

(** ** Blocks *)
Lemma concat_words_nil l : [] = concat (map (le_bytes 8) l) -> l = [].
Proof.
  intros H. apply zlen_0_nil. pose proof (zlen_concat_fixed l) as E. rewrite <- H in E. change (zlen (@nil Z)) with 0 in E. lia.
Qed.
Lemma varints_nil l : varints l [] -> l = [].
Proof.
  intros (chunks & E & H2 & _). destruct H2 as [|x c l' ch Hx _]; [reflexivity|]. exfalso.
  apply base128_pos in Hx. cbn [concat] in E. apply (f_equal zlen) in E. rewrite zlen_app in E.
  pose proof (zlen_nonneg (concat ch)). change (zlen (@nil Z)) with 0 in E. lia.
Qed.
Lemma differences_nil w l : differences w l = [] -> l = [].
Proof. destruct l; [reflexivity|discriminate]. Qed.
Lemma id_section_nonempty e l : id_section e l [] -> l = [].
Proof.
  unfold id_section. destruct (existsb _ [4; 5; 7]); intros H; [apply varints_nil in H|apply concat_words_nil in H];
    destruct (existsb _ _); try assumption; eapply differences_nil; exact H.
Qed.
Lemma val_section_nonempty e l : val_section e l [] -> l = [].
Proof.
  unfold val_section. destruct (existsb _ [4; 6; 7]); intros H; [apply varints_nil in H; apply map_eq_nil in H|apply concat_words_nil in H];
    destruct (existsb _ _); try assumption; eapply differences_nil; exact H.
Qed.
Theorem readBlock_fields r e i b en : r_open r = true -> zlen (r_data r) < two63 -> h_encodingType (r_header r) = e ->
  doc_readable e -> good_block b -> 0 <= i < zlen (r_index r) -> nth_error (r_index r) (Z.to_nat i) = Some en ->
  e_count en = zlen (fst b) -> 0 <= e_offset en -> block_at (r_data r) e en b ->
  readBlock r i = Ok b.
Proof.
  intros Ho HF He Hd Hg Hi Hnth Hc Hoff (B1 & B2 & io & isz & vo & vsz & F1 & F2 & F3 & F4 & B3 & B4 & SI & SV).
  unfold readBlock. destruct (Z.ltb_spec i 0); [lia|]. destruct (Z.geb_spec i (zlen (r_index r))); [lia|].
  cbn [orb]. rewrite Hnth. unfold blockHeaderSize.
  pose proof (field_word _ _ _ _ F1) as R1. pose proof (field_word _ _ _ _ F2) as R2.
  pose proof (field_word _ _ _ _ F3) as R3. pose proof (field_word _ _ _ _ F4) as R4.
  rewrite (i64_id (e_offset en)) by (unfold is_i64, two63 in *; lia).
  rewrite (i64_id (e_offset en + 64)) by (unfold is_i64, two63 in *; lia).
  rewrite Ho, readBytesAt_ok by lia. cbn [rbind]. unfold layoutField, readBufferedUint32.
  set (F := r_data r) in *. set (p := e_offset en) in *. set (n := e_size en) in *.
  assert (G : forall k v, field 4 F (p + 64 + k) v -> 0 <= k -> k + 4 <= n - 64 ->
    readBuffered 4 (slice F (p + 64) (n - 64)) k = Ok v).
  { intros k v Hf Hk1 Hk2. pose proof (field_read 4 F (p + 64 + k) v (p + 64) (n - 64) ltac:(lia) Hf HF ltac:(lia) ltac:(lia) ltac:(lia) ltac:(lia)) as X.
    replace (p + 64 + k - (p + 64)) with k in X by lia. exact X. }
  rewrite (G 0 io) by (rewrite ?Z.add_0_r; assumption || lia). cbn [rbind].
  rewrite (G 4 isz) by (rewrite <- ?Z.add_assoc; assumption || lia). cbn [rbind].
  rewrite (G 8 vo) by (rewrite <- ?Z.add_assoc; assumption || lia). cbn [rbind].
  rewrite (G 12 vsz) by (rewrite <- ?Z.add_assoc; assumption || lia). cbn [rbind].
  pose proof Hg as (G1 & G2 & G3 & G4).
  assert (L1 : 0 < isz).
  { destruct (Z.eq_dec isz 0) as [E|]; [|lia]. exfalso. subst isz.
    assert (E : slice F (p + 80 + io) 0 = []) by (apply zlen_0_nil; rewrite zlen_slice by lia; lia). rewrite E in SI.
    apply id_section_nonempty in SI. rewrite SI in G4. unfold zlen in G4. cbn in G4. lia. }
  assert (L2 : 0 < vsz).
  { destruct (Z.eq_dec vsz 0) as [E|]; [|lia]. exfalso. subst vsz.
    assert (E : slice F (p + 80 + vo) 0 = []) by (apply zlen_0_nil; rewrite zlen_slice by lia; lia). rewrite E in SV.
    apply val_section_nonempty in SV. rewrite SV in G3. unfold zlen in *. cbn in *. lia. }
  destruct (Z.eqb_spec isz 0); [lia|]. destruct (Z.eqb_spec vsz 0); [lia|].
  assert (Lb : zlen (slice F (p + 64) (n - 64)) = n - 64) by (rewrite zlen_slice by lia; lia). rewrite Lb.
  destruct (Z.gtb_spec (16 + io + isz) (n - 64)); [lia|]. destruct (Z.gtb_spec (16 + vo + vsz) (n - 64)); [lia|]. cbn [orb].
  rewrite !slice_slice by lia.
  replace (p + 64 + (16 + io)) with (p + 80 + io) by lia. replace (p + 64 + (16 + vo)) with (p + 80 + vo) by lia.
  rewrite He, Hc. destruct b as [ids vals]. cbn [fst snd] in *. apply decode_sections; assumption.
Qed.
