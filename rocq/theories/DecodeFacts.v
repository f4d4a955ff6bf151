(** GetPairs on a finalized file. *)
From Verif Require Import Machine MachineFacts Encoding EncodingFacts FileIO Sroar Writer Spec FileFacts
  WriterFacts BlockFacts FinalFacts Reader ReaderFacts.
Ltac Zify.zify_post_hook ::= Z.div_mod_to_equations.

(** ** Varint sections *)
Lemma uvarints_ok items rest n first : Forall is_u64 items -> n = length items ->
  decodeUVarInts_loop n first (concat (map encodeVarInt items) ++ rest) = Ok (items, false)
  \/ items = [].
Proof.
  intros H. revert n first. induction H as [|x items Hx _ IH]; intros n first ->; [right; reflexivity|left].
  cbn [length map concat decodeUVarInts_loop].
  pose proof (encodeVarInt_len x Hx) as Hl.
  rewrite <- app_assoc.
  destruct (encodeVarInt x ++ concat (map encodeVarInt items) ++ rest) as [|b bs] eqn:Eb.
  { exfalso. apply (f_equal zlen) in Eb. rewrite zlen_app, zlen_nil in Eb.
    pose proof (zlen_nonneg (concat (map encodeVarInt items) ++ rest)). lia. }
  rewrite <- Eb. rewrite uvarint_encode by assumption.
  destruct (Z.leb_spec (zlen (encodeVarInt x)) 0); [lia|].
  rewrite zdrop_app_exact by reflexivity.
  destruct (IH (length items) false eq_refl) as [-> | ->]; reflexivity.
Qed.
Lemma decodeUVarInts_ok items count : Forall is_u64 items -> items <> [] -> count = zlen items ->
  decodeUVarInts (concat (map encodeVarInt items)) count = Ok items.
Proof.
  intros H Hne ->. unfold decodeUVarInts.
  destruct (uvarints_ok items [] (Z.to_nat (zlen items)) true H ltac:(unfold zlen; lia)) as [E|E]; [|congruence].
  rewrite app_nil_r in E. rewrite E. cbn [rbind].
  rewrite zdrop_all by (rewrite zlen_zseq; pose proof (zlen_nonneg items); lia). cbn [map]. rewrite app_nil_r. reflexivity.
Qed.
Lemma svarints_ok items rest i : Forall is_i64 items ->
  decodeVarIntValues (length items) i (concat (map encodeSignedVarInt items) ++ rest) = items.
Proof.
  intros H. revert i. induction H as [|x items Hx _ IH]; intros i; [reflexivity|].
  cbn [length map concat decodeVarIntValues].
  pose proof (encodeSignedVarInt_len x Hx) as Hl. rewrite <- app_assoc.
  destruct (encodeSignedVarInt x ++ concat (map encodeSignedVarInt items) ++ rest) as [|b bs] eqn:Eb.
  { exfalso. apply (f_equal zlen) in Eb. rewrite zlen_app, zlen_nil in Eb.
    pose proof (zlen_nonneg (concat (map encodeSignedVarInt items) ++ rest)). lia. }
  rewrite <- Eb. rewrite decodeSignedVarInt_encode by assumption.
  destruct (Z.leb_spec (zlen (encodeSignedVarInt x)) 0); [lia|].
  rewrite zdrop_app_exact by reflexivity. f_equal. apply IH.
Qed.

(** ** Fixed-width sections *)
Lemma fixed_nth l i x : nth_error l i = Some x ->
  slice (concat (map (le_bytes 8) l)) (Z.of_nat i * 8) 8 = le_bytes 8 x.
Proof.
  intros H. apply nth_error_split in H. destruct H as (l1 & l2 & -> & Hl). rewrite map_app. cbn [map].
  pose proof (slice_field (map (le_bytes 8) l1) (le_bytes 8 x) (map (le_bytes 8) l2) [] (Z.of_nat i * 8) 8) as G.
  rewrite app_nil_r in G. apply G.
  - rewrite zlen_concat_fixed. unfold zlen. rewrite Hl. lia.
  - rewrite zlen_le_bytes. reflexivity.
Qed.
Lemma nth_ext_error {A} (l1 l2 : list A) : (forall i, nth_error l1 i = nth_error l2 i) -> l1 = l2.
Proof.
  revert l2. induction l1 as [|x l1 IH]; intros [|y l2] H; [reflexivity|specialize (H O); discriminate|specialize (H O); discriminate|].
  f_equal; [specialize (H O); cbn in H; congruence|]. apply IH. intros i. apply (H (S i)).
Qed.
Lemma decodeFixed_ok (conv mock : Z -> Z) (ok : Z -> Prop) l :
  (forall x, ok x -> conv (u64 x) = x) -> Forall ok l ->
  decodeFixed (concat (map (le_bytes 8) l)) (zlen l) conv mock = l.
Proof.
  intros Hc Hok. unfold decodeFixed. apply nth_ext_error. intros i. rewrite nth_error_map.
  destruct (nth_error l i) as [x|] eqn:Ex.
  - assert (Hi : (i < length l)%nat) by (apply nth_error_Some; congruence).
    rewrite nth_error_zseq by (unfold zlen; lia). cbn [option_map].
    destruct (Z.leb_spec (Z.of_nat i * 8 + 8) (zlen (concat (map (le_bytes 8) l)))) as [_|Hlt].
    + rewrite (fixed_nth l i x Ex), le_val_8. f_equal. apply Hc.
      rewrite Forall_forall in Hok. apply Hok. eapply nth_error_In. exact Ex.
    + rewrite zlen_concat_fixed in Hlt. unfold zlen in Hlt. lia.
  - apply nth_error_None in Ex.
    replace (nth_error (zseq (zlen l)) i) with (@None Z); [reflexivity|].
    symmetry. apply nth_error_None. pose proof (zlen_zseq (zlen l)). unfold zlen in *. lia.
Qed.

(** What a block written under a consistent encoding reads back as. *)
Definition readback (e : Z) (b : block) : block :=
  if e =? 1 then (fst b, deltaEncodeInt64 (snd b))
  else if e =? 2 then (deltaEncode (fst b), snd b)
  else b.

Lemma deltaEncode_range' l : Forall is_u64 l -> Forall is_u64 (deltaEncode l).
Proof. apply deltaEncode_range. Qed.

Theorem decodeBlockData_ok e ids vals : consistent e -> good_block (ids, vals) ->
  decodeBlockData (concat (id_chunks e ids)) (concat (val_chunks e vals)) (zlen ids) e
  = Ok (readback e (ids, vals)).
Proof.
  intros Hc (Hi & Hv & Hl & Hn). cbn [fst snd] in *.
  assert (Ni : ids <> []) by (intros ->; unfold zlen in Hn; cbn in Hn; lia).
  pose proof (deltaEncode_range ids Hi) as Hdi. pose proof (deltaEncodeInt64_range vals Hv) as Hdv.
  assert (Ldi : zlen (deltaEncode ids) = zlen ids) by (unfold zlen, deltaEncode; rewrite delta_encode_length; reflexivity).
  assert (Ldv : zlen (deltaEncodeInt64 vals) = zlen vals) by (unfold zlen, deltaEncodeInt64; rewrite delta_encode_length; reflexivity).
  assert (Ci : forall x, is_u64 x -> (fun y => y) (u64 x) = x) by (intros; apply u64_id; assumption).
  assert (Cv : forall x, is_i64 x -> i64 (u64 x) = x) by (intros; rewrite i64_u64; apply i64_id; assumption).
  assert (Fix : forall (is vs : list Z), Forall is_u64 is -> Forall is_i64 vs -> zlen is = zlen ids -> zlen vs = zlen ids ->
     (let maxCount := zlen (concat (map (le_bytes 8) is)) / 8 in
      let count := if zlen ids >? maxCount then maxCount else zlen ids in
      let ids' := decodeFixed (concat (map (le_bytes 8) is)) count (fun x => x) (fun i => u64 (i + 1)) in
      let maxCount := zlen (concat (map (le_bytes 8) vs)) / 8 in
      let '(count, ids') :=
        if count >? maxCount then
          (maxCount, if zlen ids' >? maxCount then ztake maxCount ids' else ids')
        else (count, ids') in
      Ok (ids', decodeFixed (concat (map (le_bytes 8) vs)) count i64 (fun i => i64 ((i + 1) * 100)))) = Ok (is, vs)).
  { intros is vs His Hvs Eis Evs. cbv zeta. rewrite !zlen_concat_fixed, !Z.div_mul by lia. rewrite Eis, Evs.
    destruct (Z.gtb_spec (zlen ids) (zlen ids)); [lia|].
    destruct (Z.gtb_spec (zlen ids) (zlen ids)); [lia|].
    rewrite <- Eis at 1. rewrite (decodeFixed_ok _ _ is_u64) by assumption.
    rewrite <- Evs. rewrite (decodeFixed_ok _ _ is_i64) by assumption. reflexivity. }
  unfold decodeBlockData, readback. cbn [fst snd].
  assert (Hn' : Z.to_nat (zlen ids) = length (val_items e vals)).
  { pose proof (val_items_len e vals). unfold zlen in *. lia. }
  destruct Hc as [->|[->|[->|[->|[->| ->]]]]].
  - change (isVarInt 0) with false. change (id_chunks 0 ids) with (map (le_bytes 8) ids).
    change (val_chunks 0 vals) with (map (le_bytes 8) vals). cbv iota.
    rewrite Fix by (auto; lia). reflexivity.
  - change (isVarInt 1) with false. change (id_chunks 1 ids) with (map (le_bytes 8) (deltaEncode ids)).
    change (val_chunks 1 vals) with (map (le_bytes 8) (deltaEncodeInt64 vals)). cbv iota.
    rewrite Fix by (auto; lia). cbn [rbind]. cbn -[deltaDecode deltaEncode deltaDecodeInt64 deltaEncodeInt64]. rewrite deltaDecode_encode by assumption. reflexivity.
  - change (isVarInt 2) with false. change (id_chunks 2 ids) with (map (le_bytes 8) (deltaEncode ids)).
    change (val_chunks 2 vals) with (map (le_bytes 8) (deltaEncodeInt64 vals)). cbv iota.
    rewrite Fix by (auto; lia). cbn [rbind]. cbn -[deltaDecode deltaEncode deltaDecodeInt64 deltaEncodeInt64]. rewrite deltaDecodeInt64_encode by assumption. reflexivity.
  - change (isVarInt 3) with false. change (id_chunks 3 ids) with (map (le_bytes 8) (deltaEncode ids)).
    change (val_chunks 3 vals) with (map (le_bytes 8) (deltaEncodeInt64 vals)). cbv iota.
    rewrite Fix by (auto; lia). cbn [rbind]. cbn -[deltaDecode deltaEncode deltaDecodeInt64 deltaEncodeInt64]. rewrite deltaDecode_encode, deltaDecodeInt64_encode by assumption. reflexivity.
  - change (isVarInt 4) with true. change (id_chunks 4 ids) with (map encodeVarInt ids).
    change (val_chunks 4 vals) with (map encodeSignedVarInt vals). cbv iota.
    rewrite decodeUVarInts_ok by auto. cbn [rbind]. rewrite Hn'. change (val_items 4 vals) with vals.
    pose proof (svarints_ok vals [] 0 Hv) as S. rewrite app_nil_r in S. rewrite S. reflexivity.
  - change (isVarInt 7) with true. change (id_chunks 7 ids) with (map encodeVarInt (deltaEncode ids)).
    change (val_chunks 7 vals) with (map encodeSignedVarInt (deltaEncodeInt64 vals)). cbv iota.
    rewrite decodeUVarInts_ok; [|assumption| |lia].
    2:{ intros E. apply Ni. apply zlen_0_nil. rewrite <- Ldi, E. reflexivity. }
    cbn [rbind]. rewrite Hn'. change (val_items 7 vals) with (deltaEncodeInt64 vals).
    pose proof (svarints_ok (deltaEncodeInt64 vals) [] 0 Hdv) as S. rewrite app_nil_r in S. rewrite S.
    cbn -[deltaDecode deltaEncode deltaDecodeInt64 deltaEncodeInt64]. rewrite deltaDecode_encode, deltaDecodeInt64_encode by assumption. reflexivity.
Qed.

(** ** Reading one placed block *)
Lemma nth_map_entry e L i : nth_error (map (entry_of e) L) i = option_map (entry_of e) (nth_error L i).
Proof. apply nth_error_map. Qed.

Section Blocks.
Context {Srr : Sroar}.

(** Only the index entry and the bytes behind the 64-byte block header matter. *)
Lemma readBlock_bytes r e i p ids vals pad en :
  let BD := block_layout e ids vals ++ concat (id_chunks e ids) ++ concat (val_chunks e vals) ++ pad in
  r_open r = true -> zlen (r_data r) < two63 -> h_encodingType (r_header r) = e ->
  good_block (ids, vals) -> claims_ok e (ids, vals) -> 64 <= p ->
  0 <= i < zlen (r_index r) -> nth_error (r_index r) (Z.to_nat i) = Some en ->
  e_offset en = p -> e_count en = zlen ids -> e_size en = 64 + zlen BD -> p + e_size en <= zlen (r_data r) ->
  slice (r_data r) (p + 64) (zlen BD) = BD ->
  readBlock r i = decodeBlockData (concat (id_chunks e ids)) (concat (val_chunks e vals)) (zlen ids) e.
Proof.
  intros BD Hopen Hsize Henc Hg [C1 C2] Hp Hi Hnth Eo Ec Es Hend HBD. cbn [fst snd] in *.
  unfold readBlock. destruct (Z.ltb_spec i 0); [lia|]. destruct (Z.geb_spec i (zlen (r_index r))); [lia|].
  cbn [orb]. rewrite Hnth. rewrite Eo, Ec, Es in *.
  pose proof (zlen_nonneg BD) as NBD.
  unfold two63 in Hsize.
  rewrite (i64_id p) by (unfold is_i64, two63; lia). unfold blockHeaderSize.
  rewrite (i64_id (p + 64)) by (unfold is_i64, two63; lia).
  replace (64 + zlen BD - 64) with (zlen BD) by lia.
  pose proof (zlen_nonneg (concat (id_chunks e ids))). pose proof (zlen_nonneg (concat (val_chunks e vals))).
  pose proof (zlen_nonneg pad).
  assert (LBD : zlen BD = 16 + id_claim e ids + val_claim e vals + zlen pad).
  { unfold BD. rewrite !zlen_app, zlen_block_layout. lia. }
  rewrite Hopen, readBytesAt_ok by (unfold two63; lia). cbn [rbind].
  rewrite HBD.
  assert (Hg' := Hg). destruct Hg' as (Gi & Gv & Gl & Gn). cbn [fst snd] in *.
  pose proof (id_claim_bounds e ids Gi) as Bi. pose proof (val_claim_bounds e vals Gv) as Bv.
  assert (Flay : BD = concat [le_bytes 4 0; le_bytes 4 (id_claim e ids); le_bytes 4 (id_claim e ids);
       le_bytes 4 (val_claim e vals)] ++ (concat (id_chunks e ids) ++ concat (val_chunks e vals) ++ pad)).
  { unfold BD, block_layout. cbn [concat]. rewrite app_nil_r. reflexivity. }
  unfold layoutField, readBufferedUint32.
  rewrite (readBuffered_ok 4 BD 0 (le_bytes 4 0)) by
    (try lia; rewrite Flay; apply (slice_field [] _ _); reflexivity). cbn [rbind].
  rewrite (readBuffered_ok 4 BD 4 (le_bytes 4 (id_claim e ids))) by
    (try lia; rewrite Flay; apply (slice_field [_] _ _); reflexivity). cbn [rbind].
  rewrite (readBuffered_ok 4 BD 8 (le_bytes 4 (id_claim e ids))) by
    (try lia; rewrite Flay; apply (slice_field [_; _] _ _); reflexivity). cbn [rbind].
  rewrite (readBuffered_ok 4 BD 12 (le_bytes 4 (val_claim e vals))) by
    (try lia; rewrite Flay; apply (slice_field [_; _; _] _ _); reflexivity). cbn [rbind].
  rewrite !le_val_4. change (u32 0) with 0.
  rewrite (u32_id (id_claim e ids)), (u32_id (val_claim e vals)) by (unfold is_u32, two32, max_items in *; lia).
  destruct (Z.eqb_spec (id_claim e ids) 0); [lia|].
  destruct (Z.eqb_spec (val_claim e vals) 0); [lia|].
  destruct (Z.gtb_spec (16 + 0 + id_claim e ids) (zlen BD)); [lia|].
  destruct (Z.gtb_spec (16 + id_claim e ids + val_claim e vals) (zlen BD)); [lia|]. cbn [orb].
  replace (slice BD (16 + 0) (id_claim e ids)) with (concat (id_chunks e ids)).
  2:{ unfold BD. symmetry. apply slice_mid; [rewrite zlen_block_layout; lia|lia]. }
  replace (slice BD (16 + id_claim e ids) (val_claim e vals)) with (concat (val_chunks e vals)).
  2:{ unfold BD. symmetry. rewrite app_assoc. apply slice_mid; [rewrite zlen_app, zlen_block_layout; lia|lia]. }
  rewrite Henc. reflexivity.
Qed.
Lemma readBlock_body r e i p ids vals pad en :
  let BD := block_layout e ids vals ++ concat (id_chunks e ids) ++ concat (val_chunks e vals) ++ pad in
  r_open r = true -> zlen (r_data r) < two63 -> h_encodingType (r_header r) = e ->
  good_block (ids, vals) -> claims_ok e (ids, vals) -> 64 <= p -> consistent e ->
  0 <= i < zlen (r_index r) -> nth_error (r_index r) (Z.to_nat i) = Some en ->
  e_offset en = p -> e_count en = zlen ids -> e_size en = 64 + zlen BD -> p + e_size en <= zlen (r_data r) ->
  slice (r_data r) (p + 64) (zlen BD) = BD ->
  readBlock r i = Ok (readback e (ids, vals)).
Proof.
  intros BD Hopen Hsize Henc Hg HC Hp Hcon Hi Hnth Eo Ec Es Hend HBD.
  rewrite (readBlock_bytes r e i p ids vals pad en) by assumption. apply decodeBlockData_ok; assumption.
Qed.

Lemma readBlock_placed_bytes r e x i :
  r_open r = true -> zlen (r_data r) < two63 -> h_encodingType (r_header r) = e ->
  placed e (r_data r) x ->
  0 <= i < zlen (r_index r) -> nth_error (r_index r) (Z.to_nat i) = Some (entry_of e x) ->
  readBlock r i = decodeBlockData (concat (id_chunks e (fst (snd x)))) (concat (val_chunks e (snd (snd x)))) (zlen (fst (snd x))) e.
Proof.
  intros Hopen Hsize Henc Hpl Hi Hnth. destruct x as [p [ids vals]].
  destruct Hpl as (Hg & HC & Hp & Hend & Hsl). cbn [fst snd] in *.
  unfold image_of in *. cbn [fst snd] in *.
  set (img := block_image e p ids vals) in *.
  set (pad := zeros (calculatePadding (p + zlen (block_body e ids vals)) PageSize)) in *.
  assert (Himg : img = block_header e (stats_of ids vals) ++ (block_layout e ids vals
      ++ concat (id_chunks e ids) ++ concat (val_chunks e vals) ++ pad)).
  { unfold img, block_image, block_body. rewrite <- !app_assoc. reflexivity. }
  set (BD := block_layout e ids vals ++ concat (id_chunks e ids) ++ concat (val_chunks e vals) ++ pad) in *.
  pose proof (zlen_nonneg BD).
  assert (Limg : zlen img = 64 + zlen BD) by (rewrite Himg, zlen_app, zlen_block_header; reflexivity).
  assert (HBD : slice (r_data r) (p + 64) (zlen BD) = BD).
  { replace (zlen BD) with (zlen img - 64) by lia.
    replace (slice (r_data r) (p + 64) (zlen img - 64)) with (slice img 64 (zlen img - 64)).
    - rewrite Himg at 1. rewrite slice_app_r by (rewrite zlen_block_header; lia).
      rewrite zlen_block_header. apply slice_all; lia.
    - rewrite <- Hsl at 1. rewrite slice_slice by lia. reflexivity. }
  apply (readBlock_bytes r e i p ids vals pad (entry_of e (p, (ids, vals)))); try assumption; reflexivity.
Qed.

Lemma readBlock_placed r e x i :
  r_open r = true -> zlen (r_data r) < two63 -> h_encodingType (r_header r) = e ->
  placed e (r_data r) x -> consistent e ->
  0 <= i < zlen (r_index r) -> nth_error (r_index r) (Z.to_nat i) = Some (entry_of e x) ->
  readBlock r i = Ok (readback e (snd x)).
Proof.
  intros Hopen Hsize Henc Hpl Hcon Hi Hnth. rewrite (readBlock_placed_bytes r e x i) by assumption.
  destruct x as [p [ids vals]]. cbn [fst snd]. apply decodeBlockData_ok; [exact Hcon|]. apply Hpl.
Qed.

Lemma placed_app e X Y x : placed e X x -> placed e (X ++ Y) x.
Proof.
  intros (H1 & H2 & H3 & H4 & H5). split; [exact H1|]. split; [exact H2|]. split; [exact H3|].
  pose proof (zlen_nonneg Y). rewrite zlen_app. split; [lia|]. rewrite slice_app_l by lia. exact H5.
Qed.

Theorem GetPairs_placed F X now e target L b off i :
  finalized F X now e target L b off -> within_limits F e target L b -> is_u64 i ->
  GetPairs (the_reader F now e target L b off) i
  = match nth_error L (Z.to_nat i) with
    | Some x => decodeBlockData (concat (id_chunks e (fst (snd x)))) (concat (val_chunks e (snd (snd x)))) (zlen (fst (snd x))) e
    | None => Err ErrIndex
    end.
Proof.
  intros Hf Hl Hi. destruct Hf as [HF HH HB HO HM]. destruct Hl as [LF LI LE LT LB].
  unfold GetPairs.
  assert (Hlen : zlen (r_index (the_reader F now e target L b off)) = zlen L) by (cbn [the_reader r_index]; apply zlen_map).
  destruct (nth_error L (Z.to_nat i)) as [x|] eqn:Ex.
  - assert (Hlt : (Z.to_nat i < length L)%nat) by (apply nth_error_Some; congruence).
    assert (0 <= i < zlen L) by (unfold zlen, is_u64 in *; lia).
    rewrite i64_id by (unfold is_i64, is_u64, two63, two32 in *; lia).
    apply readBlock_placed_bytes with (x := x).
    + reflexivity.
    + exact LF.
    + reflexivity.
    + cbn [the_reader r_data]. rewrite HF. apply placed_app. rewrite Forall_forall in HB. apply HB.
      eapply nth_error_In. exact Ex.
    + lia.
    + cbn [the_reader r_index]. rewrite nth_error_map, Ex. reflexivity.
  - apply nth_error_None in Ex. unfold readBlock.
    assert (Hge : zlen L <= i) by (unfold zlen, is_u64 in *; lia).
    unfold is_u64, two64 in Hi.
    assert (i64 i < 0 \/ i64 i = i) as [Hneg|Heq].
    { unfold i64, two63, two64. lia. }
    + destruct (Z.ltb_spec (i64 i) 0); [reflexivity|lia].
    + rewrite Heq, Hlen. destruct (Z.ltb_spec i 0); [lia|]. destruct (Z.geb_spec i (zlen L)); [reflexivity|lia].
Qed.

Theorem GetPairs_finalized F X now e target L b off i :
  finalized F X now e target L b off -> within_limits F e target L b -> consistent e -> is_u64 i ->
  GetPairs (the_reader F now e target L b off) i
  = match nth_error L (Z.to_nat i) with
    | Some x => Ok (readback e (snd x))
    | None => Err ErrIndex
    end.
Proof.
  intros Hf Hl Hc Hi. rewrite (GetPairs_placed F X now e target L b off i Hf Hl Hi).
  destruct (nth_error L (Z.to_nat i)) as [x|] eqn:Ex; [|reflexivity].
  pose proof (fz_blocks _ _ _ _ _ _ _ _ Hf) as HB. rewrite Forall_forall in HB. apply nth_error_In in Ex. apply HB in Ex.
  destruct x as [p [ids vals]]. cbn [fst snd]. apply decodeBlockData_ok; [exact Hc|]. apply Ex.
Qed.

(** ** The bitmap *)
Theorem loadGlobalIDBitmap_finalized F X now e target L b off :
  finalized F X now e target L b off -> within_limits F e target L b ->
  loadGlobalIDBitmap (the_reader F now e target L b off) = bm_deser (bm_ser b).
Proof.
  intros Hf Hl. destruct Hf as [HF HH HB HO HM]. destruct Hl as [LF LI LE LT LB].
  pose proof (zlen_nonneg (bm_ser b)).
  assert (Lbm : zlen (bitmap_bytes b) = 4 + zlen (bm_ser b)) by (unfold bitmap_bytes; rewrite zlen_app, zlen_le_bytes; lia).
  pose proof (zlen_footer e L) as Lf. pose proof (zlen_nonneg L).
  assert (LenF : zlen F = zlen X + 28 + 56 * zlen L) by (rewrite HF, zlen_app, zlen_footer; lia).
  unfold loadGlobalIDBitmap. cbn [the_reader r_header r_data r_open h_bitmapOffset h_bitmapSize].
  destruct (Z.eqb_spec off 0); [lia|]. destruct (Z.eqb_spec (4 + zlen (bm_ser b)) 0); [lia|]. cbn [orb].
  unfold two63 in LF.
  rewrite (i64_id off) by (unfold is_i64, two63 in *; lia).
  rewrite (i64_id (off + 4)) by (unfold is_i64, two63 in *; lia).
  assert (HM' : slice F off (zlen (bitmap_bytes b)) = bitmap_bytes b).
  { rewrite HF, slice_app_l by lia. exact HM. }
  rewrite readBytesAt_ok by (unfold two63; lia). cbn [rbind].
  assert (S1 : slice F off 4 = le_bytes 4 (u32 (zlen (bm_ser b)))).
  { replace (slice F off 4) with (slice (bitmap_bytes b) 0 4).
    - unfold bitmap_bytes. rewrite slice_app_l by (rewrite ?zlen_le_bytes; lia).
      apply slice_all; rewrite ?zlen_le_bytes; reflexivity.
    - rewrite <- HM'. rewrite slice_slice by lia. f_equal. lia. }
  rewrite S1. unfold readBufferedUint32.
  rewrite (readBuffered_ok 4 _ 0 (le_bytes 4 (u32 (zlen (bm_ser b))))) by
    (rewrite ?zlen_le_bytes; try lia; apply slice_all; rewrite ?zlen_le_bytes; reflexivity).
  cbn [rbind]. rewrite le_val_4. rewrite !(u32_id (zlen (bm_ser b))) by (unfold is_u32; lia).
  destruct (Z.eq_dec (zlen (bm_ser b)) 0) as [E0|N0].
  - rewrite E0. apply zlen_0_nil in E0. rewrite E0. unfold readBytesAt.
    destruct (Z.ltb_spec 0 0); [lia|]. destruct (Z.ltb_spec (off + 4) 0); [lia|]. reflexivity.
  - rewrite readBytesAt_ok by (unfold two63; lia). cbn [rbind]. f_equal.
    replace (slice F (off + 4) (zlen (bm_ser b))) with (slice (bitmap_bytes b) 4 (zlen (bm_ser b))).
    + unfold bitmap_bytes. rewrite slice_app_r by (rewrite zlen_le_bytes; lia). rewrite zlen_le_bytes.
      apply slice_all; [lia|reflexivity].
    + rewrite <- HM'. rewrite slice_slice by lia. reflexivity.
Qed.

End Blocks.
