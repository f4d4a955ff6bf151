(** What the writer's methods do to the file and to the writer's state, for every
    fault stream. *)
From Verif Require Import Machine MachineFacts Encoding EncodingFacts FileIO Sroar Writer Spec FileFacts.
Ltac Zify.zify_post_hook ::= Z.div_mod_to_equations.

(** A non-empty block of well-typed pairs within the size limit. *)
Definition good_block (b : block) : Prop :=
  Forall is_u64 (fst b) /\ Forall is_i64 (snd b) /\ zlen (fst b) = zlen (snd b)
  /\ 1 <= zlen (fst b) <= max_items.

Definition declared (e : Z) : Prop := 0 <= e <= 7.
(** The encodings for which the writer computes section sizes that match what it
    writes. *)

Definition is_delta (e : Z) : bool :=
  (e =? 1) || (e =? 2) || (e =? 3) || (e =? 6) || (e =? 7).
Definition id_items (e : Z) (ids : list Z) : list Z := if is_delta e then deltaEncode ids else ids.
Definition val_items (e : Z) (vals : list Z) : list Z := if is_delta e then deltaEncodeInt64 vals else vals.
Definition id_chunks (e : Z) (ids : list Z) : list (list Z) :=
  if useVarIntForIDs e then map encodeVarInt (id_items e ids) else map (le_bytes 8) (id_items e ids).
Definition val_chunks (e : Z) (vals : list Z) : list (list Z) :=
  if useVarIntForValues e then map encodeSignedVarInt (val_items e vals)
  else map (le_bytes 8) (val_items e vals).
(** The section sizes recorded in the block layout. *)
Definition id_claim (e : Z) (ids : list Z) : Z :=
  if usesFixedWidth e then zlen ids * 8 else zlen (concat (map encodeVarInt (id_items e ids))).
Definition val_claim (e : Z) (vals : list Z) : Z :=
  if usesFixedWidth e then zlen vals * 8 else zlen (concat (map encodeSignedVarInt (val_items e vals))).

Definition stats_of (ids vals : list Z) : blockStats :=
  mkStats (fst (calculateMinMax ids)) (snd (calculateMinMax ids))
          (fst (calculateMinMax vals)) (snd (calculateMinMax vals))
          (calculateSumInt64 vals) (zlen ids).

(** The bytes of a block, without and with padding. *)
Definition block_header (e : Z) (st : blockStats) : list Z :=
  (le_bytes 8 (st_minID st) ++ le_bytes 8 (st_maxID st)
   ++ le_bytes 8 (int64ToUint64 (st_minValue st)) ++ le_bytes 8 (int64ToUint64 (st_maxValue st))
   ++ le_bytes 8 (int64ToUint64 (st_sum st)) ++ le_bytes 4 (st_count st) ++ le_bytes 4 e
   ++ le_bytes 4 CompressionNone) ++ zeros 12.
Definition block_layout (e : Z) (ids vals : list Z) : list Z :=
  le_bytes 4 0 ++ le_bytes 4 (id_claim e ids) ++ le_bytes 4 (id_claim e ids)
  ++ le_bytes 4 (val_claim e vals).
Definition block_body (e : Z) (ids vals : list Z) : list Z :=
  block_header e (stats_of ids vals) ++ block_layout e ids vals
  ++ concat (id_chunks e ids) ++ concat (val_chunks e vals).
Definition block_image (e p : Z) (ids vals : list Z) : list Z :=
  block_body e ids vals ++ zeros (calculatePadding (p + zlen (block_body e ids vals)) PageSize).

(** ** Bytes *)
Lemma Forall_concat {A} (P : A -> Prop) l : Forall (Forall P) l -> Forall P (concat l).
Proof. induction 1; [constructor|]. cbn [concat]. apply Forall_app. split; assumption. Qed.
Lemma block_image_bytes e p ids vals : good_block (ids, vals) -> Forall is_byte (block_image e p ids vals).
Proof.
  intros (Hi & Hv & _). cbn [fst snd] in *. unfold block_image, block_body, block_header, block_layout.
  repeat (apply Forall_app; split); try apply le_bytes_bytes; try apply zeros_bytes; apply Forall_concat.
  - unfold id_chunks, id_items. destruct (useVarIntForIDs e); apply Forall_map; [|apply Forall_forall; intros; apply le_bytes_bytes].
    assert (Forall is_u64 (if is_delta e then deltaEncode ids else ids)) as H by (destruct (is_delta e); [apply deltaEncode_range|]; exact Hi).
    eapply Forall_impl; [|exact H]. intros. apply encodeVarInt_bytes. assumption.
  - unfold val_chunks, val_items. destruct (useVarIntForValues e); apply Forall_map; [|apply Forall_forall; intros; apply le_bytes_bytes].
    assert (Forall is_i64 (if is_delta e then deltaEncodeInt64 vals else vals)) as H by (destruct (is_delta e); [apply deltaEncodeInt64_range|]; exact Hv).
    eapply Forall_impl; [|exact H]. intros. unfold encodeSignedVarInt. apply encodeVarInt_bytes. apply u64_range.
Qed.

(** ** Sizes *)
Lemma zlen_concat_le {A} (f : A -> list Z) k l : (forall x, In x l -> zlen (f x) <= k) ->
  zlen (concat (map f l)) <= k * zlen l.
Proof.
  induction l as [|x l IH]; intros H; cbn [map concat]; [unfold zlen; cbn; lia|].
  rewrite zlen_app, zlen_cons. specialize (H x (or_introl eq_refl)) as Hx.
  assert (zlen (concat (map f l)) <= k * zlen l) by (apply IH; intros; apply H; right; assumption).
  rewrite Z.mul_add_distr_l. lia.
Qed.
Lemma zlen_concat_ge {A} (f : A -> list Z) k l : (forall x, In x l -> k <= zlen (f x)) ->
  k * zlen l <= zlen (concat (map f l)).
Proof.
  induction l as [|x l IH]; intros H; cbn [map concat]; [unfold zlen; cbn; lia|].
  rewrite zlen_app, zlen_cons. specialize (H x (or_introl eq_refl)) as Hx.
  assert (k * zlen l <= zlen (concat (map f l))) by (apply IH; intros; apply H; right; assumption).
  rewrite Z.mul_add_distr_l. lia.
Qed.
Lemma zlen_concat_fixed l : zlen (concat (map (le_bytes 8) l)) = zlen l * 8.
Proof.
  pose proof (zlen_concat_le (le_bytes 8) 8 l) as H1. pose proof (zlen_concat_ge (le_bytes 8) 8 l) as H2.
  assert (forall x, zlen (le_bytes 8 x) = 8) as H by (intros; apply zlen_le_bytes).
  specialize (H1 ltac:(intros; rewrite H; lia)). specialize (H2 ltac:(intros; rewrite H; lia)). lia.
Qed.
Lemma encodeSignedVarInt_len v : is_i64 v -> 1 <= zlen (encodeSignedVarInt v) <= 10.
Proof. intros. apply encodeVarInt_len, zigzag_range. assumption. Qed.

Lemma encode_items_ok enc1 l acc :
  (forall x, In x l -> 1 <= zlen (enc1 x) <= 10) -> 0 <= acc ->
  acc + 10 * zlen l < two32 ->
  encode_items enc1 l acc = Ok (map enc1 l, acc + zlen (concat (map enc1 l))).
Proof.
  revert acc. induction l as [|x l IH]; intros acc H Ha Hb.
  - cbn. rewrite Z.add_0_r. reflexivity.
  - cbn [encode_items map concat]. rewrite zlen_cons in Hb. pose proof (zlen_nonneg l).
    pose proof (H x (or_introl eq_refl)) as Hx.
    rewrite (u32_id (zlen (enc1 x))) by (unfold is_u32, two32; lia).
    destruct (Z.eqb_spec (zlen (enc1 x)) 0); [lia|].
    rewrite (u32_id (acc + _)) by (unfold is_u32 in *; lia).
    rewrite IH; [| intros; apply H; right; assumption | lia | lia].
    cbn [rbind]. rewrite zlen_app. do 2 f_equal. lia.
Qed.

Lemma usesDelta_spec e : declared e -> usesDelta e = Some (is_delta e).
Proof.
  unfold declared. intros H.
  assert (e = 0 \/ e = 1 \/ e = 2 \/ e = 3 \/ e = 4 \/ e = 5 \/ e = 6 \/ e = 7) as G by lia.
  destruct G as [->|[->|[->|[->|[->|[->|[->| ->]]]]]]]; reflexivity.
Qed.

Lemma id_items_range e ids : Forall is_u64 ids -> Forall is_u64 (id_items e ids).
Proof. intros. unfold id_items. destruct (is_delta e); [apply deltaEncode_range|]; assumption. Qed.
Lemma val_items_range e vals : Forall is_i64 vals -> Forall is_i64 (val_items e vals).
Proof. intros. unfold val_items. destruct (is_delta e); [apply deltaEncodeInt64_range|]; assumption. Qed.
Lemma id_items_len e ids : zlen (id_items e ids) = zlen ids.
Proof. unfold id_items. destruct (is_delta e); [|reflexivity]. unfold zlen, deltaEncode. rewrite delta_encode_length. reflexivity. Qed.
Lemma val_items_len e vals : zlen (val_items e vals) = zlen vals.
Proof. unfold val_items. destruct (is_delta e); [|reflexivity]. unfold zlen, deltaEncodeInt64. rewrite delta_encode_length. reflexivity. Qed.

Lemma id_chunk_bounds e ids : Forall is_u64 ids ->
  forall x, In x (id_items e ids) -> 1 <= zlen (encodeVarInt x) <= 10.
Proof.
  intros H x Hx. apply (id_items_range e) in H. rewrite Forall_forall in H.
  apply encodeVarInt_len. auto.
Qed.
Lemma val_chunk_bounds e vals : Forall is_i64 vals ->
  forall x, In x (val_items e vals) -> 1 <= zlen (encodeSignedVarInt x) <= 10.
Proof.
  intros H x Hx. apply (val_items_range e) in H. rewrite Forall_forall in H.
  apply encodeSignedVarInt_len. auto.
Qed.

Lemma id_claim_bounds e ids : Forall is_u64 ids -> zlen ids <= id_claim e ids <= 10 * zlen ids.
Proof.
  intros H. unfold id_claim. pose proof (zlen_nonneg ids). destruct (usesFixedWidth e); [lia|].
  rewrite <- (id_items_len e ids).
  pose proof (zlen_concat_le encodeVarInt 10 (id_items e ids)) as H1.
  pose proof (zlen_concat_ge encodeVarInt 1 (id_items e ids)) as H2.
  specialize (H1 ltac:(intros x Hx; apply (id_chunk_bounds e ids H x Hx))).
  specialize (H2 ltac:(intros x Hx; apply (id_chunk_bounds e ids H x Hx))). lia.
Qed.
Lemma val_claim_bounds e vals : Forall is_i64 vals -> zlen vals <= val_claim e vals <= 10 * zlen vals.
Proof.
  intros H. unfold val_claim. pose proof (zlen_nonneg vals). destruct (usesFixedWidth e); [lia|].
  rewrite <- (val_items_len e vals).
  pose proof (zlen_concat_le encodeSignedVarInt 10 (val_items e vals)) as H1.
  pose proof (zlen_concat_ge encodeSignedVarInt 1 (val_items e vals)) as H2.
  specialize (H1 ltac:(intros x Hx; apply (val_chunk_bounds e vals H x Hx))).
  specialize (H2 ltac:(intros x Hx; apply (val_chunk_bounds e vals H x Hx))). lia.
Qed.
Lemma id_actual_bounds e ids : Forall is_u64 ids ->
  0 <= zlen (concat (id_chunks e ids)) <= 10 * zlen ids.
Proof.
  intros H. unfold id_chunks. pose proof (zlen_nonneg ids). destruct (useVarIntForIDs e).
  - rewrite <- (id_items_len e ids).
    pose proof (zlen_concat_le encodeVarInt 10 (id_items e ids)) as H1.
    specialize (H1 ltac:(intros x Hx; apply (id_chunk_bounds e ids H x Hx))).
    pose proof (zlen_nonneg (concat (map encodeVarInt (id_items e ids)))). lia.
  - rewrite zlen_concat_fixed, id_items_len. lia.
Qed.
Lemma val_actual_bounds e vals : Forall is_i64 vals ->
  0 <= zlen (concat (val_chunks e vals)) <= 10 * zlen vals.
Proof.
  intros H. unfold val_chunks. pose proof (zlen_nonneg vals). destruct (useVarIntForValues e).
  - rewrite <- (val_items_len e vals).
    pose proof (zlen_concat_le encodeSignedVarInt 10 (val_items e vals)) as H1.
    specialize (H1 ltac:(intros x Hx; apply (val_chunk_bounds e vals H x Hx))).
    pose proof (zlen_nonneg (concat (map encodeSignedVarInt (val_items e vals)))). lia.
  - rewrite zlen_concat_fixed, val_items_len. lia.
Qed.
Lemma consistent_id e ids : consistent e -> zlen (concat (id_chunks e ids)) = id_claim e ids.
Proof.
  intros H. unfold id_chunks, id_claim.
  destruct H as [->|[->|[->|[->|[->| ->]]]]];
  match goal with |- context [useVarIntForIDs ?k] =>
    let v := eval vm_compute in (useVarIntForIDs k) in change (useVarIntForIDs k) with v;
    let v := eval vm_compute in (usesFixedWidth k) in change (usesFixedWidth k) with v end;
  cbv iota; rewrite ?zlen_concat_fixed, ?id_items_len; reflexivity.
Qed.
Lemma consistent_val e vals : consistent e -> zlen (concat (val_chunks e vals)) = val_claim e vals.
Proof.
  intros H. unfold val_chunks, val_claim.
  destruct H as [->|[->|[->|[->|[->| ->]]]]];
  match goal with |- context [useVarIntForValues ?k] =>
    let v := eval vm_compute in (useVarIntForValues k) in change (useVarIntForValues k) with v;
    let v := eval vm_compute in (usesFixedWidth k) in change (usesFixedWidth k) with v end;
  cbv iota; rewrite ?zlen_concat_fixed, ?val_items_len; reflexivity.
Qed.

Definition varint_bytes (e : Z) (enc1 : Z -> list Z) (items : list Z) : list (list Z) :=
  if usesFixedWidth e then [] else map enc1 items.

Lemma encodeIDs_ok e ids : declared e -> Forall is_u64 ids -> 1 <= zlen ids <= max_items ->
  encodeIDs e ids = Ok (id_items e ids, varint_bytes e encodeVarInt (id_items e ids), id_claim e ids).
Proof.
  intros He Hr Hl. unfold encodeIDs, encodeData. rewrite usesDelta_spec by assumption.
  fold (id_items e ids). unfold varint_bytes, id_claim.
  destruct (usesFixedWidth e) eqn:Ef.
  - rewrite id_items_len. rewrite u32_id by (unfold is_u32, two32, max_items in *; lia). reflexivity.
  - pose proof (id_claim_bounds e ids Hr) as Hc. unfold id_claim in Hc. rewrite Ef in Hc.
    rewrite encode_items_ok.
    + cbn [rbind]. rewrite Z.add_0_l.
      destruct (Z.eqb_spec (zlen (concat (map encodeVarInt (id_items e ids)))) 0); [lia|]. reflexivity.
    + apply id_chunk_bounds. assumption.
    + lia.
    + rewrite id_items_len. unfold two32, max_items in *. lia.
Qed.
Lemma encodeValues_ok e vals : declared e -> Forall is_i64 vals -> 1 <= zlen vals <= max_items ->
  encodeValues e vals = Ok (val_items e vals, varint_bytes e encodeSignedVarInt (val_items e vals), val_claim e vals).
Proof.
  intros He Hr Hl. unfold encodeValues, encodeData. rewrite usesDelta_spec by assumption.
  fold (val_items e vals). unfold varint_bytes, val_claim.
  destruct (usesFixedWidth e) eqn:Ef.
  - rewrite val_items_len. rewrite u32_id by (unfold is_u32, two32, max_items in *; lia). reflexivity.
  - pose proof (val_claim_bounds e vals Hr) as Hc. unfold val_claim in Hc. rewrite Ef in Hc.
    rewrite encode_items_ok.
    + cbn [rbind]. rewrite Z.add_0_l.
      destruct (Z.eqb_spec (zlen (concat (map encodeSignedVarInt (val_items e vals)))) 0); [lia|]. reflexivity.
    + apply val_chunk_bounds. assumption.
    + lia.
    + rewrite val_items_len. unfold two32, max_items in *. lia.
Qed.

Lemma zlen_block_header e st : zlen (block_header e st) = 64.
Proof. unfold block_header. rewrite !zlen_app, !zlen_le_bytes, zlen_zeros. lia. Qed.
Lemma zlen_block_layout e ids vals : zlen (block_layout e ids vals) = 16.
Proof. unfold block_layout. rewrite !zlen_app, !zlen_le_bytes. lia. Qed.
Lemma zlen_block_body e ids vals :
  zlen (block_body e ids vals) = 80 + zlen (concat (id_chunks e ids)) + zlen (concat (val_chunks e vals)).
Proof. unfold block_body. rewrite !zlen_app, zlen_block_header, zlen_block_layout. lia. Qed.
Lemma calculatePadding_range p : 0 <= calculatePadding p PageSize < PageSize.
Proof. unfold calculatePadding, PageSize. destruct (Z.eqb_spec (p mod 4096) 0); lia. Qed.
Lemma calculatePadding_aligned p : (p + calculatePadding p PageSize) mod PageSize = 0.
Proof. unfold calculatePadding, PageSize. destruct (Z.eqb_spec (p mod 4096) 0); lia. Qed.
Lemma zlen_block_image e p ids vals :
  zlen (block_image e p ids vals)
  = zlen (block_body e ids vals) + calculatePadding (p + zlen (block_body e ids vals)) PageSize.
Proof.
  unfold block_image. rewrite zlen_app, zlen_zeros.
  pose proof (calculatePadding_range (p + zlen (block_body e ids vals))). lia.
Qed.
Lemma block_image_small e p ids vals : good_block (ids, vals) ->
  80 <= zlen (block_image e p ids vals) < two32.
Proof.
  intros (Hi & Hv & He & Hl). cbn [fst snd] in *. rewrite zlen_block_image, zlen_block_body.
  pose proof (calculatePadding_range (p + (80 + zlen (concat (id_chunks e ids)) + zlen (concat (val_chunks e vals))))).
  pose proof (id_actual_bounds e ids Hi). pose proof (val_actual_bounds e vals Hv).
  unfold max_items, PageSize, two32 in *. lia.
Qed.

(** ** One block *)
Section Block.
Context {Srr : Sroar}.
Variable nf : Prop.

(** The writer's bookkeeping after a block has been written at the end of [D]. *)
Definition commit (wg : writer) (D : list Z) (ids vals : list Z) : writer :=
  push_block
    (push_position (set_ids wg (fold_left bm_set ids (w_ids wg))) (zlen D))
    (zlen (block_image (w_enc wg) (zlen D) ids vals)) (stats_of ids vals).

(** After a failure in the middle of a block: its position is recorded but the
    block is not counted; bytes that were there before are intact. *)
Definition poisoned (wg : writer) (D : list Z) (ids : list Z) (w : writer) : Prop :=
  exists D' p, St nf (push_position (set_ids wg (fold_left bm_set ids (w_ids wg))) (zlen D)) D' p w
    /\ zlen D <= p <= zlen D' /\ ztake (zlen D) D' = D.

(** The block is completely in the file and in the bookkeeping, and the section
    sizes recorded in it are right. *)
Definition stored_at (wg : writer) (D : list Z) (ids vals : list Z) (w : writer) : Prop :=
  id_claim (w_enc wg) ids = zlen (concat (id_chunks (w_enc wg) ids))
  /\ val_claim (w_enc wg) vals = zlen (concat (val_chunks (w_enc wg) vals))
  /\ End nf (commit wg D ids vals) (D ++ block_image (w_enc wg) (zlen D) ids vals) w.

Definition block_error (wg : writer) (D : list Z) (ids vals : list Z) (e : err) (w : writer) : Prop :=
  (e = ErrIO /\ ~ nf /\ End nf (set_ids wg (fold_left bm_set ids (w_ids wg))) D w)
  \/ (e = ErrSync /\ ~ nf /\ stored_at wg D ids vals w)
  \/ ((e = ErrIO /\ ~ nf \/ e = ErrMismatch /\ ~ consistent (w_enc wg)) /\ poisoned wg D ids w).

Lemma writeSection_ids e ids :
  declared e -> writeSection (useVarIntForIDs e) (id_items e ids) (varint_bytes e encodeVarInt (id_items e ids))
  = writeAll (id_chunks e ids) 0.
Proof.
  intros H. unfold writeSection, id_chunks, varint_bytes.
  assert (e = 0 \/ e = 1 \/ e = 2 \/ e = 3 \/ e = 4 \/ e = 5 \/ e = 6 \/ e = 7) as G by (unfold declared in H; lia).
  destruct G as [->|[->|[->|[->|[->|[->|[->| ->]]]]]]]; reflexivity.
Qed.
Lemma writeSection_vals e vals :
  declared e -> writeSection (useVarIntForValues e) (val_items e vals) (varint_bytes e encodeSignedVarInt (val_items e vals))
  = writeAll (val_chunks e vals) 0.
Proof.
  intros H. unfold writeSection, val_chunks, varint_bytes.
  assert (e = 0 \/ e = 1 \/ e = 2 \/ e = 3 \/ e = 4 \/ e = 5 \/ e = 6 \/ e = 7) as G by (unfold declared in H; lia).
  destruct G as [->|[->|[->|[->|[->|[->|[->| ->]]]]]]]; reflexivity.
Qed.

Lemma poisoned_end wg D ids t w :
  End nf (push_position (set_ids wg (fold_left bm_set ids (w_ids wg))) (zlen D)) (D ++ t) w ->
  poisoned wg D ids w.
Proof.
  intros H. exists (D ++ t), (zlen (D ++ t)). split; [exact H|]. split.
  - rewrite zlen_app. pose proof (zlen_nonneg t). lia.
  - apply ztake_app_exact. reflexivity.
Qed.

Theorem writeBlockInternal_rule wg D ids vals :
  declared (w_enc wg) -> good_block (ids, vals) ->
  triple (End nf wg D) (writeBlockInternal ids vals)
    (fun _ w => stored_at wg D ids vals w)
    (fun e w => block_error wg D ids vals e w).
Proof.
  intros Henc Hgood. unfold writeBlockInternal.
  destruct Hgood as (Hi & Hv & Hlen & Hn). cbn [fst snd] in *.
  set (E := block_error wg D ids vals).
  set (wg1 := set_ids wg (fold_left bm_set ids (w_ids wg))).
  set (wg2 := push_position wg1 (zlen D)).
  eapply triple_bind with (R := fun _ => End nf wg1 D).
  { apply triple_modify. intros w (fs & -> & Hfs). exists fs. split; [reflexivity|assumption]. }
  intros _. eapply triple_bind with (R := fun w0 w => w_enc w0 = w_enc wg /\ End nf wg1 D w).
  { apply triple_get. intros w (fs & -> & Hfs). split; [reflexivity|]. exists fs. auto. }
  intros w0. apply triple_pure. intros ->.
  rewrite (encodeIDs_ok (w_enc wg) ids Henc Hi Hn).
  eapply triple_bind. { apply triple_lift with (Q := fun a w => a = (id_items (w_enc wg) ids, varint_bytes (w_enc wg) encodeVarInt (id_items (w_enc wg) ids), id_claim (w_enc wg) ids) /\ End nf wg1 D w). auto. }
  intros a. cbv beta. apply triple_pure. intros ->.
  assert (Hn' : 1 <= zlen vals <= max_items) by lia.
  rewrite (encodeValues_ok (w_enc wg) vals Henc Hv Hn').
  eapply triple_bind. { apply triple_lift with (Q := fun a w => a = (val_items (w_enc wg) vals, varint_bytes (w_enc wg) encodeSignedVarInt (val_items (w_enc wg) vals), val_claim (w_enc wg) vals) /\ End nf wg1 D w). auto. }
  intros a. cbv beta. apply triple_pure. intros ->.
  set (e := w_enc wg) in *.
  destruct (calculateMinMax ids) as [minID maxID] eqn:Emi.
  destruct (calculateMinMax vals) as [minV maxV] eqn:Emv.
  set (sum := calculateSumInt64 vals).
  rewrite (u32_id (zlen ids)) by (unfold is_u32, two32, max_items in *; lia).
  assert (Hst : stats_of ids vals = mkStats minID maxID minV maxV sum (zlen ids)).
  { unfold stats_of. rewrite Emi, Emv. reflexivity. }
  pose proof (zlen_nonneg D) as HD0.
  assert (EP : forall w t, ~ nf -> End nf wg2 (D ++ t) w -> E ErrIO w).
  { intros w t Hnf Hw. right. right. split; [auto|]. eapply poisoned_end; exact Hw. }
  (* blockStart *)
  eapply triple_bind.
  { apply seek_cur; [|lia]. intros w Hnf Hw. left. auto. }
  intros p. cbv beta. apply triple_pure. intros ->.
  eapply triple_bind with (R := fun _ => End nf wg2 D).
  { apply triple_modify. intros w (fs & -> & Hfs). exists fs. split; [reflexivity|assumption]. }
  intros _.
  (* writeBlockHeader *)
  set (H52 := le_bytes 8 minID ++ le_bytes 8 maxID ++ le_bytes 8 (int64ToUint64 minV)
     ++ le_bytes 8 (int64ToUint64 maxV) ++ le_bytes 8 (int64ToUint64 sum) ++ le_bytes 4 (zlen ids)
     ++ le_bytes 4 e ++ le_bytes 4 CompressionNone).
  assert (L52 : zlen H52 = 52) by (unfold H52; rewrite !zlen_app, !zlen_le_bytes; reflexivity).
  eapply triple_bind with (R := fun n w => n = 52 /\ End nf wg2 (D ++ H52) w).
  { unfold writeBlockHeader.
    eapply triple_bind.
    { apply seek_cur; [|lia]. intros w Hnf Hw. apply (EP w [] Hnf). rewrite app_nil_r. exact Hw. }
    intros p. cbv beta. apply triple_pure. intros ->.
    eapply triple_bind with (R := fun w0 w => w_enc w0 = e /\ End nf wg2 D w).
    { apply triple_get. intros w (fs & -> & Hfs). split; [reflexivity|]. exists fs. auto. }
    intros w1. apply triple_pure. intros ->.
    eapply triple_bind.
    { apply writeAll_end. exact EP. }
    intros n. cbv beta. apply triple_pure. intros _.
    cbn [concat]. rewrite app_nil_r. fold H52.
    eapply triple_bind.
    { apply seek_cur; [|apply zlen_nonneg]. intros w Hnf Hw. apply (EP w H52 Hnf). exact Hw. }
    intros p. cbv beta. apply triple_pure. intros ->.
    rewrite zlen_app, L52. replace (zlen D + 52 - zlen D =? 52) with true by lia.
    apply triple_ret. intros w Hw. split; [lia|]. unfold End. rewrite zlen_app, L52. exact Hw. }
  intros n. apply triple_pure. intros ->.
  assert (EP' : forall t, (forall w t', ~ nf -> End nf wg2 ((D ++ t) ++ t') w -> E ErrIO w)).
  { intros t w t' Hnf Hw. rewrite <- app_assoc in Hw. apply (EP w (t ++ t') Hnf Hw). }
  eapply triple_bind; [apply write_end, EP'|]. intros n1. cbv beta. apply triple_pure. intros _.
  rewrite <- (app_assoc D H52).
  eapply triple_bind; [apply write_end, EP'|]. intros n2. cbv beta. apply triple_pure. intros _.
  rewrite <- (app_assoc D).
  eapply triple_bind; [apply seek_cur; [intros w Hnf Hw; apply (EP w _ Hnf Hw)|apply zlen_nonneg]|].
  intros n3. cbv beta. apply triple_pure. intros _.
  eapply triple_bind; [apply write_end, EP'|]. intros n4. cbv beta. apply triple_pure. intros _.
  rewrite <- (app_assoc D).
  set (H68 := ((H52 ++ le_bytes 4 0) ++ le_bytes 4 0) ++ le_bytes 8 0).
  assert (E68 : H68 = (H52 ++ zeros 12) ++ zeros 4).
  { unfold H68. rewrite <- !app_assoc. reflexivity. }
  assert (L68 : zlen H68 = 68) by (rewrite E68, !zlen_app, L52, !zlen_zeros; reflexivity).
  change (blockHeaderSize - (52 + 4 + 4 + 8)) with (-4).
  eapply triple_bind.
  { apply seek_rel; [intros w Hnf Hw; apply (EP w _ Hnf Hw)|]. rewrite zlen_app, L68. lia. }
  intros n5. cbv beta.
  replace (zlen (D ++ H68) + -4) with (zlen D + 64) by (rewrite zlen_app, L68; lia).
  change (52 + 4 + 4 + 8 + -4) with 64. change (64 =? blockHeaderSize) with true. cbn [negb].
  pose proof (id_claim_bounds e ids Hi) as Bi. pose proof (val_claim_bounds e vals Hv) as Bv.
  destruct (Z.eqb_spec (id_claim e ids) 0) as [?|_]; [lia|].
  destruct (Z.eqb_spec (val_claim e vals) 0) as [?|_]; [lia|].
  fold (block_layout e ids vals).
  set (HH := H52 ++ zeros 12) in *.
  assert (LH : zlen HH = 64) by (unfold HH; rewrite zlen_app, L52, zlen_zeros; reflexivity).
  set (LL := block_layout e ids vals). assert (LLL : zlen LL = 16) by apply zlen_block_layout.
  eapply triple_bind with (R := fun n w => n = 16 /\ End nf wg2 (D ++ HH ++ LL) w).
  { eapply triple_post.
    - apply write_rule. intros w k Hnf Hw. right. right. split; [auto|].
      exists (overwrite (D ++ H68) (zlen D + 64) (ztake k LL)), (zlen D + 64 + zlen (ztake k LL)).
      split; [exact Hw|].
      assert (0 <= zlen (ztake k LL) <= 16).
      { split; [apply zlen_nonneg|]. rewrite zlen_ztake. lia. }
      split; [|].
      + rewrite zlen_overwrite by (try lia; right; rewrite zlen_app; lia). lia.
      + rewrite overwrite_prefix by (rewrite ?zlen_app; lia). apply ztake_app_exact. reflexivity.
    - cbv beta. intros n w [-> Hw]. split; [exact LLL|].
      rewrite E68, app_assoc in Hw.
      rewrite overwrite_tail in Hw by (rewrite ?zlen_app, ?LH, ?LLL, ?zlen_zeros; lia).
      unfold End. rewrite app_assoc. rewrite !zlen_app, LH. exact Hw. }
  intros n6. apply triple_pure. intros ->. change (16 =? 16) with true. cbn [negb].
  eapply triple_bind; [apply seek_cur; [intros w Hnf Hw; apply (EP w _ Hnf Hw)|apply zlen_nonneg]|].
  intros n7. cbv beta. apply triple_pure. intros _.
  rewrite (writeSection_ids e ids Henc). rewrite (writeSection_vals e vals Henc).
  pose proof (id_actual_bounds e ids Hi) as Ai. pose proof (val_actual_bounds e vals Hv) as Av.
  set (CI := concat (id_chunks e ids)) in *. set (CV := concat (val_chunks e vals)) in *.
  eapply triple_bind; [apply writeAll_end, EP'|]. intros n8. cbv beta. apply triple_pure. intros ->.
  fold CI. rewrite Z.add_0_l. rewrite (u32_id (zlen CI)) by (unfold is_u32, two32, max_items in *; lia).
  destruct (Z.eqb_spec (zlen CI) (id_claim e ids)) as [Ei|Ni]; cbn [negb].
  2:{ apply triple_fail. intros w Hw. right. right. split.
      - right. split; [reflexivity|]. intros Hc. apply Ni, consistent_id, Hc.
      - rewrite <- app_assoc in Hw. eapply poisoned_end. exact Hw. }
  rewrite <- (app_assoc D).
  eapply triple_bind; [apply writeAll_end, EP'|]. intros n9. cbv beta. apply triple_pure. intros ->.
  fold CV. rewrite Z.add_0_l. rewrite (u32_id (zlen CV)) by (unfold is_u32, two32, max_items in *; lia).
  destruct (Z.eqb_spec (zlen CV) (val_claim e vals)) as [Ev|Nv]; cbn [negb].
  2:{ apply triple_fail. intros w Hw. right. right. split.
      - right. split; [reflexivity|]. intros Hc. apply Nv, consistent_val, Hc.
      - rewrite <- app_assoc in Hw. eapply poisoned_end. exact Hw. }
  rewrite <- (app_assoc D).
  assert (EB : (((HH ++ LL) ++ CI) ++ CV) = block_body e ids vals).
  { unfold block_body, block_header. rewrite Hst. cbn [st_minID st_maxID st_minValue st_maxValue st_sum st_count].
    fold H52. fold HH. fold LL. fold CI. fold CV. rewrite !app_assoc. reflexivity. }
  rewrite EB.
  assert (LB : zlen (block_body e ids vals) = 80 + zlen CI + zlen CV) by apply zlen_block_body.
  eapply triple_bind; [apply seek_cur; [intros w Hnf Hw; apply (EP w _ Hnf Hw)|apply zlen_nonneg]|].
  intros n10. cbv beta. apply triple_pure. intros ->.
  replace (zlen (D ++ block_body e ids vals) - zlen D) with (zlen (block_body e ids vals)) by (rewrite zlen_app; lia).
  rewrite (zlen_app D).
  set (pad := calculatePadding (zlen D + zlen (block_body e ids vals)) PageSize).
  assert (Hpad : 0 <= pad < PageSize) by apply calculatePadding_range.
  assert (EI : block_image e (zlen D) ids vals = block_body e ids vals ++ zeros pad) by reflexivity.
  eapply triple_bind with (R := fun _ => End nf wg2 (D ++ block_image e (zlen D) ids vals)).
  { rewrite EI. destruct (Z.gtb_spec pad 0).
    - eapply triple_post; [apply triple_pre with (P := End nf wg2 (D ++ block_body e ids vals)); [apply write_end, EP'|]|].
      + intros w Hw. unfold End. rewrite zlen_app. exact Hw.
      + intros a w [_ Hw]. rewrite <- app_assoc in Hw. exact Hw.
    - apply triple_ret. intros w Hw. rewrite zeros_nil by lia. rewrite app_nil_r. unfold End. rewrite zlen_app. exact Hw. }
  intros n11.
  pose proof (block_image_small e (zlen D) ids vals (conj Hi (conj Hv (conj Hlen Hn)))) as Hsm.
  assert (LI : zlen (block_image e (zlen D) ids vals) = zlen (block_body e ids vals) + pad) by apply zlen_block_image.
  rewrite (u64_id (zlen (block_body e ids vals))) by (unfold is_u64, two64, two32 in *; lia).
  rewrite <- LI.
  rewrite (u64_id (zlen (block_image _ _ _ _))) by (unfold is_u64, two64, two32 in *; lia).
  replace (zlen (block_image e (zlen D) ids vals) - pad) with (zlen (block_body e ids vals)) by lia.
  rewrite (u64_id (zlen (block_body e ids vals))) by (unfold is_u64, two64, two32 in *; lia).
  replace (zlen (block_body e ids vals) - _) with 0 by (unfold blockHeaderSize, blockLayoutSize; lia).
  change (u64 0 =? 0) with true. cbn [negb].
  eapply triple_bind with (R := fun _ => End nf (commit wg D ids vals) (D ++ block_image e (zlen D) ids vals)).
  { apply triple_modify. intros w (fs & -> & Hfs). exists fs. split; [|assumption].
    unfold commit. fold e. fold wg1. fold wg2. rewrite Hst. rewrite u32_id by (unfold is_u32; lia). reflexivity. }
  intros _. eapply triple_post.
  - apply sync_rule. intros w Hnf Hw. right. left. unfold stored_at. auto.
  - intros a w Hw. unfold stored_at. auto.
Qed.

End Block.
