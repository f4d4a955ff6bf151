(** EstimateBlockSize, the search for the longest fitting prefix, and WriteBlock. *)
From Verif Require Import Machine MachineFacts Encoding EncodingFacts FileIO Sroar Writer Spec FileFacts WriterFacts.
Ltac Zify.zify_post_hook ::= Z.div_mod_to_equations.

(** What EstimateBlockSize answers at file offset [p]. *)
Definition claimed (e : Z) (ids vals : list Z) : Z := 80 + id_claim e ids + val_claim e vals.
Definition estimate (e p : Z) (ids vals : list Z) : Z :=
  claimed e ids vals + calculatePadding (p + claimed e ids vals) PageSize.

Lemma padded_mono p a b : a <= b ->
  a + calculatePadding (p + a) PageSize <= b + calculatePadding (p + b) PageSize.
Proof.
  unfold calculatePadding, PageSize. intros.
  destruct (Z.eqb_spec ((p + a) mod 4096) 0), (Z.eqb_spec ((p + b) mod 4096) 0); lia.
Qed.

Lemma id_items_prefix e n ids : id_items e (ztake n ids) = ztake n (id_items e ids).
Proof. unfold id_items. destruct (is_delta e); [|reflexivity]. symmetry. apply delta_encode_prefix. Qed.
Lemma val_items_prefix e n vals : val_items e (ztake n vals) = ztake n (val_items e vals).
Proof. unfold val_items. destruct (is_delta e); [|reflexivity]. symmetry. apply delta_encode_prefix. Qed.

Lemma zlen_concat_prefix {A} (f : A -> list Z) n m l : n <= m ->
  zlen (concat (map f (ztake n l))) <= zlen (concat (map f (ztake m l))).
Proof.
  intros H. replace (ztake n l) with (ztake n (ztake m l)) by (rewrite ztake_ztake; f_equal; lia).
  rewrite <- (ztake_zdrop n (ztake m l)) at 2. rewrite map_app, concat_app, zlen_app.
  pose proof (zlen_nonneg (concat (map f (zdrop n (ztake m l))))). lia.
Qed.
Lemma id_claim_mono e n m ids : n <= m -> id_claim e (ztake n ids) <= id_claim e (ztake m ids).
Proof.
  intros. unfold id_claim. destruct (usesFixedWidth e).
  - rewrite !zlen_ztake. lia.
  - rewrite !id_items_prefix. apply zlen_concat_prefix. assumption.
Qed.
Lemma val_claim_mono e n m vals : n <= m -> val_claim e (ztake n vals) <= val_claim e (ztake m vals).
Proof.
  intros. unfold val_claim. destruct (usesFixedWidth e).
  - rewrite !zlen_ztake. lia.
  - rewrite !val_items_prefix. apply zlen_concat_prefix. assumption.
Qed.
Lemma estimate_mono e p n m ids vals : n <= m ->
  estimate e p (ztake n ids) (ztake n vals) <= estimate e p (ztake m ids) (ztake m vals).
Proof.
  intros H. unfold estimate. apply padded_mono. unfold claimed.
  pose proof (id_claim_mono e n m ids H). pose proof (val_claim_mono e n m vals H). lia.
Qed.
Lemma estimate_image e p ids vals :
  id_claim e ids = zlen (concat (id_chunks e ids)) ->
  val_claim e vals = zlen (concat (val_chunks e vals)) ->
  estimate e p ids vals = zlen (block_image e p ids vals).
Proof.
  intros H1 H2. rewrite zlen_block_image, zlen_block_body. unfold estimate, claimed. rewrite H1, H2. reflexivity.
Qed.

Lemma good_block_prefix ids vals n : good_block (ids, vals) -> 1 <= n ->
  good_block (ztake n ids, ztake n vals).
Proof.
  intros (Hi & Hv & Hl & Hn) H. unfold good_block. cbn [fst snd] in *.
  rewrite !zlen_ztake. repeat split; try lia; apply Forall_ztake; assumption.
Qed.

Section Estimate.
Context {Srr : Sroar}.
Variable nf : Prop.

Lemma EstimateBlockSize_rule wg D p ids vals :
  declared (w_enc wg) -> good_block (ids, vals) -> 0 <= p ->
  triple (St nf wg D p) (EstimateBlockSize ids vals)
    (fun n w => n = estimate (w_enc wg) p ids vals /\ St nf wg D p w)
    (fun e w => e = ErrIO /\ ~ nf /\ St nf wg D p w).
Proof.
  intros Henc (Hi & Hv & Hlen & Hn) Hp. cbn [fst snd] in *. unfold EstimateBlockSize.
  replace (zlen ids =? zlen vals) with true by lia. cbn [negb].
  destruct (Z.eqb_spec (zlen ids) 0) as [?|_]; [lia|].
  eapply triple_bind with (R := fun w0 w => w_enc w0 = w_enc wg /\ St nf wg D p w).
  { apply triple_get. intros w (fs & -> & Hfs). split; [reflexivity|]. exists fs. auto. }
  intros w0. apply triple_pure. intros ->. set (e := w_enc wg) in *.
  rewrite (encodeIDs_ok e ids Henc Hi Hn).
  eapply triple_bind. { apply triple_lift with (Q := fun a w => a = (id_items e ids, varint_bytes e encodeVarInt (id_items e ids), id_claim e ids) /\ St nf wg D p w). auto. }
  intros a. cbv beta. apply triple_pure. intros ->.
  assert (Hn' : 1 <= zlen vals <= max_items) by lia.
  rewrite (encodeValues_ok e vals Henc Hv Hn').
  eapply triple_bind. { apply triple_lift with (Q := fun a w => a = (val_items e vals, varint_bytes e encodeSignedVarInt (val_items e vals), val_claim e vals) /\ St nf wg D p w). auto. }
  intros a. cbv beta. apply triple_pure. intros ->.
  eapply triple_bind.
  { apply seek_cur; [|lia]. intros w Hnf Hw. auto. }
  intros q. cbv beta. apply triple_pure. intros ->.
  pose proof (id_claim_bounds e ids Hi). pose proof (val_claim_bounds e vals Hv).
  rewrite u32_id by (unfold is_u32, two32, max_items, blockHeaderSize, blockLayoutSize in *; lia).
  change (blockHeaderSize + blockLayoutSize) with 80. fold (claimed e ids vals).
  pose proof (calculatePadding_range (p + claimed e ids vals)).
  unfold estimate. destruct (Z.gtb_spec (calculatePadding (p + claimed e ids vals) PageSize) 0).
  - apply triple_ret. intros w Hw. split; [reflexivity|assumption].
  - apply triple_ret. intros w Hw. split; [lia|assumption].
Qed.

Lemma encodeIDs_undeclared e ids : ~ declared e -> encodeIDs e ids = Err ErrEncoding.
Proof.
  intros H. unfold encodeIDs, encodeData, usesDelta.
  unfold declared, EncodingRaw, EncodingDeltaID, EncodingDeltaValue, EncodingDeltaBoth,
    EncodingVarInt, EncodingVarIntID, EncodingVarIntValue, EncodingVarIntBoth in *.
  destruct ((e =? 0) || (e =? 4) || (e =? 5)) eqn:E1; [lia|].
  destruct ((e =? 1) || (e =? 2) || (e =? 3) || (e =? 6) || (e =? 7)) eqn:E2; [lia|]. reflexivity.
Qed.

(** [idx] = [i, i+1, ..., len-1]. *)
Lemma findOptimal_rule wg D ids vals k i :
  declared (w_enc wg) -> good_block (ids, vals) -> (1 <= i)%nat -> Z.of_nat (i + k) = zlen ids ->
  let est n := estimate (w_enc wg) (zlen D) (ztake n ids) (ztake n vals) in
  let prev := Z.max 1 (Z.of_nat i - 1) in
  prev < zlen ids ->
  ((1 < i)%nat -> est prev <= w_target wg) ->
  triple (End nf wg D) (findOptimal ids vals (map Z.of_nat (seq i k)) prev)
    (fun n w => prev <= n < zlen ids /\ (n = 1 \/ est n <= w_target wg)
                /\ (nf -> forall m, n < m < zlen ids -> w_target wg < est m)
                /\ End nf wg D w)
    (fun _ _ => False).
Proof.
  intros Henc Hg. revert i. induction k as [|k IH]; intros i Hi Hk est prev Hlt Hprev.
  - cbn [seq map findOptimal]. apply triple_ret. intros w Hw.
    assert (prev = 1 \/ est prev <= w_target wg).
    { destruct (Nat.eq_dec i 1); [left; lia|right; apply Hprev; lia]. }
    split; [lia|]. split; [assumption|]. split; [|assumption]. intros _ m Hm. lia.
  - cbn [seq map findOptimal]. intros w Hw.
    assert (Hp : good_block (ztake (Z.of_nat i) ids, ztake (Z.of_nat i) vals)).
    { apply good_block_prefix; [assumption|lia]. }
    pose proof (EstimateBlockSize_rule wg D (zlen D) _ _ Henc Hp (zlen_nonneg D) w Hw) as HE.
    destruct (EstimateBlockSize _ _ w) as [[size|er|] w1].
    + destruct HE as [-> Hw1].
      assert (Ht : w_target w1 = w_target wg) by (destruct Hw1 as (fs & -> & _); reflexivity).
      rewrite Ht. fold (est (Z.of_nat i)).
      destruct (Z.leb_spec (est (Z.of_nat i)) (w_target wg)) as [Hle|Hgt].
      * specialize (IH (S i) ltac:(lia) ltac:(lia)). cbv zeta in IH. fold est in IH.
        replace (Z.max 1 (Z.of_nat (S i) - 1)) with (Z.of_nat i) in IH by lia.
        specialize (IH ltac:(lia) ltac:(intros; assumption) w1 Hw1).
        destruct (findOptimal _ _ _ _ w1) as [[n|er|] w2]; [|assumption|assumption].
        destruct IH as (H1 & H2 & H3 & H4). split; [lia|]. split; [assumption|]. split; assumption.
      * split; [lia|]. split.
        { destruct (Nat.eq_dec i 1); [left; lia|right; apply Hprev; lia]. }
        split; [|exact Hw1]. intros _ m Hm.
        pose proof (estimate_mono (w_enc wg) (zlen D) (Z.of_nat i) m ids vals ltac:(lia)).
        unfold est in *. lia.
    + destruct HE as (-> & Hnf & Hw1). split; [lia|]. split.
      { destruct (Nat.eq_dec i 1); [left; lia|right; apply Hprev; lia]. }
      split; [|exact Hw1]. tauto.
    + contradiction.
Qed.

(** Outcome of WriteBlock on a well-typed block, from the end of the file. *)
Definition est_at (wg : writer) (D : list Z) (ids vals : list Z) (n : Z) : Z :=
  estimate (w_enc wg) (zlen D) (ztake n ids) (ztake n vals).

Definition writeBlock_error (wg : writer) (D : list Z) (ids vals : list Z) (e : err) (w : writer) : Prop :=
  (e = ErrIO /\ ~ nf /\ End nf wg D w)
  \/ (exists n, e = ErrBlockFull n /\ 1 <= n < zlen ids
        /\ (n = 1 \/ est_at wg D ids vals n <= w_target wg)
        /\ (nf -> forall m, n < m <= zlen ids -> w_target wg < est_at wg D ids vals m)
        /\ stored_at nf wg D (ztake n ids) (ztake n vals) w)
  \/ (exists n, 1 <= n <= zlen ids
        /\ block_error nf wg D (ztake n ids) (ztake n vals) e w
        /\ (n = 1 \/ est_at wg D ids vals n <= w_target wg)).

Theorem WriteBlock_rule wg D ids vals :
  declared (w_enc wg) -> good_block (ids, vals) ->
  triple (End nf wg D) (WriteBlock ids vals)
    (fun _ w => stored_at nf wg D ids vals w
                /\ (zlen ids = 1 \/ estimate (w_enc wg) (zlen D) ids vals <= w_target wg))
    (writeBlock_error wg D ids vals).
Proof.
  intros Henc Hg. assert (Hg' := Hg). destruct Hg' as (Hi & Hv & Hlen & Hn). cbn [fst snd] in *.
  unfold WriteBlock. replace (zlen ids =? zlen vals) with true by lia. cbn [negb].
  destruct (Z.eqb_spec (zlen ids) 0) as [?|_]; [lia|].
  assert (Hall : forall l : list Z, ztake (zlen l) l = l) by (intros; apply ztake_all; lia).
  eapply triple_bind.
  { eapply triple_conseq; [apply (EstimateBlockSize_rule wg D (zlen D) ids vals Henc Hg (zlen_nonneg D))| | |].
    - intros w Hw. exact Hw.
    - intros a w Hw. exact Hw.
    - cbv beta. intros e w (-> & Hnf & Hw). left. auto. }
  intros n. cbv beta. apply triple_pure. intros ->.
  eapply triple_bind with (R := fun w0 w => w_target w0 = w_target wg /\ End nf wg D w).
  { apply triple_get. intros w (fs & -> & Hfs). split; [reflexivity|]. exists fs. auto. }
  intros w0. apply triple_pure. intros ->.
  destruct ((estimate (w_enc wg) (zlen D) ids vals >? w_target wg) && (zlen ids >? 1)) eqn:Ec.
  - assert (tl (zseq (zlen ids)) = map Z.of_nat (seq 1 (Z.to_nat (zlen ids) - 1))) as ->.
    { unfold zseq. destruct (Z.to_nat (zlen ids)) as [|k] eqn:Ek; [lia|]. cbn. rewrite Nat.sub_0_r. reflexivity. }
    eapply triple_bind.
    { eapply triple_conseq; [apply (findOptimal_rule wg D ids vals (Z.to_nat (zlen ids) - 1) 1 Henc Hg)| | |].
      - lia.
      - lia.
      - lia.
      - lia.
      - intros w Hw. exact Hw.
      - intros a w Hw. exact Hw.
      - cbv beta. intros e w []. }
    intros n. cbv beta. apply triple_pure. intros Hb. apply triple_pure. intros Hfit.
    apply triple_pure. intros Hmax.
    eapply triple_bind.
    { eapply triple_conseq; [apply (writeBlockInternal_rule nf wg D (ztake n ids) (ztake n vals) Henc)| | |].
      - apply good_block_prefix; [assumption|lia].
      - intros w Hw. exact Hw.
      - intros a w Hw. exact Hw.
      - cbv beta. intros e w He. right. right. exists n. split; [lia|]. split; [exact He|exact Hfit]. }
    intros u. cbv beta. apply triple_fail. intros w Hw. right. left. exists n. split; [reflexivity|].
    split; [lia|]. split; [exact Hfit|]. split; [|exact Hw].
    intros Hnf m Hm. destruct (Z.eq_dec m (zlen ids)) as [->|].
    + unfold est_at. rewrite (Hall ids). rewrite Hlen, (Hall vals). lia.
    + apply (Hmax Hnf). lia.
  - assert (Hc : zlen ids = 1 \/ estimate (w_enc wg) (zlen D) ids vals <= w_target wg) by lia.
    eapply triple_conseq; [apply (writeBlockInternal_rule nf wg D ids vals Henc Hg)| | |].
    + intros w Hw. exact Hw.
    + cbv beta. intros a w Hw. auto.
    + cbv beta. intros e w He. right. right. exists (zlen ids). rewrite (Hall ids).
      replace (ztake (zlen ids) vals) with vals by (rewrite Hlen; symmetry; apply Hall).
      split; [lia|]. split; [exact He|]. unfold est_at.
      rewrite (Hall ids). replace (ztake (zlen ids) vals) with vals by (rewrite Hlen; symmetry; apply Hall).
      exact Hc.
Qed.

(** Calls that are refused before anything happens. *)
Lemma WriteBlock_length ids vals w : zlen ids <> zlen vals -> WriteBlock ids vals w = (Err ErrLength, w).
Proof.
  intros H. unfold WriteBlock. replace (zlen ids =? zlen vals) with false by lia. reflexivity.
Qed.
Lemma WriteBlock_empty w : WriteBlock [] [] w = (Err ErrEmpty, w).
Proof. reflexivity. Qed.
Lemma WriteBlock_undeclared ids vals w : zlen ids = zlen vals -> zlen ids <> 0 -> ~ declared (w_enc w) ->
  WriteBlock ids vals w = (Err ErrEncoding, w).
Proof.
  intros H1 H2 H3. unfold WriteBlock, EstimateBlockSize.
  replace (zlen ids =? zlen vals) with true by lia. replace (zlen ids =? 0) with false by lia.
  cbn [negb]. unfold mbind. cbn [mget]. rewrite encodeIDs_undeclared by assumption. reflexivity.
Qed.
Lemma EstimateBlockSize_undeclared ids vals w : zlen ids = zlen vals -> zlen ids <> 0 -> ~ declared (w_enc w) ->
  EstimateBlockSize ids vals w = (Err ErrEncoding, w).
Proof.
  intros H1 H2 H3. unfold EstimateBlockSize.
  replace (zlen ids =? zlen vals) with true by lia. replace (zlen ids =? 0) with false by lia.
  cbn [negb]. unfold mbind. cbn [mget]. rewrite encodeIDs_undeclared by assumption. reflexivity.
Qed.

End Estimate.
