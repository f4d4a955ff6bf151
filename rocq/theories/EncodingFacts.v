(** Proofs about the codecs of Encoding.v. *)
From Verif Require Import Machine MachineFacts Encoding.
Ltac Zify.zify_post_hook ::= Z.div_mod_to_equations.

(** ** Bit operations as arithmetic *)
Lemma land_127 x : Z.land x 127 = x mod 128.
Proof. change 127 with (Z.ones 7). rewrite Z.land_ones by lia. reflexivity. Qed.
Lemma shiftr_7 x : Z.shiftr x 7 = x / 128.
Proof. rewrite Z.shiftr_div_pow2 by lia. reflexivity. Qed.
Lemma land_shiftl_0 a c s : 0 <= s -> 0 <= a < 2 ^ s -> Z.land a (Z.shiftl c s) = 0.
Proof.
  intros Hs Ha. apply Z.bits_inj'. intros n Hn. rewrite Z.land_spec, Z.bits_0.
  destruct (Z.lt_ge_cases n s).
  - rewrite Z.shiftl_spec_low by lia. apply andb_false_r.
  - replace a with (a mod 2 ^ s) by (apply Z.mod_small; lia).
    rewrite Z.mod_pow2_bits_high by lia. reflexivity.
Qed.
Lemma add_lor a b : Z.land a b = 0 -> Z.lor a b = a + b.
Proof. intros H. rewrite <- Z.lxor_lor by assumption. symmetry. apply Z.add_nocarry_lxor. assumption. Qed.
Lemma lor_shiftl_add a c s : 0 <= s -> 0 <= a < 2 ^ s -> Z.lor a (Z.shiftl c s) = a + c * 2 ^ s.
Proof.
  intros Hs Ha. rewrite <- (Z.shiftl_mul_pow2 c s) by lia. apply add_lor, land_shiftl_0; lia.
Qed.
Lemma lor_128 b : 0 <= b < 128 -> Z.lor b 128 = b + 128.
Proof. intros. change 128 with (Z.shiftl 1 7) at 1. rewrite lor_shiftl_add by (change (2 ^ 7) with 128; lia). reflexivity. Qed.
Lemma land_128_small b : 0 <= b < 128 -> Z.land b 128 = 0.
Proof. intros. change 128 with (Z.shiftl 1 7). apply land_shiftl_0; [lia|]. change (2 ^ 7) with 128. lia. Qed.
Lemma land_128_big b : 0 <= b < 128 -> Z.land (b + 128) 128 = 128.
Proof.
  intros. rewrite <- lor_128 by lia. rewrite Z.land_lor_distr_l, land_128_small by lia. reflexivity.
Qed.
Lemma mod_128_big b : 0 <= b < 128 -> Z.land (b + 128) 127 = b.
Proof. intros. rewrite land_127. lia. Qed.

(** ** Unsigned varints *)
Lemma encodeVarInt_loop_S fuel v : 0 < v ->
  encodeVarInt_loop (S fuel) v =
  (if v <? 128 then [v] else (v mod 128 + 128) :: encodeVarInt_loop fuel (v / 128)).
Proof.
  intros Hv. cbn [encodeVarInt_loop]. rewrite land_127, shiftr_7.
  destruct (Z.gtb_spec v 0) as [_|]; [|lia].
  destruct (Z.ltb_spec v 128).
  - destruct (Z.gtb_spec (v / 128) 0); [lia|].
    replace (v / 128) with 0 by lia. replace (v mod 128) with v by lia.
    destruct fuel; reflexivity.
  - destruct (Z.gtb_spec (v / 128) 0); [|lia]. rewrite lor_128 by lia. reflexivity.
Qed.

Lemma pow2_7 n : 0 <= n -> 2 ^ (7 * (n + 1)) = 128 * 2 ^ (7 * n).
Proof. intros. replace (7 * (n + 1)) with (7 + 7 * n) by lia. rewrite Z.pow_add_r by lia. reflexivity. Qed.

(** Length: the least number of 7-bit groups. *)
Lemma encodeVarInt_loop_len fuel v : 0 < v < 2 ^ (7 * Z.of_nat fuel) ->
  let n := zlen (encodeVarInt_loop fuel v) in
  1 <= n <= Z.of_nat fuel /\ 2 ^ (7 * (n - 1)) <= v < 2 ^ (7 * n).
Proof.
  revert v. induction fuel as [|fuel IH]; intros v Hv.
  - cbn in Hv. lia.
  - cbn zeta. rewrite encodeVarInt_loop_S by lia.
    destruct (Z.ltb_spec v 128) as [Hs|Hs].
    + rewrite zlen_cons, zlen_nil. change (2 ^ (7 * (1 + 0))) with 128. change (2 ^ (7 * (1 + 0 - 1))) with 1. lia.
    + rewrite zlen_cons. rewrite Nat2Z.inj_succ, <- Z.add_1_r, pow2_7 in Hv by lia.
      destruct (IH (v / 128)) as [H1 H2]; [lia|].
      set (n := zlen (encodeVarInt_loop fuel (v / 128))) in *.
      replace (1 + n) with (n + 1) by lia. rewrite pow2_7 by lia.
      replace (n + 1 - 1) with (n - 1 + 1) by lia. rewrite pow2_7 by lia. lia.
Qed.

Lemma encodeVarInt_pos v : 0 < v -> encodeVarInt v = encodeVarInt_loop 10 v.
Proof. intros. unfold encodeVarInt. destruct (Z.eqb_spec v 0); [lia|reflexivity]. Qed.

Lemma encodeVarInt_len v : is_u64 v ->
  1 <= zlen (encodeVarInt v) <= 10
  /\ v < 2 ^ (7 * zlen (encodeVarInt v))
  /\ (zlen (encodeVarInt v) = 1 \/ 2 ^ (7 * (zlen (encodeVarInt v) - 1)) <= v).
Proof.
  unfold is_u64, two64. intros Hv. destruct (Z.eq_dec v 0) as [->|Hn].
  - cbn. lia.
  - rewrite encodeVarInt_pos by lia.
    destruct (encodeVarInt_loop_len 10 v) as [H1 H2]; [change (2 ^ (7 * Z.of_nat 10)) with 1180591620717411303424; lia|].
    change (Z.of_nat 10) with 10 in H1. lia.
Qed.

Lemma encodeVarInt_bytes v : is_u64 v -> Forall is_byte (encodeVarInt v).
Proof.
  intros Hv. unfold encodeVarInt. destruct (Z.eqb_spec v 0); [repeat constructor; unfold is_byte, two8; lia|].
  unfold is_u64 in Hv. assert (H : 0 < v) by lia. clear Hv n. revert v H. generalize 10%nat.
  intros fuel. induction fuel as [|fuel IH]; intros v Hv; [constructor|].
  rewrite encodeVarInt_loop_S by lia. destruct (Z.ltb_spec v 128).
  - repeat constructor; unfold is_byte, two8; lia.
  - constructor; [unfold is_byte, two8; lia|]. apply IH. lia.
Qed.

Lemma decode_loop_encode fuel v rest result shift n :
  0 < v < 2 ^ (7 * Z.of_nat fuel) -> 0 <= shift -> 0 <= result < 2 ^ shift ->
  v * 2 ^ shift < two64 ->
  decodeVarInt_loop (encodeVarInt_loop fuel v ++ rest) result shift n
  = (result + v * 2 ^ shift, n + zlen (encodeVarInt_loop fuel v)).
Proof.
  revert v result shift n. induction fuel as [|fuel IH]; intros v result shift n Hv Hs Hr Hb.
  - cbn in Hv. lia.
  - assert (Hp : 0 < 2 ^ shift) by (apply Z.pow_pos_nonneg; lia).
    rewrite encodeVarInt_loop_S by lia. destruct (Z.ltb_spec v 128) as [Hsm|Hbig].
    + cbn [app decodeVarInt_loop]. rewrite land_127, land_128_small by lia.
      rewrite Z.eqb_refl. rewrite Z.mod_small by lia.
      rewrite u64_id by (unfold is_u64; rewrite Z.shiftl_mul_pow2 by lia; nia).
      rewrite lor_shiftl_add by lia. reflexivity.
    + cbn [app decodeVarInt_loop]. rewrite mod_128_big, land_128_big by lia.
      change (128 =? 0) with false. cbv iota.
      assert (Hv128 : 1 <= v / 128) by lia.
      assert (Hmod : (v mod 128) * 2 ^ shift <= v * 2 ^ shift) by (apply Z.mul_le_mono_nonneg_r; lia).
      assert (Hdm : v = 128 * (v / 128) + v mod 128) by (apply Z.div_mod; lia).
      rewrite u64_id by (unfold is_u64; rewrite Z.shiftl_mul_pow2 by lia; nia).
      rewrite lor_shiftl_add by lia.
      assert (H7 : 2 ^ (shift + 7) = 2 ^ shift * 128) by (rewrite Z.pow_add_r by lia; reflexivity).
      destruct (Z.geb_spec (shift + 7) 70) as [Hge|Hlt].
      * exfalso. assert (2 ^ 70 <= 2 ^ (shift + 7)) by (apply Z.pow_le_mono_r; lia).
        change (2 ^ 70) with 1180591620717411303424 in *. unfold two64 in Hb. nia.
      * rewrite Nat2Z.inj_succ, <- Z.add_1_r, pow2_7 in Hv by lia.
        rewrite IH; [| lia | lia | nia | nia].
        rewrite zlen_cons, H7. f_equal; nia.
Qed.

Theorem decodeVarInt_encode v rest : is_u64 v ->
  decodeVarInt (encodeVarInt v ++ rest) = (v, zlen (encodeVarInt v)).
Proof.
  intros Hv. destruct (Z.eq_dec v 0) as [->|Hn]; [reflexivity|].
  unfold is_u64, two64 in Hv. rewrite encodeVarInt_pos by lia. unfold decodeVarInt.
  rewrite decode_loop_encode; change (2 ^ 0) with 1;
    change (2 ^ (7 * Z.of_nat 10)) with 1180591620717411303424; unfold two64; [f_equal|..]; lia.
Qed.

(** ** The library's Uvarint agrees *)
Lemma uvarint_loop_encode fuel v rest x s i :
  0 < v < 2 ^ (7 * Z.of_nat fuel) -> 0 <= i -> s = 7 * i -> 0 <= x < 2 ^ s ->
  v * 2 ^ s < two64 ->
  uvarint_loop (encodeVarInt_loop fuel v ++ rest) i x s
  = (x + v * 2 ^ s, i + zlen (encodeVarInt_loop fuel v)).
Proof.
  revert v x s i. induction fuel as [|fuel IH]; intros v x s i Hv Hi Hs Hx Hb.
  - cbn in Hv. lia.
  - assert (Hp : 0 < 2 ^ s) by (apply Z.pow_pos_nonneg; lia).
    assert (Hi9 : i <= 9).
    { destruct (Z.le_gt_cases i 9); [assumption|]. exfalso.
      assert (2 ^ 70 <= 2 ^ s) by (apply Z.pow_le_mono_r; lia).
      change (2 ^ 70) with 1180591620717411303424 in *. unfold two64 in Hb. nia. }
    rewrite encodeVarInt_loop_S by lia. destruct (Z.ltb_spec v 128) as [Hsm|Hbig].
    + cbn [app uvarint_loop]. destruct (Z.eqb_spec i 10); [lia|].
      destruct (Z.ltb_spec v 128); [|lia].
      destruct (Z.eqb_spec i 9) as [E9|]; cbn [andb].
      * destruct (Z.gtb_spec v 1) as [H1|H1].
        { exfalso. subst i s. change (2 ^ (7 * 9)) with 9223372036854775808 in *. unfold two64 in Hb. lia. }
        rewrite u64_id by (unfold is_u64; rewrite Z.shiftl_mul_pow2 by lia; nia).
        rewrite lor_shiftl_add by lia. reflexivity.
      * rewrite u64_id by (unfold is_u64; rewrite Z.shiftl_mul_pow2 by lia; nia).
        rewrite lor_shiftl_add by lia. reflexivity.
    + cbn [app uvarint_loop]. destruct (Z.eqb_spec i 10); [lia|].
      destruct (Z.ltb_spec (v mod 128 + 128) 128); [lia|].
      rewrite mod_128_big by lia.
      assert (Hv128 : 1 <= v / 128) by lia.
      assert (Hmod : (v mod 128) * 2 ^ s <= v * 2 ^ s) by (apply Z.mul_le_mono_nonneg_r; lia).
      assert (Hdm : v = 128 * (v / 128) + v mod 128) by (apply Z.div_mod; lia).
      rewrite u64_id by (unfold is_u64; rewrite Z.shiftl_mul_pow2 by lia; nia).
      rewrite lor_shiftl_add by lia.
      assert (H7 : 2 ^ (s + 7) = 2 ^ s * 128) by (rewrite Z.pow_add_r by lia; reflexivity).
      rewrite Nat2Z.inj_succ, <- Z.add_1_r, pow2_7 in Hv by lia.
      rewrite IH; [| lia | lia | lia | nia | nia].
      rewrite zlen_cons, H7. f_equal; nia.
Qed.

Theorem uvarint_encode v rest : is_u64 v ->
  uvarint (encodeVarInt v ++ rest) = (v, zlen (encodeVarInt v)).
Proof.
  intros Hv. destruct (Z.eq_dec v 0) as [->|Hn]; [reflexivity|].
  unfold is_u64, two64 in Hv. rewrite encodeVarInt_pos by lia. unfold uvarint.
  rewrite uvarint_loop_encode; change (2 ^ 0) with 1;
    change (2 ^ (7 * Z.of_nat 10)) with 1180591620717411303424; unfold two64; [f_equal|..]; lia.
Qed.

(** ** Zigzag *)
Lemma shiftr_63 v : is_i64 v -> Z.shiftr v 63 = if v <? 0 then -1 else 0.
Proof.
  unfold is_i64, two63. intros. rewrite Z.shiftr_div_pow2 by lia.
  change (2 ^ 63) with 9223372036854775808. destruct (Z.ltb_spec v 0); lia.
Qed.
Lemma zigzag_val v : is_i64 v -> zigzag v = if v <? 0 then - 2 * v - 1 else 2 * v.
Proof.
  intros Hv. pose proof (shiftr_63 v Hv) as H63. unfold is_i64, two63 in Hv. unfold zigzag. rewrite H63. rewrite Z.shiftl_mul_pow2 by lia. change (2 ^ 1) with 2.
  destruct (Z.ltb_spec v 0).
  - rewrite Z.lxor_m1_r. unfold Z.lnot. unfold u64, i64, two63, two64. lia.
  - rewrite Z.lxor_0_r. rewrite u64_i64. unfold u64, two64. lia.
Qed.
Lemma zigzag_range v : is_i64 v -> is_u64 (zigzag v).
Proof. intros. apply u64_range. Qed.

Lemma lxor_u64_ones x : 0 <= x < two64 -> Z.lxor x (two64 - 1) = two64 - 1 - x.
Proof.
  intros Hx. replace (two64 - 1) with (Z.ones 64) by reflexivity.
  assert (E : Z.land x (Z.lxor x (Z.ones 64)) = 0).
  { apply Z.bits_inj'. intros n Hn. rewrite Z.land_spec, Z.lxor_spec, Z.bits_0.
    destruct (Z.lt_ge_cases n 64).
    - rewrite Z.ones_spec_low by lia. destruct (Z.testbit x n); reflexivity.
    - replace x with (x mod 2 ^ 64) by (apply Z.mod_small; change (2 ^ 64) with two64; lia).
      rewrite Z.mod_pow2_bits_high by lia. reflexivity. }
  assert (F : Z.lor x (Z.lxor x (Z.ones 64)) = Z.ones 64).
  { apply Z.bits_inj'. intros n Hn. rewrite Z.lor_spec, Z.lxor_spec.
    destruct (Z.lt_ge_cases n 64).
    - rewrite Z.ones_spec_low by lia. destruct (Z.testbit x n); reflexivity.
    - rewrite Z.ones_spec_high by lia.
      replace x with (x mod 2 ^ 64) by (apply Z.mod_small; change (2 ^ 64) with two64; lia).
      rewrite Z.mod_pow2_bits_high by lia. reflexivity. }
  pose proof (add_lor _ _ E) as H. rewrite F in H. lia.
Qed.

Lemma unzigzag_val zz : is_u64 zz ->
  unzigzag zz = if zz mod 2 =? 0 then zz / 2 else - (zz / 2) - 1.
Proof.
  unfold is_u64. intros Hz. unfold unzigzag.
  rewrite Z.shiftr_div_pow2 by lia. change (2 ^ 1) with 2.
  change 1 with (Z.ones 1) at 1. rewrite Z.land_ones by lia. change (2 ^ 1) with 2.
  assert (H : zz mod 2 = 0 \/ zz mod 2 = 1) by lia. destruct H as [H|H]; rewrite H.
  - change (u64 (-0)) with 0. rewrite Z.lxor_0_r. cbn [Z.eqb].
    apply i64_id. unfold is_i64, two63, two64 in *. lia.
  - change (u64 (-1)) with (two64 - 1). rewrite lxor_u64_ones by (unfold two64 in *; lia).
    change (1 =? 0) with false. cbv iota. unfold i64, two63, two64 in *. lia.
Qed.

Lemma unzigzag_zigzag v : is_i64 v -> unzigzag (zigzag v) = v.
Proof.
  intros Hv. rewrite unzigzag_val by (apply zigzag_range; assumption). rewrite zigzag_val by assumption.
  unfold is_i64, two63 in Hv. destruct (Z.ltb_spec v 0).
  - destruct (Z.eqb_spec ((-2 * v - 1) mod 2) 0); lia.
  - destruct (Z.eqb_spec ((2 * v) mod 2) 0); lia.
Qed.
Lemma unzigzag_range zz : is_i64 (unzigzag zz).
Proof. apply i64_range. Qed.

Theorem decodeSignedVarInt_encode v rest : is_i64 v ->
  decodeSignedVarInt (encodeSignedVarInt v ++ rest) = (v, zlen (encodeSignedVarInt v)).
Proof.
  intros Hv. unfold decodeSignedVarInt, encodeSignedVarInt.
  rewrite decodeVarInt_encode by (apply zigzag_range; assumption).
  rewrite unzigzag_zigzag by assumption. reflexivity.
Qed.

(** ** Decoding arbitrary bytes *)
Lemma lor_u64 a b : is_u64 a -> is_u64 b -> is_u64 (Z.lor a b).
Proof.
  unfold is_u64. intros Ha Hb. split; [apply Z.lor_nonneg; lia|].
  change two64 with (2 ^ 64) in *.
  destruct (Z.eq_dec (Z.lor a b) 0) as [->|Hn]; [reflexivity|].
  assert (0 <= Z.lor a b) by (apply Z.lor_nonneg; lia).
  apply Z.log2_lt_pow2; [lia|]. rewrite Z.log2_lor by lia.
  apply Z.max_lub_lt.
  - destruct (Z.eq_dec a 0) as [->|]; [reflexivity|]. apply Z.log2_lt_pow2; lia.
  - destruct (Z.eq_dec b 0) as [->|]; [reflexivity|]. apply Z.log2_lt_pow2; lia.
Qed.

Lemma decode_loop_total data result k :
  is_u64 result -> 0 <= k <= 9 ->
  let '(v, n) := decodeVarInt_loop data result (7 * k) k in
  is_u64 v /\ k <= n <= Z.min 10 (k + zlen data) /\ (data <> [] -> k + 1 <= n).
Proof.
  revert result k. induction data as [|b data IH]; intros result k Hr Hk.
  - cbn. repeat split; try apply Hr; try lia. tauto.
  - cbn [decodeVarInt_loop]. pose proof (zlen_nonneg data).
    set (result' := Z.lor result (u64 (Z.shiftl (Z.land b 127) (7 * k)))).
    assert (Hr' : is_u64 result') by (apply lor_u64; [assumption|apply u64_range]).
    rewrite zlen_cons.
    destruct (Z.land b 128 =? 0); [repeat split; try apply Hr'; lia|].
    destruct (Z.geb_spec (7 * k + 7) 70); [repeat split; try apply Hr'; lia|].
    replace (7 * k + 7) with (7 * (k + 1)) by lia.
    specialize (IH result' (k + 1) Hr' ltac:(lia)).
    destruct (decodeVarInt_loop data result' (7 * (k + 1)) (k + 1)) as [v n].
    destruct IH as (Hv & Hn & _). repeat split; try apply Hv; lia.
Qed.

Theorem decodeVarInt_total data :
  let '(v, n) := decodeVarInt data in
  is_u64 v /\ 0 <= n <= Z.min 10 (zlen data) /\ (data <> [] -> 1 <= n).
Proof.
  pose proof (decode_loop_total data 0 0 ltac:(unfold is_u64, two64; lia) ltac:(lia)) as H.
  unfold decodeVarInt. change (7 * 0) with 0 in H.
  destruct (decodeVarInt_loop data 0 0 0) as [v n]. rewrite !Z.add_0_l in H. exact H.
Qed.

Theorem decodeSignedVarInt_total data :
  let '(v, n) := decodeSignedVarInt data in
  is_i64 v /\ 0 <= n <= Z.min 10 (zlen data) /\ (data <> [] -> 1 <= n).
Proof.
  pose proof (decodeVarInt_total data) as H. unfold decodeSignedVarInt.
  destruct (decodeVarInt data) as [v n]. destruct H as (_ & H).
  split; [apply unzigzag_range|exact H].
Qed.

Lemma uvarint_loop_total buf i x s :
  0 <= i <= 10 -> is_u64 x ->
  let '(v, n) := uvarint_loop buf i x s in
  is_u64 v /\ - 11 <= n <= i + zlen buf /\ n <= 10.
Proof.
  revert i x s. induction buf as [|b buf IH]; intros i x s Hi Hx.
  - cbn. unfold is_u64, two64. lia.
  - cbn [uvarint_loop]. pose proof (zlen_nonneg buf). rewrite zlen_cons.
    assert (H0 : is_u64 0) by (unfold is_u64, two64; lia).
    destruct (Z.eqb_spec i 10); [repeat split; try apply H0; lia|].
    destruct (b <? 128).
    + destruct ((i =? 9) && (b >? 1)); [repeat split; try apply H0; lia|].
      repeat split; try (apply lor_u64; [assumption|apply u64_range]); lia.
    + specialize (IH (i + 1) (Z.lor x (u64 (Z.shiftl (Z.land b 127) s))) (s + 7) ltac:(lia)
                     ltac:(apply lor_u64; [assumption|apply u64_range])).
      destruct (uvarint_loop buf (i + 1) _ (s + 7)) as [v m]. destruct IH as (Hv & Hm).
      repeat split; try apply Hv; lia.
Qed.
Theorem uvarint_total buf :
  let '(v, n) := uvarint buf in is_u64 v /\ - 11 <= n <= Z.min 10 (zlen buf).
Proof.
  pose proof (uvarint_loop_total buf 0 0 0 ltac:(lia) ltac:(unfold is_u64, two64; lia)) as H.
  unfold uvarint. destruct (uvarint_loop buf 0 0 0) as [v n]. destruct H as (? & ? & ?).
  split; [assumption|lia].
Qed.

(** ** Delta coding *)
Lemma undelta_delta (w : Z -> Z) (ok : Z -> Prop) :
  (forall x, ok x -> w x = x) -> (forall x y, w (x + w y) = w (x + y)) ->
  forall l prev, Forall ok l -> undelta_from w prev (delta_from w prev l) = l.
Proof.
  intros Hid Hadd l. induction l as [|x l IH]; intros prev H; [reflexivity|].
  inversion H as [|? ? Hx Hl]; subst. cbn [delta_from undelta_from].
  rewrite Hadd. replace (prev + (x - prev)) with x by lia. rewrite Hid by assumption.
  rewrite IH by assumption. reflexivity.
Qed.
Theorem deltaDecode_encode l : Forall is_u64 l -> deltaDecode (deltaEncode l) = l.
Proof.
  intros H. destruct l as [|x l]; [reflexivity|]. inversion H; subst.
  unfold deltaDecode, deltaEncode, delta_decode_with, delta_encode_with. f_equal.
  apply (undelta_delta u64 is_u64); [apply u64_id | apply u64_add_r | assumption].
Qed.
Theorem deltaDecodeInt64_encode l : Forall is_i64 l -> deltaDecodeInt64 (deltaEncodeInt64 l) = l.
Proof.
  intros H. destruct l as [|x l]; [reflexivity|]. inversion H; subst.
  unfold deltaDecodeInt64, deltaEncodeInt64, delta_decode_with, delta_encode_with. f_equal.
  apply (undelta_delta i64 is_i64); [apply i64_id | apply i64_add_r | assumption].
Qed.

Lemma delta_from_range (w : Z -> Z) (ok : Z -> Prop) : (forall x, ok (w x)) ->
  forall l prev, Forall ok (delta_from w prev l).
Proof. intros H l. induction l; intros; constructor; auto. Qed.
Lemma deltaEncode_range l : Forall is_u64 l -> Forall is_u64 (deltaEncode l).
Proof. intros H. destruct l; [constructor|]. inversion H; subst. constructor; [assumption|]. apply delta_from_range, u64_range. Qed.
Lemma deltaEncodeInt64_range l : Forall is_i64 l -> Forall is_i64 (deltaEncodeInt64 l).
Proof. intros H. destruct l; [constructor|]. inversion H; subst. constructor; [assumption|]. apply delta_from_range, i64_range. Qed.
Lemma delta_from_length w l prev : length (delta_from w prev l) = length l.
Proof. revert prev. induction l; intros; cbn; [reflexivity|]. f_equal. apply IHl. Qed.
Lemma delta_encode_length w l : length (delta_encode_with w l) = length l.
Proof. destruct l; cbn; [reflexivity|]. rewrite delta_from_length. reflexivity. Qed.
Lemma undelta_from_length w l prev : length (undelta_from w prev l) = length l.
Proof. revert prev. induction l; intros; cbn; [reflexivity|]. f_equal. apply IHl. Qed.
Lemma delta_decode_length w l : length (delta_decode_with w l) = length l.
Proof. destruct l; cbn; [reflexivity|]. rewrite undelta_from_length. reflexivity. Qed.
Lemma delta_from_prefix w n l prev : firstn n (delta_from w prev l) = delta_from w prev (firstn n l).
Proof. revert n prev. induction l; intros [|n] prev; cbn; try reflexivity. f_equal. apply IHl. Qed.
Lemma delta_encode_prefix w n l : ztake n (delta_encode_with w l) = delta_encode_with w (ztake n l).
Proof.
  unfold ztake. destruct l as [|x l]; [destruct (Z.to_nat n); reflexivity|].
  destruct (Z.to_nat n); cbn; [reflexivity|]. rewrite delta_from_prefix. reflexivity.
Qed.

(** ** Stored statistics *)
Lemma land_two63 x : 0 <= x < two64 -> Z.land x two63 = if x <? two63 then 0 else two63.
Proof.
  unfold two64. intros Hx. change two63 with (Z.shiftl 1 63).
  destruct (Z.ltb_spec x (Z.shiftl 1 63)) as [H|H]; change (Z.shiftl 1 63) with two63 in H |- *; unfold two63 in H.
  - change two63 with (Z.shiftl 1 63). apply land_shiftl_0; [lia|]. change (2 ^ 63) with 9223372036854775808. lia.
  - replace x with (Z.lor (x - two63) (Z.shiftl 1 63)).
    + rewrite Z.land_lor_distr_l.
      change two63 with (Z.shiftl 1 63) at 2. rewrite land_shiftl_0; [reflexivity|lia|].
      change (2 ^ 63) with 9223372036854775808. unfold two63. lia.
    + rewrite lor_shiftl_add; [unfold two63; lia|lia|]. change (2 ^ 63) with 9223372036854775808. unfold two63. lia.
Qed.

Lemma int64ToUint64_val v : is_i64 v ->
  int64ToUint64 v = if v >=? 0 then v else if v =? - two63 then two63 else two63 - v.
Proof.
  unfold is_i64. intros Hv. unfold int64ToUint64. destruct (Z.geb_spec v 0) as [H|H].
  - apply u64_id. unfold is_u64, two63, two64 in *. lia.
  - replace (Z.lnot v + 1) with (- v) by (unfold Z.lnot; lia).
    destruct (Z.eqb_spec v (- two63)) as [->|Hne].
    + reflexivity.
    + rewrite i64_id by (unfold is_i64, two63 in *; lia).
      rewrite u64_id by (unfold is_u64, two63, two64 in *; lia).
      change two63 with (Z.shiftl 1 63) at 1. rewrite lor_shiftl_add; [unfold two63; lia|lia|].
      change (2 ^ 63) with 9223372036854775808. unfold two63 in *. lia.
Qed.
Lemma int64ToUint64_range v : is_i64 v -> is_u64 (int64ToUint64 v).
Proof.
  intros Hv. rewrite int64ToUint64_val by assumption. unfold is_i64, is_u64 in *.
  destruct (Z.geb_spec v 0); [|destruct (Z.eqb_spec v (- two63))]; unfold two63, two64 in *; lia.
Qed.
Lemma uint64ToInt64_val x : is_u64 x ->
  uint64ToInt64 x = if x <? two63 then x else two63 - x.
Proof.
  unfold is_u64. intros Hx. unfold uint64ToInt64. rewrite land_two63 by assumption.
  destruct (Z.ltb_spec x two63) as [H|H].
  - rewrite Z.eqb_refl. apply i64_id. unfold is_i64, two63 in *. lia.
  - change (two63 =? 0) with false. cbv iota.
    replace (Z.ldiff x two63) with (x - two63).
    + rewrite (i64_id (x - two63)) by (unfold is_i64, two63, two64 in *; lia).
      replace (Z.lnot (x - two63) + 1) with (two63 - x) by (unfold Z.lnot; lia).
      apply i64_id. unfold is_i64, two63, two64 in *. lia.
    + pose proof (Z.lor_ldiff_and x two63) as Hl.
      rewrite land_two63 in Hl by assumption. destruct (Z.ltb_spec x two63); [lia|].
      assert (Hd : Z.land (Z.ldiff x two63) two63 = 0).
      { apply Z.bits_inj'. intros n Hn. rewrite Z.land_spec, Z.ldiff_spec, Z.bits_0.
        destruct (Z.testbit x n), (Z.testbit two63 n); reflexivity. }
      pose proof (add_lor _ _ Hd) as Ha. lia.
Qed.
Lemma uint64ToInt64_range x : is_i64 (uint64ToInt64 x).
Proof. unfold uint64ToInt64. destruct (Z.land x two63 =? 0); apply i64_range. Qed.

(** The exact round trip, for every value. *)
Theorem stat_round_trip v : is_i64 v ->
  uint64ToInt64 (int64ToUint64 v) = if v =? min_int64 then 0 else v.
Proof.
  intros Hv. rewrite uint64ToInt64_val by (apply int64ToUint64_range; assumption).
  rewrite int64ToUint64_val by assumption. unfold is_i64 in *.
  destruct (Z.eqb_spec v min_int64) as [->|Hne]; [reflexivity|].
  destruct (Z.geb_spec v 0); [|destruct (Z.eqb_spec v (- two63))];
  match goal with |- context [if ?a <? ?b then _ else _] => destruct (Z.ltb_spec a b) end;
  unfold two63, min_int64 in *; lia.
Qed.

(** ** The property statements *)
Lemma varint_round_trip v rest : is_u64 v ->
  decodeVarInt (encodeVarInt v ++ rest) = (v, zlen (encodeVarInt v))
  /\ Forall is_byte (encodeVarInt v)
  /\ 1 <= zlen (encodeVarInt v) <= 10
  /\ v < 2 ^ (7 * zlen (encodeVarInt v))
  /\ (forall k, 1 <= k -> v < 2 ^ (7 * k) -> zlen (encodeVarInt v) <= k).
Proof.
  intros H. destruct (encodeVarInt_len v H) as (L1 & L2 & L3).
  split; [apply decodeVarInt_encode; exact H|]. split; [apply encodeVarInt_bytes; exact H|].
  split; [exact L1|]. split; [exact L2|]. intros k Hk Hv.
  destruct L3 as [L3|L3]; [lia|].
  destruct (Z_le_gt_dec (zlen (encodeVarInt v)) k) as [?|Hgt]; [assumption|].
  exfalso. assert (2 ^ (7 * k) <= 2 ^ (7 * (zlen (encodeVarInt v) - 1))) by (apply Z.pow_le_mono_r; lia). lia.
Qed.

Lemma varint_prefix_code v w r1 r2 : is_u64 v -> is_u64 w ->
  encodeVarInt v ++ r1 = encodeVarInt w ++ r2 -> v = w /\ r1 = r2.
Proof.
  intros Hv Hw E. pose proof (decodeVarInt_encode v r1 Hv) as D1. pose proof (decodeVarInt_encode w r2 Hw) as D2.
  rewrite E, D2 in D1. injection D1 as <- _. split; [reflexivity|]. apply app_inv_head in E. exact E.
Qed.

Lemma signed_varint_round_trip v rest : is_i64 v ->
  decodeSignedVarInt (encodeSignedVarInt v ++ rest) = (v, zlen (encodeSignedVarInt v))
  /\ Forall is_byte (encodeSignedVarInt v)
  /\ 1 <= zlen (encodeSignedVarInt v) <= 10.
Proof.
  intros H. split; [apply decodeSignedVarInt_encode; exact H|].
  pose proof (zigzag_range v H) as Hz. unfold encodeSignedVarInt.
  split; [apply encodeVarInt_bytes; exact Hz|]. apply encodeVarInt_len. exact Hz.
Qed.

Lemma uvarint_agrees v rest : is_u64 v ->
  uvarint (encodeVarInt v ++ rest) = (v, zlen (encodeVarInt v))
  /\ uvarint (encodeVarInt v ++ rest) = decodeVarInt (encodeVarInt v ++ rest).
Proof. intros H. rewrite decodeVarInt_encode by exact H. split; apply uvarint_encode; exact H. Qed.

Lemma decoding_total data :
  (is_u64 (fst (decodeVarInt data)) /\ 0 <= snd (decodeVarInt data) <= Z.min 10 (zlen data)
   /\ (data <> [] -> 1 <= snd (decodeVarInt data)))
  /\ (is_i64 (fst (decodeSignedVarInt data)) /\ 0 <= snd (decodeSignedVarInt data) <= Z.min 10 (zlen data)
   /\ (data <> [] -> 1 <= snd (decodeSignedVarInt data))).
Proof.
  pose proof (decodeVarInt_total data). pose proof (decodeSignedVarInt_total data).
  destruct (decodeVarInt data), (decodeSignedVarInt data). auto.
Qed.

Lemma delta_round_trip :
  (forall l, Forall is_u64 l -> deltaDecode (deltaEncode l) = l /\ length (deltaEncode l) = length l)
  /\ (forall l, Forall is_i64 l -> deltaDecodeInt64 (deltaEncodeInt64 l) = l
                                   /\ length (deltaEncodeInt64 l) = length l).
Proof.
  split; intros l H.
  - split; [apply deltaDecode_encode; exact H|apply delta_encode_length].
  - split; [apply deltaDecodeInt64_encode; exact H|apply delta_encode_length].
Qed.

Lemma stat_conversion v : is_i64 v ->
  is_u64 (int64ToUint64 v)
  /\ (uint64ToInt64 (int64ToUint64 v) = v <-> v <> min_int64)
  /\ uint64ToInt64 (int64ToUint64 min_int64) = 0.
Proof.
  intros H. split; [apply int64ToUint64_range; exact H|]. split; [|reflexivity].
  rewrite stat_round_trip by exact H. destruct (Z.eqb_spec v min_int64) as [->|Hn]; [|tauto].
  split; [discriminate|]. intros N. contradiction N. reflexivity.
Qed.
Lemma stat_conversion_loses_min : exists v, is_i64 v /\ uint64ToInt64 (int64ToUint64 v) <> v.
Proof. exists min_int64. split; [unfold is_i64, min_int64, two63; lia|discriminate]. Qed.
