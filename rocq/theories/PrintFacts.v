(** The %.2f format rounds to the nearest hundredth. *)
From Coq Require Import ZArith Reals Lra Lia Floats.SpecFloat.
From Flocq Require Import Core.Core IEEE754.BinarySingleNaN Relative.
From Verif Require Import Machine MachineFacts Encoding Sroar FileIO Writer Reader Aggregate Parallel Spec Cli CliSpec CliFacts Debug DebugSpec FloatSpec FloatFacts AvgFacts.
Ltac Zify.zify_post_hook ::= Z.div_mod_to_equations.
Local Open Scope Z_scope.

Lemma round_even_spec a b : 0 <= a -> 0 < b -> let q := roundHalfEven a b in
  0 <= q /\ 2 * Z.abs (a - q * b) <= b /\ (2 * Z.abs (a - q * b) = b -> Z.even q = true).
Proof.
  intros Ha Hb. unfold roundHalfEven. pose proof (Z.mod_pos_bound a b Hb) as B. pose proof (Z.div_mod a b ltac:(lia)) as D.
  assert (Q : 0 <= a / b) by (apply Z.div_pos; lia). set (q := a / b) in *. set (m := a mod b) in *. clearbody q m. subst a.
  cbv zeta. destruct (Z.ltb_spec (2 * m) b); [|destruct (Z.gtb_spec (2 * m) b); [|destruct (Z.even q) eqn:E]].
  - replace (b * q + m - q * b) with m by ring. split; [lia|]. split; lia.
  - replace (b * q + m - (q + 1) * b) with (m - b) by ring. split; [lia|]. split; lia.
  - replace (b * q + m - q * b) with m by ring. split; [lia|]. split; [lia|]. intros _. exact E.
  - replace (b * q + m - (q + 1) * b) with (m - b) by ring. split; [lia|]. split; [lia|]. intros _. rewrite Z.even_add, E. reflexivity.
Qed.

Lemma places2_spec neg h : 0 <= h -> h / 100 < 10 ^ 400 -> two_places (places2 neg h) neg h.
Proof.
  intros Hh Hb. split; [exact Hh|]. unfold places2.
  destruct (fold_digits 400 (h / 100) []) as (d & E & N & V & H48); [change (Z.of_nat 400) with 400; split; [apply Z.div_pos; lia|exact Hb]|lia|].
  rewrite E, app_nil_r. exists d, (48 + h mod 100 / 10), (48 + h mod 10). split; [reflexivity|]. clear E Hb.
  split; [left; split; [apply Z.div_pos; lia|]; split; [exact N|]; split; [exact V|exact H48]|].
  unfold is_digit. split; [lia|]. split; [lia|]. unfold number. cbn [fold_left]. lia.
Qed.

Lemma finite_bound m e : bounded 53 1024 m e = true -> 0 <= e -> Z.pos m * 2 ^ e < 2 ^ 1024.
Proof.
  intros H He. unfold bounded in H. apply andb_prop in H. destruct H as [H1 H2]. apply Z.leb_le in H2. change (1024 - 53) with 971 in H2.
  unfold canonical_mantissa in H1. apply Zeq_bool_eq in H1. unfold SpecFloat.fexp, SpecFloat.emin in H1. 
  assert (D : Z.pos (digits2_pos m) <= 53) by lia.
  assert (M : Z.pos m < 2 ^ 53).
  { pose proof (Digits.Zdigits_correct radix2 (Z.pos m)) as [_ U]. rewrite Z.abs_eq in U by lia.
    rewrite <- Digits.Zpos_digits2_pos in U. eapply Z.lt_le_trans; [exact U|]. change (radix_val radix2) with 2. apply Z.pow_le_mono_r; lia. }
  assert (P : 2 ^ e <= 2 ^ 971) by (apply Z.pow_le_mono_r; lia). assert (0 < 2 ^ e) by (apply Z.pow_pos_nonneg; lia).
  change (2 ^ 1024) with (2 ^ 53 * 2 ^ 971). nia.
Qed.
Lemma pow_pos e : 0 <= e -> powerRZ 2 e = IZR (2 ^ e).
Proof. intros He. change (powerRZ 2 e) with (powerRZ (IZR radix2) e). rewrite <- (bpow_powerRZ radix2 e). symmetry. apply (IZR_Zpower radix2). exact He. Qed.
Lemma pow_neg e : e < 0 -> powerRZ 2 e = (/ IZR (2 ^ (- e)))%R.
Proof.
  intros He. change (powerRZ 2 e) with (powerRZ (IZR radix2) e). rewrite <- (bpow_powerRZ radix2 e). replace e with (- (- e)) at 1 by lia. rewrite bpow_opp. f_equal. symmetry. apply (IZR_Zpower radix2). lia.
Qed.

Definition negative (x : spec_float) : bool := match x with S754_finite s _ _ => s | S754_zero s => s | _ => false end.
Local Open Scope R_scope.
Theorem format2f_nearest x : valid_binary 53 1024 x = true -> finite x ->
  exists h, two_places (format2f x) (negative x) h /\ Rabs (100 * Rabs (value x) - IZR h) <= / 2
    /\ (Rabs (100 * Rabs (value x) - IZR h) = / 2 -> Z.even h = true).
Proof.
  destruct x as [s|s| |s m e]; intros HV HF; try contradiction.
  - exists 0%Z. split; [apply places2_spec; [lia|reflexivity]|]. cbn [value]. rewrite Rabs_R0, Rmult_0_r, Rminus_0_r, Rabs_R0. split; [lra|]. intros H. lra.
  - cbn [valid_binary] in HV. cbn [format2f negative]. exists (hundredths m e).
    assert (A : Rabs (value (S754_finite s m e)) = IZR (Z.pos m) * powerRZ 2 e).
    { cbn [value]. rewrite Rabs_mult, (Rabs_pos_eq (powerRZ 2 e)) by (apply powerRZ_le; lra). f_equal. rewrite <- abs_IZR. destruct s; reflexivity. }
    rewrite A. clear A. unfold hundredths. destruct (Z.leb_spec 0 e) as [He|He].
    + assert (P : (0 < 2 ^ e)%Z) by (apply Z.pow_pos_nonneg; lia). pose proof (finite_bound m e HV He) as FB. split.
      * apply places2_spec; [nia|]. replace (100 * Z.pos m * 2 ^ e)%Z with (Z.pos m * 2 ^ e * 100)%Z by ring. rewrite Z.div_mul by lia.
        eapply Z.lt_trans; [exact FB|]. vm_compute. reflexivity.
      * rewrite pow_pos by exact He. rewrite !mult_IZR. replace (100 * (IZR (Z.pos m) * IZR (2 ^ e)) - 100 * IZR (Z.pos m) * IZR (2 ^ e)) with 0 by ring.
        rewrite Rabs_R0. split; [lra|]. intros H. lra.
    + assert (P : (0 < 2 ^ (- e))%Z) by (apply Z.pow_pos_nonneg; lia). set (d := (2 ^ (- e))%Z) in *.
      destruct (round_even_spec (100 * Z.pos m) d ltac:(lia) P) as (R1 & R2 & R3). cbv zeta in *. set (q := roundHalfEven (100 * Z.pos m) d) in *.
      assert (D : 0 < IZR d) by (apply IZR_lt; exact P). rewrite pow_neg by exact He. fold d.
      assert (K : Rabs (100 * (IZR (Z.pos m) * / IZR d) - IZR q) = IZR (Z.abs (100 * Z.pos m - q * d)) / IZR d).
      { rewrite abs_IZR, minus_IZR, !mult_IZR. rewrite <- (Rabs_pos_eq (IZR d)) at 3 by lra. unfold Rdiv. rewrite <- Rabs_inv, <- Rabs_mult. f_equal. field. lra. }
      split.
      * apply places2_spec; [exact R1|]. assert (M : (Z.pos m < 2 ^ 53)%Z).
        { unfold bounded in HV. apply andb_prop in HV. destruct HV as [H1 _]. unfold canonical_mantissa in H1. apply Zeq_bool_eq in H1.
          unfold SpecFloat.fexp, SpecFloat.emin in H1. assert (Dg : (Z.pos (digits2_pos m) <= 53)%Z) by lia.
          pose proof (Digits.Zdigits_correct radix2 (Z.pos m)) as [_ U]. rewrite Z.abs_eq in U by lia.
          rewrite <- Digits.Zpos_digits2_pos in U. eapply Z.lt_le_trans; [exact U|]. change (radix_val radix2) with 2%Z. apply Z.pow_le_mono_r; lia. }
        assert (Q : (q <= 200 * Z.pos m)%Z) by nia. eapply Z.le_lt_trans; [apply Z.div_le_mono; [lia|exact Q]|].
        eapply Z.le_lt_trans with (2 ^ 55)%Z; [|vm_compute; reflexivity]. change (2 ^ 55)%Z with (4 * 2 ^ 53)%Z. lia.
      * rewrite K. split.
        -- apply (Rmult_le_reg_r (IZR d)); [exact D|]. unfold Rdiv. rewrite Rmult_assoc, Rinv_l, Rmult_1_r by lra.
           apply IZR_le in R2. rewrite mult_IZR in R2. lra.
        -- intros T. apply R3. apply eq_IZR. rewrite mult_IZR. apply (Rmult_eq_compat_r (IZR d)) in T. unfold Rdiv in T. rewrite Rmult_assoc, Rinv_l, Rmult_1_r in T by lra. lra.
Qed.

(** The error of the average itself. *)
Lemma average_error sum count : (Z.abs sum <= 2 ^ 53)%Z -> (0 < count <= 2 ^ 53)%Z -> 
  Rabs (value (average sum count) - IZR sum / IZR count) <= Rabs (IZR sum / IZR count) * / 2 ^ 53.
Proof.
  intros Hs Hc. destruct (average_exact sum count Hs Hc) as [E _]. rewrite value_SF2R, E.
  destruct (Z.eq_dec sum 0) as [->|N].
  - unfold Rdiv. rewrite Rmult_0_l, round_0, Rminus_0_r, Rabs_R0 by (auto with typeclass_instances). lra.
  - assert (B : bpow radix2 (-1074 + 53 - 1) <= Rabs (IZR sum / IZR count)).
    { apply Rle_trans with (bpow radix2 (-53)); [apply bpow_le; lia|]. change (bpow radix2 (-53)) with (/ IZR (2 ^ 53)).
      assert (C : 0 < IZR count) by (apply IZR_lt; lia). unfold Rdiv. rewrite Rabs_mult, (Rabs_pos_eq (/ IZR count)) by (apply Rlt_le, Rinv_0_lt_compat, C).
      apply Rle_trans with (1 * / IZR count).
      - rewrite Rmult_1_l. apply Rinv_le; [exact C|apply IZR_le; lia].
      - apply Rmult_le_compat_r; [apply Rlt_le, Rinv_0_lt_compat, C|]. rewrite <- abs_IZR. apply IZR_le. lia. }
    pose proof (relative_error_N_FLT radix2 (-1074) 53 ltac:(lia) (fun n => negb (Z.even n)) _ B) as R.
    assert (K : / 2 * bpow radix2 (- (53) + 1) = / 2 ^ 53).
    { change (bpow radix2 (- (53) + 1)) with (/ IZR (Z.pow_pos 2 52)). rewrite <- Rinv_mult. f_equal. change (Z.pow_pos 2 52) with (2 ^ 52)%Z. cbn [pow]. 
      change (2 ^ 52)%Z with 4503599627370496%Z. lra. }
    rewrite K in R. rewrite Rmult_comm. exact R.
Qed.
Lemma value_sign (s : bool) m e : 0 < (if s then -1 else 1) * value (S754_finite s m e).
Proof.
  cbn [value]. assert (P : 0 < powerRZ 2 e) by (apply powerRZ_lt; lra). assert (Q : 0 < IZR (Z.pos m)) by (apply IZR_lt; reflexivity).
  destruct s; [change (Z.neg m) with (- Z.pos m)%Z; rewrite opp_IZR|]; nra.
Qed.
Lemma average_sign sum count : (Z.abs sum <= 2 ^ 53)%Z -> (0 < count <= 2 ^ 53)%Z -> negative (average sum count) = (sum <? 0)%Z.
Proof.
  intros Hs Hc. pose proof (average_error sum count Hs Hc) as R. pose proof (average_nearest sum count Hs Hc) as (_ & F & _).
  assert (C : 0 < IZR count) by (apply IZR_lt; lia).
  destruct (Z.eq_dec sum 0) as [->|N].
  - unfold average. destruct (count >? 0)%Z eqn:E; [|lia]. change (f64_of_Z 0) with (S754_zero false).
    destruct (convert count ltac:(lia)) as (f & Ef & Rf & _). rewrite Ef. pose proof (RN_ge_1 count ltac:(lia)) as G. rewrite <- Rf, <- SF2R_B2SF, <- value_SF2R in G.
    destruct (B2SF f) as [s|s| |s m e]; cbn [value] in G; try lra. destruct s; [|reflexivity].
    exfalso. pose proof (value_sign true m e) as V. cbn [value] in V. lra.
  - set (q := IZR sum / IZR count) in *.
    assert (Hq : 0 < (if (sum <? 0)%Z then -1 else 1) * q).
    { unfold q, Rdiv. rewrite <- Rmult_assoc. apply Rmult_lt_0_compat; [|apply Rinv_0_lt_compat; exact C].
      destruct (Z.ltb_spec sum 0); [apply IZR_lt in H; lra|]. assert (HH : (0 < sum)%Z) by lia. apply IZR_lt in HH. lra. }
    assert (S53 : 0 < / 2 ^ 53 < 1) by (cbn [pow]; lra).
    assert (T : 0 < (if (sum <? 0)%Z then -1 else 1) * value (average sum count)).
    { clearbody q. set (v := value _) in *. clearbody v. destruct (sum <? 0)%Z.
      - assert (Rabs q = - q) by (apply Rabs_left; lra). rewrite H in R. assert (v - q <= - q * / 2 ^ 53) by (eapply Rle_trans; [apply Rle_abs|exact R]). nra.
      - assert (Rabs q = q) by (apply Rabs_pos_eq; lra). rewrite H in R. rewrite Rabs_minus_sym in R. assert (q - v <= q * / 2 ^ 53) by (eapply Rle_trans; [apply Rle_abs|exact R]). nra. }
    destruct (average sum count) as [s|s| |s m e]; try contradiction; [exfalso; cbn [value] in T; rewrite Rmult_0_r in T; lra|].
    cbn [negative]. pose proof (value_sign s m e) as V. destruct s, (sum <? 0)%Z; try reflexivity; exfalso; lra.
Qed.

Theorem printed_average sum count : (Z.abs sum <= 2 ^ 53)%Z -> (0 < count <= 2 ^ 53)%Z ->
  exists h, two_places (format2f (average sum count)) (sum <? 0)%Z h
    /\ Rabs (IZR h / 100 - Rabs (IZR sum / IZR count)) <= / 200 + Rabs (IZR sum / IZR count) * / 2 ^ 53.
Proof.
  intros Hs Hc. destruct (format2f_nearest (average sum count)) as (h & T & N & _).
  - apply average_valid; lia.
  - apply (average_nearest sum count Hs Hc).
  - rewrite average_sign in T by assumption. exists h. split; [exact T|].
    pose proof (average_error sum count Hs Hc) as R. set (q := IZR sum / IZR count) in *. set (v := value _) in *.
    pose proof (Rabs_triang_inv2 v q) as I. apply Rle_trans with (Rabs (IZR h / 100 - Rabs v) + Rabs (Rabs v - Rabs q)).
    + replace (IZR h / 100 - Rabs q) with ((IZR h / 100 - Rabs v) + (Rabs v - Rabs q)) by ring. apply Rabs_triang.
    + apply Rplus_le_compat; [|eapply Rle_trans; [exact I|exact R]].
      rewrite Rabs_minus_sym in N. replace (IZR h / 100 - Rabs v) with ((IZR h - 100 * Rabs v) * / 100) by field.
      rewrite Rabs_mult, (Rabs_pos_eq (/ 100)) by lra. lra.
Qed.

(** A whole average is printed exactly. *)
Theorem printed_whole k count : (Z.abs (k * count) <= 2 ^ 53)%Z -> (0 < count <= 2 ^ 53)%Z ->
  two_places (format2f (average (k * count) count)) (k <? 0)%Z (100 * Z.abs k).
Proof.
  intros Hs Hc. destruct (format2f_nearest (average (k * count) count)) as (h & T & N & _).
  - apply average_valid; lia.
  - apply (average_nearest _ count Hs Hc).
  - rewrite average_sign in T by assumption. replace (k * count <? 0)%Z with (k <? 0)%Z in T by (destruct (Z.ltb_spec k 0), (Z.ltb_spec (k * count) 0); nia).
    destruct (average_exact _ count Hs Hc) as [E _].
    assert (Q : IZR (k * count) / IZR count = IZR k) by (rewrite mult_IZR; field; apply IZR_neq; lia). rewrite Q, RN_exact in E by nia.
    rewrite value_SF2R, E in N. rewrite <- abs_IZR, <- mult_IZR, <- minus_IZR, <- abs_IZR in N.
    assert (H : (h = 100 * Z.abs k)%Z).
    { assert (L : IZR (Z.abs (100 * Z.abs k - h)) < 1) by lra. apply lt_IZR in L. lia. }
    subst h. exact T.
Qed.
