(** The model's double arithmetic (Coq.Floats.SpecFloat, computable) rounds to nearest
    even: the lemmas of Flocq's verified binary64 transferred to it. *)
From Coq Require Import ZArith Reals Lra Lia Floats.SpecFloat.
From Flocq Require Import Core.Core IEEE754.BinarySingleNaN.
From Verif Require Import Machine Aggregate FloatSpec.
Local Open Scope R_scope.

Local Instance Hprec : Prec_gt_0 53. Proof. unfold Prec_gt_0. lia. Qed.
Local Instance Hmax : Prec_lt_emax 53 1024. Proof. unfold Prec_lt_emax. lia. Qed.

Notation RN := (round radix2 (FLT_exp (-1074) 53) ZnearestE).
Notation fexp := (FLT_exp (3 - 1024 - 53) 53).

Lemma aux_equiv sx mx ex lx :
  SpecFloat.binary_round_aux 53 1024 sx mx ex lx = BinarySingleNaN.binary_round_aux 53 1024 mode_NE sx mx ex lx.
Proof.
  unfold SpecFloat.binary_round_aux, BinarySingleNaN.binary_round_aux.
  set (mrse' := shr_fexp _ _ _). case mrse'; intros mrs' e'; simpl.
  assert (H : forall m l, round_nearest_even m l = choice_mode mode_NE sx m l).
  { intros m l. case l; [reflexivity|intro c]. case c; [|reflexivity..]. simpl. unfold Round.cond_incr. now case Z.even. }
  now rewrite H.
Qed.
Lemma normalize_equiv m :
  f64_of_Z m = B2SF (BinarySingleNaN.binary_normalize 53 1024 Hprec Hmax mode_NE m 0 false).
Proof.
  assert (H : forall s p e, SpecFloat.binary_round 53 1024 s p e = BinarySingleNaN.binary_round 53 1024 mode_NE s p e).
  { intros s p e. unfold SpecFloat.binary_round, BinarySingleNaN.binary_round, shl_align_fexp.
    set (mez := shl_align _ _ _); case mez as [mz ez]. apply aux_equiv. }
  unfold f64_of_Z. case m as [|p|p]; [reflexivity| |]; simpl; rewrite B2SF_SF2B; apply H.
Qed.
Lemma div_equiv (x y : binary_float 53 1024) : f64_div (B2SF x) (B2SF y) = B2SF (Bdiv mode_NE x y).
Proof.
  unfold f64_div.
  case x as [sx|sx| |sx mx ex Bx]; case y as [sy|sy| |sy my ey By]; [now (trivial || simpl; case Bool.eqb).. | ].
  simpl. rewrite B2SF_SF2B. set (melz := SFdiv_core_binary _ _ _ _ _ _). case melz as [[mz ez] lz]. apply aux_equiv.
Qed.

Local Instance Vfexp : Valid_exp (FLT_exp (-1074) 53) := FLT_exp_valid (-1074) 53.

(** Rounding stays below a power of two that the argument does not exceed. *)
Lemma RN_bounded x e : (-1074 <= e)%Z -> Rabs x <= bpow radix2 e -> Rabs (RN x) <= bpow radix2 e.
Proof.
  intros He H. apply abs_round_le_generic; try auto with typeclass_instances.
  apply generic_format_bpow. unfold FLT_exp. lia.
Qed.
Lemma small x : Rabs x <= bpow radix2 63 -> Rlt_bool (Rabs (RN x)) (bpow radix2 1024) = true.
Proof.
  intros H. apply Rlt_bool_true. eapply Rle_lt_trans; [apply (RN_bounded x 63); [lia|exact H]|]. apply bpow_lt. lia.
Qed.
Lemma IZR_bounded z e : (0 <= e)%Z -> (Z.abs z <= 2 ^ e)%Z -> Rabs (IZR z) <= bpow radix2 e.
Proof. intros He H. rewrite <- abs_IZR, <- IZR_Zpower by exact He. apply IZR_le. exact H. Qed.

Lemma convert z : (Z.abs z <= 2 ^ 63)%Z ->
  exists f : binary_float 53 1024, f64_of_Z z = B2SF f /\ B2R f = RN (IZR z) /\ is_finite f = true.
Proof.
  intros H. exists (BinarySingleNaN.binary_normalize 53 1024 Hprec Hmax mode_NE z 0 false). split; [apply normalize_equiv|].
  pose proof (binary_normalize_correct 53 1024 Hprec Hmax mode_NE z 0 false) as C. cbv zeta in C.
  replace (F2R (Float radix2 z 0)) with (IZR z) in C by (unfold F2R; cbn; ring).
  change (round_mode mode_NE) with ZnearestE in C. change (SpecFloat.fexp 53 1024) with (FLT_exp (-1074) 53) in C.
  rewrite small in C by (apply IZR_bounded; [lia|exact H]). tauto.
Qed.

Lemma RN_ge_1 z : (1 <= z)%Z -> 1 <= RN (IZR z).
Proof.
  intros H. change 1 with (bpow radix2 0) at 1. apply round_ge_generic; try auto with typeclass_instances.
  - apply generic_format_bpow. unfold FLT_exp. lia.
  - cbn. apply IZR_le. exact H.
Qed.

Lemma average_value sum count : (Z.abs sum <= 2 ^ 63)%Z -> (0 < count <= 2 ^ 63)%Z ->
  SF2R radix2 (average sum count) = RN (RN (IZR sum) / RN (IZR count)) /\ is_finite_SF (average sum count) = true.
Proof.
  intros Hs Hc. unfold average. destruct (count >? 0)%Z eqn:E; [|lia].
  destruct (convert sum Hs) as (x & -> & Rx & Fx). destruct (convert count ltac:(lia)) as (y & -> & Ry & Fy).
  rewrite div_equiv. pose proof (RN_ge_1 count ltac:(lia)) as H1.
  assert (Hy : B2R y <> 0) by (rewrite Ry; lra).
  pose proof (Bdiv_correct 53 1024 Hprec Hmax mode_NE x y Hy) as C.
  change (round_mode mode_NE) with ZnearestE in C. change (SpecFloat.fexp 53 1024) with (FLT_exp (-1074) 53) in C.
  rewrite small in C.
  - rewrite SF2R_B2SF, is_finite_SF_B2SF. destruct C as (C1 & C2 & _). rewrite C1, C2, Rx, Ry. auto.
  - rewrite Rx, Ry. unfold Rdiv. rewrite Rabs_mult, <- (Rmult_1_r (bpow radix2 63)).
    apply Rmult_le_compat; try apply Rabs_pos.
    + apply RN_bounded; [lia|]. apply IZR_bounded; [lia|exact Hs].
    + rewrite Rabs_inv, Rabs_pos_eq by lra. rewrite <- Rinv_1. apply Rinv_le; lra.
Qed.

(** Integers up to 2^53 are doubles. *)
Lemma RN_exact z : (Z.abs z <= 2 ^ 53)%Z -> RN (IZR z) = IZR z.
Proof.
  intros H. apply round_generic; [auto with typeclass_instances|].
  destruct (Z.eq_dec (Z.abs z) (2 ^ 53)) as [E|N].
  - destruct (Z.abs_eq_cases z (2 ^ 53)) as [->| ->]; [rewrite E; reflexivity| |].
    + change (IZR (2 ^ 53)) with (bpow radix2 53). apply generic_format_bpow. unfold FLT_exp. lia.
    + rewrite opp_IZR. apply generic_format_opp. change (IZR (2 ^ 53)) with (bpow radix2 53). apply generic_format_bpow. unfold FLT_exp. lia.
  - apply generic_format_FLT. apply (FLT_spec _ _ _ _ (Float radix2 z 0)); cbn [Fnum Fexp]; [unfold F2R; cbn; ring|change (radix_val radix2 ^ 53)%Z with (2 ^ 53)%Z; lia|lia].
Qed.
Lemma average_exact sum count : (Z.abs sum <= 2 ^ 53)%Z -> (0 < count <= 2 ^ 53)%Z ->
  SF2R radix2 (average sum count) = RN (IZR sum / IZR count) /\ is_finite_SF (average sum count) = true.
Proof.
  intros Hs Hc. rewrite <- (RN_exact sum) at 1 by lia. rewrite <- (RN_exact count) at 1 by lia.
  destruct (average_value sum count) as [-> ->]; [lia|lia|]. rewrite !RN_exact by lia. auto.
Qed.

(** Nearest among the doubles. *)
Lemma RN_nearest x y : generic_format radix2 (FLT_exp (-1074) 53) y -> Rabs (RN x - x) <= Rabs (y - x).
Proof.
  intros H. destruct (round_N_pt radix2 (FLT_exp (-1074) 53) (fun n => negb (Z.even n)) x) as [_ N]. apply N. exact H.
Qed.

(** ** The specification of FloatSpec.v *)
Lemma value_SF2R d : value d = SF2R radix2 d.
Proof. destruct d as [s|s| |s m e]; [reflexivity..|]. cbn [value SF2R]. unfold F2R. cbn [Fnum Fexp]. rewrite bpow_powerRZ. destruct s; reflexivity. Qed.
Lemma finite_SF d : is_finite_SF d = true -> finite d.
Proof. destruct d; cbn; intros H; try discriminate; exact I. Qed.
Lemma format_of m e : binary64 m e -> generic_format radix2 (FLT_exp (-1074) 53) (IZR m * powerRZ 2 e).
Proof.
  intros [Hm He]. apply generic_format_FLT. apply (FLT_spec _ _ _ _ (Float radix2 m e)); cbn [Fnum Fexp]; [|exact Hm|exact He].
  unfold F2R. cbn [Fnum Fexp]. rewrite bpow_powerRZ. reflexivity.
Qed.
Lemma normal_of g : canonical radix2 (FLT_exp (-1074) 53) g -> normal (Fnum g) (Fexp g).
Proof.
  intros C. destruct (FLT_format_generic radix2 (-1074) 53 (F2R g) (generic_format_canonical _ _ _ C)) as [f Ef Hf He].
  destruct g as [m e]. unfold canonical, cexp in C. cbn [Fnum Fexp] in *.
  destruct (Z.eq_dec m 0) as [->|N].
  - unfold FLT_exp in C. repeat split; lia.
  - rewrite mag_F2R in C by exact N. unfold FLT_exp in C.
    pose proof (bpow_mag_gt radix2 (IZR m)) as G. pose proof (bpow_mag_le radix2 (IZR m) (IZR_neq _ _ N)) as L.
    rewrite <- abs_IZR in G, L.
    assert (M : (0 < mag radix2 (IZR m))%Z) by (apply mag_gt_bpow; cbn; rewrite <- abs_IZR; apply IZR_le; lia).
    rewrite <- IZR_Zpower in G, L by lia. apply lt_IZR in G. apply le_IZR in L. change (radix_val radix2) with 2%Z in G, L.
    assert (K : (mag radix2 (IZR m) <= 53)%Z) by lia.
    assert (P : (2 ^ mag radix2 (IZR m) <= 2 ^ 53)%Z) by (apply Z.pow_le_mono_r; lia).
    split; [split; lia|]. destruct (Z.eq_dec e (-1074)) as [E|E]; [auto|].
    left. replace (mag radix2 (IZR m) - 1)%Z with 52%Z in L by lia. exact L.
Qed.
Local Instance NEfexp : Exists_NE radix2 (FLT_exp (-1074) 53).
Proof. apply exists_NE_FLT. right. lia. Qed.
Lemma RN_spec q d : SF2R radix2 d = RN q -> is_finite_SF d = true -> valid_binary 53 1024 d = true -> nearest_double q d.
Proof.
  intros E F V. split; [exact V|]. split; [apply finite_SF, F|]. rewrite value_SF2R, E. split.
  - intros m e H. apply RN_nearest, format_of, H.
  - intros m e H N T. destruct (round_NE_pt radix2 (FLT_exp (-1074) 53) q) as [[Ff Fn] [P|U]].
    + destruct P as (g & Eg & Cg & Hg). exists (Fnum g), (Fexp g). split; [apply normal_of, Cg|]. split; [exact Hg|].
      rewrite Eg. unfold F2R. rewrite bpow_powerRZ. reflexivity.
    + exfalso. apply N. apply U. split; [apply format_of, H|]. intros y Hy. rewrite <- T. apply Fn. exact Hy.
Qed.

Lemma average_valid sum count : (Z.abs sum <= 2 ^ 63)%Z -> (0 < count <= 2 ^ 63)%Z -> valid_binary 53 1024 (average sum count) = true.
Proof.
  intros Hs Hc. unfold average. destruct (count >? 0)%Z eqn:E; [|lia].
  destruct (convert sum Hs) as (x & -> & _). destruct (convert count ltac:(lia)) as (y & -> & _). rewrite div_equiv. apply valid_binary_B2SF.
Qed.
Lemma average_nearest sum count : (Z.abs sum <= 2 ^ 53)%Z -> (0 < count <= 2 ^ 53)%Z ->
  nearest_double (IZR sum / IZR count) (average sum count).
Proof.
  intros Hs Hc. destruct (average_exact sum count Hs Hc) as [E F]. apply RN_spec; [exact E|exact F|].
  apply average_valid; lia.
Qed.
Lemma average_nearest_general sum count : (Z.abs sum <= 2 ^ 63)%Z -> (0 < count <= 2 ^ 63)%Z ->
  exists s c, nearest_to_integer sum s /\ nearest_to_integer count c /\ nearest_double (value s / value c) (average sum count).
Proof.
  intros Hs Hc. destruct (convert sum Hs) as (x & Ex & Rx & Fx). destruct (convert count ltac:(lia)) as (y & Ey & Ry & Fy).
  exists (f64_of_Z sum), (f64_of_Z count). rewrite !value_SF2R. split; [|split].
  - rewrite Ex. apply RN_spec; [now rewrite SF2R_B2SF|now rewrite is_finite_SF_B2SF|apply valid_binary_B2SF].
  - rewrite Ey. apply RN_spec; [now rewrite SF2R_B2SF|now rewrite is_finite_SF_B2SF|apply valid_binary_B2SF].
  - destruct (average_value sum count Hs Hc) as [E F]. apply RN_spec; [|exact F|apply average_valid; assumption].
    rewrite E, Ex, Ey, !SF2R_B2SF, Rx, Ry. reflexivity.
Qed.
