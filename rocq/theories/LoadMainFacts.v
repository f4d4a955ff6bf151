(** Command lines of loadtest and read_example (C70). *)
From Coq Require Import Ascii String Lia.
From Verif Require Import Machine MachineFacts Cli CliMain CliMainSpec CliMainFacts LoadMain LoadMainSpec.
Local Open Scope Z_scope.
Local Open Scope list_scope.
Ltac Zify.zify_post_hook ::= Z.div_mod_to_equations.

(** ** Digits *)
Lemma lower_cases c : lower c = c \/ lower c = c + 32.
Proof.
  unfold lower. assert (B5 : forall i, Z.testbit 32 i = (i =? 5)).
  { intros i. destruct (Z.eqb_spec i 5) as [->|N]; [reflexivity|]. change 32 with (2 ^ 5). apply Z.pow2_bits_false. lia. }
  destruct (Z.testbit c 5) eqn:B; [left|right].
  - apply Z.bits_inj'. intros i Hi. rewrite Z.lor_spec, B5. destruct (Z.eqb_spec i 5) as [->|N]; [rewrite B; reflexivity|apply orb_false_r].
  - assert (L : Z.land c 32 = 0).
    { apply Z.bits_inj'. intros i Hi. rewrite Z.land_spec, B5, Z.bits_0. destruct (Z.eqb_spec i 5) as [->|N]; [rewrite B; reflexivity|apply andb_false_r]. }
    rewrite Z.add_nocarry_lxor by exact L. apply Z.bits_inj'. intros i Hi. rewrite Z.lor_spec, Z.lxor_spec, B5.
    destruct (Z.eqb_spec i 5) as [->|N]; [rewrite B; reflexivity|]. rewrite orb_false_r, xorb_false_r. reflexivity.
Qed.
Lemma small_check (P : Z -> bool) m : forallb P (map Z.of_nat (seq 0 m)) = true -> forall c, 0 <= c < Z.of_nat m -> P c = true.
Proof. intros H c Hc. rewrite forallb_forall in H. apply H. apply in_map_iff. exists (Z.to_nat c). split; [lia|]. apply in_seq. lia. Qed.
Lemma lower_small c : 97 <= c <= 122 -> lower c = c /\ lower (c - 32) = c.
Proof.
  intros H. pose proof (small_check (fun c => if (97 <=? c) && (c <=? 122) then (lower c =? c) && (lower (c - 32) =? c) else true) 123 eq_refl c ltac:(lia)) as K. cbv beta in K.
  replace ((97 <=? c) && (c <=? 122)) with true in K by lia. lia.
Qed.
Lemma digitOf_spec base c d : 2 <= base <= 36 -> digitOf base c = Some d <-> a_digit base c d.
Proof.
  intros HB. unfold digitOf, a_digit. destruct ((48 <=? c) && (c <=? 57)) eqn:E.
  - destruct (Z.geb_spec (c - 48) base).
    + split; [discriminate|]. intros [H1 [[H2 H3]|[H2 H3]]]; lia.
    + split; [intros [= <-]; split; [lia|left; lia]|]. intros [H1 [[H2 H3]|[H2 H3]]]; f_equal; lia.
  - destruct ((97 <=? lower c) && (lower c <=? 122)) eqn:L.
    + pose proof (lower_cases c) as LC.
      destruct (Z.geb_spec (lower c - 97 + 10) base).
      * split; [discriminate|]. intros [H1 [[H2 H3]|[H2 [H3|H3]]]]; [lia| |]; exfalso.
        -- destruct (lower_small c ltac:(lia)) as [K _]. lia.
        -- destruct (lower_small (c + 32) ltac:(lia)) as [_ K]. replace (c + 32 - 32) with c in K by lia. lia.
      * split.
        -- intros [= <-]. split; [lia|]. right. split; [lia|]. lia.
        -- intros [H1 [[H2 H3]|[H2 [H3|H3]]]]; [lia| |]; f_equal.
           ++ destruct (lower_small c ltac:(lia)) as [K _]. lia.
           ++ destruct (lower_small (c + 32) ltac:(lia)) as [_ K]. replace (c + 32 - 32) with c in K by lia. lia.
    + split; [discriminate|]. intros [H1 [[H2 H3]|[H2 [H3|H3]]]]; exfalso; [lia| |].
      * destruct (lower_small c ltac:(lia)) as [K _]. lia.
      * destruct (lower_small (c + 32) ltac:(lia)) as [_ K]. replace (c + 32 - 32) with c in K by lia. lia.
Qed.
Lemma digit_not_underscore base c d : base <= 36 -> a_digit base c d -> c <> 95.
Proof. unfold a_digit. lia. Qed.

(** ** The loops *)
(** digits and underscores in any order *)
Inductive mixed (base : Z) : list Z -> list Z -> bool -> Prop :=
| mixed_nil : mixed base [] [] false
| mixed_digit c d s ds u : a_digit base c d -> mixed base s ds u -> mixed base (c :: s) (d :: ds) u
| mixed_under s ds u : mixed base s ds u -> mixed base (95 :: s) ds true.
Definition from (base n : Z) (ds : list Z) : Z := fold_left (fun n d => n * base + d) ds n.
Lemma from_ge base ds : 1 <= base -> Forall (fun d => 0 <= d) ds -> forall n, 0 <= n -> n <= from base n ds.
Proof.
  intros HB. induction 1 as [|d ds Hd _ IH]; intros n Hn; [cbn; lia|]. cbn [from fold_left]. change (n <= from base (n * base + d) ds).
  specialize (IH (n * base + d) ltac:(nia)). nia.
Qed.
Lemma mixed_nonneg base s ds u : mixed base s ds u -> Forall (fun d => 0 <= d) ds.
Proof. induction 1 as [|c d s ds u [H _] _ IH|]; try assumption; constructor; [lia|assumption]. Qed.

Lemma loop_mixed base : 2 <= base <= 36 -> forall s ds u n v, mixed base s ds u -> 0 <= n -> from base n ds < two64 -> uintLoop base s n v = Some (from base n ds, v || u).
Proof.
  intros HB s ds u n v H. revert n v. induction H as [|c d s ds u D M IH|s ds u M IH]; intros n v Hn HL; cbn [uintLoop].
  - rewrite orb_false_r. reflexivity.
  - pose proof (digit_not_underscore _ _ _ (proj2 HB) D) as N. destruct (Z.eqb_spec c 95); [contradiction|].
    pose proof (proj2 (digitOf_spec base c d HB) D) as E. rewrite E. cbn [from fold_left] in HL |- *. fold (from base (n * base + d) ds) in HL |- *.
    pose proof (from_ge base ds ltac:(lia) (mixed_nonneg _ _ _ _ M) (n * base + d)) as G. destruct D as [D _].
    assert (P : 0 <= n * base) by nia. specialize (G ltac:(lia)).
    assert (K : n < (two64 - 1) / base + 1). { pose proof (Z.div_le_lower_bound (two64 - 1) base n ltac:(lia)) as K. specialize (K ltac:(lia)). lia. }
    destruct (Z.geb_spec n ((two64 - 1) / base + 1)); [lia|]. cbv zeta.
    rewrite (u64_id (n * base)) by (unfold is_u64; lia). rewrite (u64_id (n * base + d)) by (unfold is_u64; lia).
    destruct (Z.ltb_spec (n * base + d) (n * base)); [lia|]. apply IH; [lia|exact HL].
  - change (95 =? 95) with true. cbv iota. rewrite (IH n true Hn HL). rewrite orb_true_r. reflexivity.
Qed.
Lemma loop_only_mixed base : 2 <= base <= 36 -> forall s n v m w, 0 <= n < two64 -> uintLoop base s n v = Some (m, w) ->
  exists ds u, mixed base s ds u /\ m = from base n ds /\ m < two64 /\ w = v || u.
Proof.
  intros HB. induction s as [|c s IH]; intros n v m w Hn E; cbn [uintLoop] in E.
  - injection E as <- <-. exists [], false. split; [constructor|]. split; [reflexivity|]. split; [lia|]. rewrite orb_false_r. reflexivity.
  - destruct (Z.eqb_spec c 95) as [->|N].
    + destruct (IH _ _ _ _ Hn E) as (ds & u & M & -> & L & ->). exists ds, true. split; [constructor 3 with u; exact M|]. split; [reflexivity|]. split; [exact L|]. rewrite orb_true_r. reflexivity.
    + destruct (digitOf base c) as [d|] eqn:D; [|discriminate E]. apply (digitOf_spec base c d HB) in D.
      destruct (Z.geb_spec n ((two64 - 1) / base + 1)); [discriminate E|]. cbv zeta in E. pose proof (proj1 D) as Dr.
      assert (K : n * base <= two64 - 1). { pose proof (Z.mul_div_le (two64 - 1) base ltac:(lia)). nia. }
      assert (P : 0 <= n * base) by nia.
      rewrite (u64_id (n * base)) in E by (unfold is_u64; lia).
      assert (Q : n * base + d < two64).
      { destruct (Z.lt_ge_cases (n * base + d) two64); [assumption|exfalso]. unfold u64 in E.
        assert (W : (n * base + d) mod two64 = n * base + d - two64).
        { symmetry. apply (Z.mod_unique _ _ 1); [left; unfold two64 in *; lia|lia]. }
        rewrite W in E. destruct (Z.ltb_spec (n * base + d - two64) (n * base)); [discriminate E|]. unfold two64 in *. lia. }
      rewrite (u64_id (n * base + d)) in E by (unfold is_u64; lia).
      destruct (Z.ltb_spec (n * base + d) (n * base)); [lia|].
      destruct (IH _ _ _ _ (conj (Z.add_nonneg_nonneg _ _ P (proj1 Dr)) Q) E) as (ds & u & M & -> & L & ->).
      exists (d :: ds), u. split; [constructor; assumption|]. split; [reflexivity|]. split; [exact L|reflexivity].
Qed.

Lemma numeral_mixed base s ds : numeral base s ds -> exists u, mixed base s ds u.
Proof.
  induction 1 as [c d D|c d s ds D _ (u & M)|c d s ds D _ (u & M)]; cbn [app text] in *.
  - exists false. constructor; [exact D|constructor].
  - exists u. constructor; assumption.
  - exists true. constructor; [exact D|]. change (text "_") with [95]. constructor 3 with u. exact M.
Qed.
Lemma plain_numeral base s ds : mixed base s ds false -> s <> [] -> numeral base s ds.
Proof.
  intros M. remember false as u eqn:E. induction M as [|c d s ds u D M IH|]; [congruence| |discriminate E]. intros _. subst u.
  destruct M as [|c' d' s ds u D' M|]; [constructor; exact D| |]; (constructor 2; [exact D|]); apply IH; congruence.
Qed.
Definition letters_ok (base : Z) (hex : bool) : Prop := base <= 10 \/ (base = 16 /\ hex = true).
Lemma digit_class base hex c d : letters_ok base hex -> a_digit base c d ->
  (((48 <=? c) && (c <=? 57)) || (hex && (97 <=? lower c) && (lower c <=? 102))) = true.
Proof.
  intros L D. pose proof D as [D1 [[D2 D3]|[D2 D3]]]; [replace ((48 <=? c) && (c <=? 57)) with true by lia; reflexivity|].
  destruct L as [L|[-> ->]]; [lia|]. assert (E : digitOf 16 c = Some d) by (apply digitOf_spec; [lia|exact D]).
  assert (K : 97 <= lower c <= 102).
  { destruct D3 as [D3|D3]; [destruct (lower_small c ltac:(lia)) as [K _]; lia|].
    destruct (lower_small (c + 32) ltac:(lia)) as [_ K]. replace (c + 32 - 32) with c in K by lia. lia. }
  cbn [andb]. replace (97 <=? lower c) with true by lia. replace (lower c <=? 102) with true by lia. apply orb_true_r.
Qed.
Definition after_prefix (base : Z) (s ds : list Z) : Prop := exists u s', (u = [] \/ u = text "_") /\ s = u ++ s' /\ numeral base s' ds.
Lemma numeral_head base s ds : numeral base s ds -> exists c d s', s = c :: s' /\ a_digit base c d.
Proof. destruct 1; eauto. Qed.
Lemma underscores base hex : letters_ok base hex -> base <= 36 -> forall s ds u, mixed base s ds u ->
  (underscoreLoop hex s 95 = true <-> numeral base s ds)
  /\ (underscoreLoop hex s 48 = true <-> s = [] \/ after_prefix base s ds)
  /\ (s <> [] -> (underscoreLoop hex s 94 = true <-> numeral base s ds)).
Proof.
  intros LO HB. assert (U : forall s ds, ~ numeral base (95 :: s) ds).
  { intros s ds H. destruct (numeral_head _ _ _ H) as (c & d & s' & [= <- <-] & D). apply (digit_not_underscore _ _ _ HB D). reflexivity. }
  induction 1 as [|c d s ds u D M (IH1 & IH2 & _)|s ds u M (IH1 & IH2 & _)].
  - split; [|split; [|congruence]]; cbn [underscoreLoop].
    + split; [discriminate|]. intros H. destruct (numeral_head _ _ _ H) as (? & ? & ? & ? & _). discriminate.
    + split; [left; reflexivity|reflexivity].
  - assert (K : underscoreLoop hex s 48 = true <-> numeral base (c :: s) (d :: ds)).
    { rewrite IH2. split.
      - intros [->|(v & s' & Hv & -> & N)].
        + inversion M; subst. constructor. exact D.
        + destruct Hv as [->| ->]; [constructor 2; assumption|constructor 3; assumption].
      - intros N. inversion N as [c' d' D'|c' d' s' ds' D' N'|c' d' s' ds' D' N']; subst; [left; reflexivity| |]; right; eexists; eexists;
          (split; [|split; [|exact N']]); [left; reflexivity|reflexivity|right; reflexivity|reflexivity]. }
    cbn [underscoreLoop]. rewrite (digit_class base hex c d LO D). cbv iota. rewrite K.
    split; [reflexivity|]. split; [|reflexivity]. split; [intros N; right; exists [], (c :: s); repeat split; [left; reflexivity|exact N]|].
    intros [X|(v & s' & [->| ->] & E & N)]; [discriminate X|cbn [app] in E; rewrite E; exact N|].
    change (text "_" ++ s') with (95 :: s') in E. injection E as -> _. destruct (digit_not_underscore _ _ _ HB D). reflexivity.
  - assert (E95 : (((48 <=? 95) && (95 <=? 57)) || (hex && (97 <=? lower 95) && (lower 95 <=? 102))) = false) by (destruct hex; reflexivity).
    cbn [underscoreLoop]. rewrite E95. change (95 =? 95) with true. change (95 =? 48) with false. change (48 =? 48) with true. change (94 =? 48) with false. cbv iota.
    split; [split; [discriminate|intros H; destruct (U _ _ H)]|]. split; [|intros _; split; [discriminate|intros H; destruct (U _ _ H)]].
    rewrite IH1. split.
    + intros N. right. exists (text "_"), s. repeat split; [right; reflexivity|exact N].
    + intros [X|(v & s' & [->| ->] & E & N)]; [discriminate X|cbn [app] in E; rewrite <- E in N; destruct (U _ _ N)|].
      change (text "_" ++ s') with (95 :: s') in E. injection E as ->. exact N.
Qed.

Lemma body_plain base hex s n : 2 <= base <= 36 -> letters_ok base hex -> s <> [] ->
  (exists u, uintLoop base s 0 false = Some (n, u) /\ (u && negb (underscoreLoop hex s 94)) = false)
  <-> exists ds, numeral base s ds /\ n = positional base ds /\ n < two64.
Proof.
  intros HB LO NE. split.
  - intros (u & E & K). destruct (loop_only_mixed base HB s 0 false n u ltac:(unfold two64; lia) E) as (ds & v & M & En & L & Eu). cbn [orb] in Eu. subst u.
    exists ds. split; [|split; [exact En|exact L]]. destruct v; [|apply plain_numeral; assumption].
    cbn [andb] in K. apply negb_false_iff in K. apply (underscores base hex LO (proj2 HB) s ds true M); assumption.
  - intros (ds & N & -> & L). destruct (numeral_mixed _ _ _ N) as (u & M). exists u. split; [exact (loop_mixed base HB s ds u 0 false M ltac:(lia) L)|].
    destruct (underscores base hex LO (proj2 HB) s ds u M) as (_ & _ & K). apply K in N; [|exact NE]. rewrite N. apply andb_false_r.
Qed.
Lemma body_prefixed base hex s n : 2 <= base <= 36 -> letters_ok base hex -> s <> [] ->
  (exists u, uintLoop base s 0 false = Some (n, u) /\ (u && negb (underscoreLoop hex s 48)) = false)
  <-> exists ds, after_prefix base s ds /\ n = positional base ds /\ n < two64.
Proof.
  intros HB LO NE. split.
  - intros (u & E & K). destruct (loop_only_mixed base HB s 0 false n u ltac:(unfold two64; lia) E) as (ds & v & M & En & L & Eu). cbn [orb] in Eu. subst u.
    exists ds. split; [|split; [exact En|exact L]]. destruct v; [|exists [], s; repeat split; [left; reflexivity|apply plain_numeral; assumption]].
    cbn [andb] in K. apply negb_false_iff in K. apply (underscores base hex LO (proj2 HB) s ds true M) in K. destruct K as [K|K]; [contradiction|exact K].
  - intros (ds & A & -> & L). assert (X : exists u, mixed base s ds u).
    { destruct A as (v & s' & [->| ->] & -> & N); destruct (numeral_mixed _ _ _ N) as (u & M); [exists u; exact M|exists true; change (text "_" ++ s') with (95 :: s'); constructor 3 with u; exact M]. }
    destruct X as (u & M). exists u. split; [exact (loop_mixed base HB s ds u 0 false M ltac:(lia) L)|].
    destruct (underscores base hex LO (proj2 HB) s ds u M) as (_ & K & _). rewrite (proj2 K (or_intror A)). apply andb_false_r.
Qed.
Lemma after_nonempty base s ds : after_prefix base s ds -> s <> [].
Proof. intros (u & s' & [->| ->] & -> & N); [|discriminate]. destruct (numeral_head _ _ _ N) as (c & d & s'' & -> & _). discriminate. Qed.

Lemma ParseUint0_loop s n : s <> [] ->
  ParseUint0 s = Some n <-> exists u, uintLoop (fst (splitBase s)) (snd (splitBase s)) 0 false = Some (n, u) /\ (u && negb (underscoreOK s)) = false.
Proof.
  intros NE. unfold ParseUint0. destruct s as [|c s]; [contradiction|]. destruct (splitBase (c :: s)) as [b t]. cbn [fst snd].
  destruct (uintLoop b t 0 false) as [[m u]|].
  - destruct (u && negb (underscoreOK (c :: s))) eqn:E; split.
    + discriminate.
    + intros (u' & [= <- <-] & K). congruence.
    + intros [= <-]. exists u. split; [reflexivity|exact E].
    + intros (u' & [= <- <-] & K). reflexivity.
  - split; [discriminate|]. intros (u & E & _). discriminate E.
Qed.
Lemma lower_of x c : 97 <= x <= 122 -> lower c = x -> c = x \/ c = x - 32.
Proof. intros H E. pose proof (lower_cases c). lia. Qed.

Definition letter (base x : Z) : Prop := (base = 2 /\ x = 98) \/ (base = 8 /\ x = 111) \/ (base = 16 /\ x = 120).
Lemma prefixed_case base x c s n : letter base x -> lower c = x ->
  ParseUint0 (48 :: c :: s) = Some n <-> exists ds, after_prefix base s ds /\ n = positional base ds /\ n < two64.
Proof.
  intros HL HC. assert (HB : 2 <= base <= 36) by (unfold letter in HL; lia). assert (LO : letters_ok base (x =? 120)).
  { destruct HL as [[-> ->]|[[-> ->]|[-> ->]]]; [left; lia|left; lia|right; split; reflexivity]. }
  assert (OK : underscoreOK (48 :: c :: s) = underscoreLoop (x =? 120) s 48).
  { cbn [underscoreOK]. rewrite HC. change (48 =? 48) with true. destruct HL as [[_ ->]|[[_ ->]|[_ ->]]]; reflexivity. }
  destruct s as [|c1 s].
  - split.
    + rewrite ParseUint0_loop by discriminate. unfold splitBase. change (48 =? 48) with true. cbv iota. cbn [fst snd]. intros (u & E & _). exfalso. cbn [uintLoop] in E.
      assert (D : digitOf 8 c = None).
      { destruct (digitOf 8 c) as [d|] eqn:D; [|reflexivity]. apply digitOf_spec in D; [|lia]. destruct D as [D [[D1 D2]|[D1 D2]]]; [|lia]. pose proof (lower_cases c). destruct HL as [[_ ->]|[[_ ->]|[_ ->]]]; lia. }
      destruct (c =? 95) eqn:E95; [apply Z.eqb_eq in E95; subst c; change (lower 95) with 127 in HC; destruct HL as [[_ ->]|[[_ ->]|[_ ->]]]; discriminate HC|].
      rewrite D in E. discriminate E.
    + intros (ds & A & _). destruct (after_nonempty _ _ _ A eq_refl).
  - rewrite ParseUint0_loop by discriminate. rewrite OK.
    assert (S : splitBase (48 :: c :: c1 :: s) = (base, c1 :: s)).
    { unfold splitBase. change (48 =? 48) with true. cbv iota. rewrite HC. destruct HL as [[-> ->]|[[-> ->]|[-> ->]]]; reflexivity. }
    rewrite S. cbn [fst snd]. apply body_prefixed; [exact HB|exact LO|discriminate].
Qed.
Lemma octal_case s n : (forall c s', s = c :: s' -> lower c <> 98 /\ lower c <> 111 /\ lower c <> 120) -> s <> [] ->
  ParseUint0 (48 :: s) = Some n <-> exists ds, after_prefix 8 s ds /\ n = positional 8 ds /\ n < two64.
Proof.
  intros H NE. destruct s as [|c s]; [contradiction|]. destruct (H c s eq_refl) as (H1 & H2 & H3).
  rewrite ParseUint0_loop by discriminate.
  assert (S : splitBase (48 :: c :: s) = (8, c :: s)).
  { unfold splitBase. change (48 =? 48) with true. cbv iota. destruct s as [|c1 s]; [reflexivity|].
    destruct (Z.eqb_spec (lower c) 98); [contradiction|]. destruct (Z.eqb_spec (lower c) 111); [contradiction|]. destruct (Z.eqb_spec (lower c) 120); [contradiction|]. reflexivity. }
  rewrite S. cbn [fst snd]. assert (OK : underscoreOK (48 :: c :: s) = underscoreLoop false (c :: s) 48).
  { unfold underscoreOK. change (48 =? 48) with true.
    destruct (Z.eqb_spec (lower c) 98); [contradiction|]. destruct (Z.eqb_spec (lower c) 111); [contradiction|]. destruct (Z.eqb_spec (lower c) 120); [contradiction|]. reflexivity. }
  rewrite OK. apply body_prefixed; [lia|left; lia|discriminate].
Qed.
Lemma decimal_case s n : s <> [] -> (forall s', s <> 48 :: s') ->
  ParseUint0 s = Some n <-> exists ds, numeral 10 s ds /\ n = positional 10 ds /\ n < two64.
Proof.
  intros NE H. destruct s as [|c s]; [contradiction|]. rewrite ParseUint0_loop by discriminate.
  assert (N : (c =? 48) = false) by (apply Z.eqb_neq; intros ->; apply (H s); reflexivity).
  assert (S : splitBase (c :: s) = (10, c :: s)) by (unfold splitBase; rewrite N; reflexivity).
  assert (OK : underscoreOK (c :: s) = underscoreLoop false (c :: s) 94) by (unfold underscoreOK; destruct s; [reflexivity|rewrite N; reflexivity]).
  rewrite S, OK. cbn [fst snd]. apply body_plain; [lia|left; lia|discriminate].
Qed.

Theorem ParseUint0_spec s n : ParseUint0 s = Some n <-> literal s n /\ n < two64.
Proof.
  split.
  - intros E. destruct s as [|c s]; [discriminate E|]. destruct (Z.eq_dec c 48) as [->|N].
    + destruct s as [|c s]; [injection E as <-; split; [left; split; reflexivity|unfold two64; lia]|].
      assert (G : forall base p, prefix base p -> (exists ds, after_prefix base s ds /\ n = positional base ds /\ n < two64) -> p = [48; c] -> literal (48 :: c :: s) n /\ n < two64).
      { intros base p P (ds & (u & s' & Hu & -> & Nm) & En & L) ->. split; [|exact L]. right; right. exists base, [48; c], u, s', ds. auto. }
      destruct (Z.eq_dec (lower c) 98) as [L|L1]; [|destruct (Z.eq_dec (lower c) 111) as [L|L2]; [|destruct (Z.eq_dec (lower c) 120) as [L|L3]]].
      * pose proof (proj1 (prefixed_case 2 98 c s n ltac:(left; split; reflexivity) L) E) as X. apply lower_of in L; [|lia].
        destruct L as [->| ->]; [apply (G 2 (text "0b")); [left; split; [reflexivity|left; reflexivity]|exact X|reflexivity]|apply (G 2 (text "0B")); [left; split; [reflexivity|right; reflexivity]|exact X|reflexivity]].
      * pose proof (proj1 (prefixed_case 8 111 c s n ltac:(right; left; split; reflexivity) L) E) as X. apply lower_of in L; [|lia].
        destruct L as [->| ->]; [apply (G 8 (text "0o")); [right; left; split; [reflexivity|left; reflexivity]|exact X|reflexivity]|apply (G 8 (text "0O")); [right; left; split; [reflexivity|right; left; reflexivity]|exact X|reflexivity]].
      * pose proof (proj1 (prefixed_case 16 120 c s n ltac:(right; right; split; reflexivity) L) E) as X. apply lower_of in L; [|lia].
        destruct L as [->| ->]; [apply (G 16 (text "0x")); [right; right; split; [reflexivity|left; reflexivity]|exact X|reflexivity]|apply (G 16 (text "0X")); [right; right; split; [reflexivity|right; reflexivity]|exact X|reflexivity]].
      * apply octal_case in E; [|intros c' s' [= <- <-]; auto|discriminate]. destruct E as (ds & (u & s' & Hu & -> & Nm) & En & L). split; [|exact L].
        right; right. exists 8, (text "0"), u, s', ds. split; [right; left; split; [reflexivity|right; right; reflexivity]|]. auto.
    + apply decimal_case in E; [|discriminate|intros s' [= -> _]; congruence]. destruct E as (ds & Nm & En & L). split; [|exact L]. right; left. exists ds. split; [exact Nm|]. split; [|exact En].
      intros s' X. change (text "0" ++ s') with (48 :: s') in X. injection X as -> _. congruence.
  - intros [[[-> ->]|[(ds & Nm & H & En)|(base & p & u & s' & ds & P & Hu & -> & Nm & En)]] L].
    + reflexivity.
    + apply decimal_case; [|exact H|exists ds; auto]. destruct (numeral_head _ _ _ Nm) as (c & d & s' & -> & _). discriminate.
    + assert (A : after_prefix base (u ++ s') ds) by (exists u, s'; auto).
      destruct P as [[-> [->| ->]]|[[-> [->|[->| ->]]]|[-> [->| ->]]]].
      * apply (prefixed_case 2 98 98 (u ++ s') n); [left; split; reflexivity|reflexivity|exists ds; auto].
      * apply (prefixed_case 2 98 66 (u ++ s') n); [left; split; reflexivity|reflexivity|exists ds; auto].
      * apply (prefixed_case 8 111 111 (u ++ s') n); [right; left; split; reflexivity|reflexivity|exists ds; auto].
      * apply (prefixed_case 8 111 79 (u ++ s') n); [right; left; split; reflexivity|reflexivity|exists ds; auto].
      * apply (octal_case (u ++ s') n); [|exact (after_nonempty _ _ _ A)|exists ds; auto].
        destruct (numeral_head _ _ _ Nm) as (c0 & d0 & s0 & -> & D0). intros c t Ec. assert (Hc : c = 95 \/ 48 <= c <= 55).
        { destruct Hu as [->| ->]; [injection Ec as <- _; right; unfold a_digit in D0; lia|change (text "_" ++ c0 :: s0) with (95 :: c0 :: s0) in Ec; injection Ec as <- _; left; reflexivity]. }
        destruct Hc as [->|Hc]; [change (lower 95) with 127; lia|]. pose proof (lower_cases c). lia.
      * apply (prefixed_case 16 120 120 (u ++ s') n); [right; right; split; reflexivity|reflexivity|exists ds; auto].
      * apply (prefixed_case 16 120 88 (u ++ s') n); [right; right; split; reflexivity|reflexivity|exists ds; auto].
Qed.
Lemma literal_head s n : literal s n -> exists c s', s = c :: s' /\ c <> 43 /\ c <> 45 /\ c <> 95.
Proof.
  intros [[-> ->]|[(ds & Nm & H & En)|(base & p & u & s' & ds & P & Hu & -> & Nm & En)]].
  - exists 48, []. repeat split; discriminate.
  - destruct (numeral_head _ _ _ Nm) as (c & d & s' & -> & D). exists c, s'. split; [reflexivity|]. unfold a_digit in D. lia.
  - assert (X : exists q, p = 48 :: q) by (destruct P as [[_ [->| ->]]|[[_ [->|[->| ->]]]|[_ [->| ->]]]]; eexists; reflexivity). destruct X as (q & ->). exists 48, (q ++ u ++ s'). repeat split; discriminate.
Qed.
Lemma literal_nonneg s n : literal s n -> 0 <= n.
Proof.
  assert (G : forall base s ds, 2 <= base -> numeral base s ds -> 0 <= positional base ds).
  { intros base t ds HB N. destruct (numeral_mixed _ _ _ N) as (u & M). apply (from_ge base ds ltac:(lia) (mixed_nonneg _ _ _ _ M) 0). lia. }
  intros [[-> ->]|[(ds & Nm & H & En)|(base & p & u & s' & ds & P & Hu & -> & Nm & En)]]; [lia|subst; apply (G 10 s); [lia|exact Nm]|].
  subst. apply (G base s'); [unfold prefix in P; lia|exact Nm].
Qed.
Theorem ParseInt0_spec s n : ParseInt0 s = Some n <->
  is_i64 n /\ (literal s n \/ (exists s', s = text "+" ++ s' /\ literal s' n) \/ (exists s', s = text "-" ++ s' /\ literal s' (- n))).
Proof.
  unfold is_i64. split.
  - intros E. destruct s as [|c s]; [discriminate E|]. cbn [ParseInt0] in E. destruct (Z.eqb_spec c 43) as [->|N1]; [|destruct (Z.eqb_spec c 45) as [->|N2]].
    + destruct (ParseUint0 s) as [m|] eqn:U; [|discriminate E]. apply ParseUint0_spec in U. destruct U as [U1 U2]. pose proof (literal_nonneg _ _ U1).
      destruct (Z.geb_spec m two63); [discriminate E|]. injection E as <-. split; [unfold two63 in *; lia|]. right; left. exists s. split; [reflexivity|exact U1].
    + destruct (ParseUint0 s) as [m|] eqn:U; [|discriminate E]. apply ParseUint0_spec in U. destruct U as [U1 U2]. pose proof (literal_nonneg _ _ U1).
      destruct (Z.gtb_spec m two63); [discriminate E|]. apply (f_equal (fun o => match o with Some z => z | None => 0 end)) in E. cbv beta iota in E. subst n. split; [unfold two63 in *; lia|].
      right; right. exists s. split; [reflexivity|]. rewrite Z.opp_involutive. exact U1.
    + destruct (ParseUint0 (c :: s)) as [m|] eqn:U; [|discriminate E]. apply ParseUint0_spec in U. destruct U as [U1 U2]. pose proof (literal_nonneg _ _ U1).
      destruct (Z.geb_spec m two63); [discriminate E|]. injection E as <-. split; [unfold two63 in *; lia|]. left. exact U1.
  - intros [R [L|[(s' & -> & L)|(s' & -> & L)]]]; pose proof (literal_nonneg _ _ L).
    + destruct (literal_head _ _ L) as (c & s' & -> & N1 & N2 & _). cbn [ParseInt0]. destruct (Z.eqb_spec c 43); [contradiction|]. destruct (Z.eqb_spec c 45); [contradiction|].
      rewrite (proj2 (ParseUint0_spec _ n)) by (split; [exact L|unfold two63, two64 in *; lia]). destruct (Z.geb_spec n two63); [lia|reflexivity].
    + change (text "+" ++ s') with (43 :: s'). cbn [ParseInt0]. change (43 =? 43) with true. cbv iota.
      rewrite (proj2 (ParseUint0_spec _ n)) by (split; [exact L|unfold two63, two64 in *; lia]). destruct (Z.geb_spec n two63); [lia|reflexivity].
    + change (text "-" ++ s') with (45 :: s'). cbn [ParseInt0]. change (45 =? 43) with false. change (45 =? 45) with true. cbv iota.
      rewrite (proj2 (ParseUint0_spec _ (- n))) by (split; [exact L|unfold two63, two64 in *; lia]). destruct (Z.gtb_spec (- n) two63); [lia|]. f_equal. lia.
Qed.
Lemma setValue_spec k t v : setValue k t = Some v <-> accepts k t v.
Proof.
  destruct k; cbn [setValue accepts].
  - split; [intros [= <-]; reflexivity|intros ->; reflexivity].
  - destruct (ParseBool t) as [b|] eqn:E; cbn [option_map].
    + apply ParseBool_spec in E. split; [intros [= <-]; eauto|]. intros (b' & T & ->). apply ParseBool_spec in E, T. congruence.
    + split; [discriminate|]. intros (b & T & _). apply ParseBool_spec in T. congruence.
  - destruct (ParseInt0 t) as [n|] eqn:E; cbn [option_map].
    + pose proof (proj1 (ParseInt0_spec t n) E) as [R L]. split; [intros [= <-]; exists n; auto|]. intros (m & -> & R' & L'). rewrite (proj2 (ParseInt0_spec t m) (conj R' L')) in E. congruence.
    + split; [discriminate|]. intros (m & -> & R' & L'). rewrite (proj2 (ParseInt0_spec t m) (conj R' L')) in E. discriminate E.
  - destruct (ParseUint0 t) as [n|] eqn:E; cbn [option_map].
    + pose proof (proj1 (ParseUint0_spec t n) E) as [R L]. split; [intros [= <-]; exists n; auto|]. intros (m & R' & L' & ->). rewrite (proj2 (ParseUint0_spec t m) (conj R' L')) in E. congruence.
    + split; [discriminate|]. intros (m & R' & L' & ->). rewrite (proj2 (ParseUint0_spec t m) (conj R' L')) in E. discriminate E.
Qed.

(** ** Flags *)
Definition proper_kinds (defs : kinds) : Prop := Forall (fun x => plain (fst x)) defs /\ NoDup (map fst defs).
Lemma lookupKind_in defs : NoDup (map fst defs) -> forall name k, lookupKind defs name = Some k <-> In (name, k) defs.
Proof.
  induction defs as [|[n x] defs IH]; intros N name k; cbn [lookupKind In]; [split; [discriminate|tauto]|].
  cbn [map fst] in N. inversion N as [|? ? N1 N2]; subst. destruct (same_text n name) eqn:E.
  - apply same_text_spec in E. subst n. split; [intros [= ->]; left; reflexivity|]. intros [[= ->]|H]; [reflexivity|].
    destruct N1. apply (in_map fst) in H. exact H.
  - apply same_text_neq in E. rewrite (IH N2). split; [auto|]. intros [[= -> ->]|H]; [congruence|exact H].
Qed.
Lemma parse_sets defs a l b : proper_kinds defs -> sets defs a l -> no_flag b -> parseFlags defs (a ++ b) = Set_ l.
Proof.
  intros [P N] H Hb.
  assert (PI : forall name x, In (name, x) defs -> plain name /\ lookupKind defs name = Some x).
  { intros name x Hin. split; [|apply lookupKind_in; assumption]. rewrite Forall_forall in P. apply (P _ Hin). }
  induction H as [|d name k t v args l D I K A H IH|d name k t v args l D I A H IH|d name args l D I H IH]; cbn [app].
  - destruct Hb as [->|(s & more & -> & Hs)]; [reflexivity|]. cbn [parseFlags]. apply lookArg_none in Hs. destruct Hs as [->| ->]; reflexivity.
  - destruct (PI _ _ I) as [Q L]. cbn [parseFlags]. rewrite (proj1 (lookArg_plain d name t D Q)), L, IH. apply setValue_spec in A. rewrite A. destruct k; try reflexivity. congruence.
  - destruct (PI _ _ I) as [Q L]. cbn [parseFlags]. rewrite (proj2 (lookArg_plain d name t D Q)), L, IH. apply setValue_spec in A. rewrite A. reflexivity.
  - destruct (PI _ _ I) as [Q L]. cbn [parseFlags]. rewrite (proj1 (lookArg_plain d name [] D Q)), L, IH. reflexivity.
Qed.
Lemma parse_only_sets defs : proper_kinds defs -> forall n args l, (length args <= n)%nat -> parseFlags defs args = Set_ l ->
  exists a b, args = a ++ b /\ sets defs a l /\ no_flag b.
Proof.
  intros [P N]. induction n as [|n IH]; intros args l HL E.
  { destruct args; [|cbn in HL; lia]. injection E as <-. exists [], []. repeat split; [constructor|left; reflexivity]. }
  destruct args as [|s args]; [injection E as <-; exists [], []; repeat split; [constructor|left; reflexivity]|].
  cbn [length] in HL. cbn [parseFlags] in E. destruct (lookArg s) as [| | |name value] eqn:K.
  - injection E as <-. exists [], (s :: args). repeat split; [constructor|right; exists s, args; split; [reflexivity|apply lookArg_none; auto]].
  - injection E as <-. exists [], (s :: args). repeat split; [constructor|right; exists s, args; split; [reflexivity|apply lookArg_none; auto]].
  - discriminate E.
  - apply lookArg_inv in K. destruct K as (d & D & ->). destruct (lookupKind defs name) as [k|] eqn:L; [|destruct (_ || _); discriminate E].
    apply (lookupKind_in defs N) in L. destruct value as [t|].
    + destruct (setValue k t) as [v|] eqn:A; [|discriminate E]. apply setValue_spec in A. destruct (parseFlags defs args) as [l'| |] eqn:E'; try discriminate E. cbn [thenSet] in E. injection E as <-.
      destruct (IH args l' ltac:(lia) E') as (a & b & -> & S & Hb). exists ((d ++ name ++ text "=" ++ t) :: a), b. split; [reflexivity|]. split; [|exact Hb]. eapply sets_equals; eassumption.
    + destruct k eqn:Ek.
      2: { destruct (parseFlags defs args) as [l'| |] eqn:E'; try discriminate E. cbn [thenSet] in E. injection E as <-.
           destruct (IH args l' ltac:(lia) E') as (a & b & -> & S & Hb). exists ((d ++ name) :: a), b. split; [rewrite app_nil_r; reflexivity|]. split; [|exact Hb]. eapply sets_on; eassumption. }
      all: destruct args as [|t args]; [discriminate E|];
        match type of E with context [setValue ?kk t] => destruct (setValue kk t) as [v|] eqn:A; [|discriminate E] end; apply setValue_spec in A;
        destruct (parseFlags defs args) as [l'| |] eqn:E'; try discriminate E; cbn [thenSet] in E; injection E as <-;
        destruct (IH args l' ltac:(cbn [length] in HL; lia) E') as (a & b & -> & S & Hb); exists ((d ++ name) :: t :: a), b; (split; [rewrite app_nil_r; reflexivity|]); (split; [|exact Hb]);
        eapply sets_apart; try eassumption; discriminate.
Qed.
Lemma flag_last name : forall l default v, flag_is name default l v -> variable name default l = v.
Proof.
  assert (Q : forall b v, (forall x, ~ In (name, x) b) -> variable name v b = v).
  { induction b as [|[m x] b IH]; intros v H; [reflexivity|]. unfold variable in *. cbn [fold_left fst snd].
    destruct (same_text m name) eqn:K; [apply same_text_spec in K; subst m; destruct (H x); left; reflexivity|]. apply IH. intros y Hy. apply (H y). right. exact Hy. }
  intros l default v [(a & b & -> & H)|[-> H]]; [|apply Q; exact H]. unfold variable. rewrite fold_left_app. cbn [fold_left fst snd]. rewrite same_text_refl. apply Q. exact H.
Qed.
Lemma variable_is name l default : flag_is name default l (variable name default l).
Proof.
  induction l as [|[m x] l IH] using rev_ind; [right; split; [reflexivity|intros y []]|]. unfold variable in *. rewrite fold_left_app. cbn [fold_left fst snd].
  destruct (same_text m name) eqn:K; [apply same_text_spec in K; subst m; left; exists l, []; split; [reflexivity|intros y []]|]. apply same_text_neq in K.
  destruct IH as [(a & b & E & H)|[E H]].
  - left. set (w := fold_left _ _ _) in *. clearbody w. exists a, (b ++ [(m, x)]). split; [rewrite E, <- app_assoc; reflexivity|]. intros y Hy. apply in_app_iff in Hy. destruct Hy as [Hy|[[= Hy _]|[]]]; [exact (H y Hy)|congruence].
  - right. split; [exact E|]. intros y Hy. apply in_app_iff in Hy. destruct Hy as [Hy|[[= Hy _]|[]]]; [exact (H y Hy)|congruence].
Qed.
Ltac proper_flags := split; [repeat (constructor; [apply plain_check; reflexivity|]); constructor|];
  repeat (constructor; [cbn; intros K; repeat (destruct K as [K|K]; [discriminate K|]); exact K|]); constructor.
Lemma import_proper : proper_kinds importFlags. Proof. proper_flags. Qed.
Lemma aggregate_proper : proper_kinds aggregateFlags. Proof. proper_flags. Qed.
Lemma example_proper : proper_kinds exampleFlags. Proof. proper_flags. Qed.
