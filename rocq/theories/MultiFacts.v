(** Several files read together, and bitmap caching: C27, C29. *)
From Coq Require Import Sorting.Permutation.
From Verif Require Import Machine MachineFacts Encoding FileIO Sroar SroarFacts Writer SimpleWriter Reader Aggregate Multi Spec SimpleSpec MultiSpec
  WriterFacts ReaderFacts DecodeFacts ReachFacts WriterProps AggFacts SimpleFacts.
Ltac Zify.zify_post_hook ::= Z.div_mod_to_equations.

Section MultiFacts.
Context {Srr : Sroar}.

(** ** Caches *)
Definition fresh (r : reader) : Prop := r_globalIDs r = None /\ r_cacheGlobalIDs r = false.

Definition cached (hp : heap) (own : list nat) (r0 r : reader) : Prop :=
  exists p on, r = set_cache r0 p on
    /\ forall q, p = Some q -> exists b, loadGlobalIDBitmap r0 = Ok b /\ nth_error hp q = Some b /\ ~ In q own.

Definition valid (hp : heap) (own : list nat) : Prop := forall p, In p own -> (p < length hp)%nat.

Lemma cached_extend hp l own r0 r : cached hp own r0 r -> cached (hp ++ l) own r0 r.
Proof.
  intros (p & on & -> & H). exists p, on. split; [reflexivity|]. intros q Hq. destruct (H q Hq) as (b & H1 & H2 & H3).
  exists b. split; [exact H1|]. split; [|exact H3]. rewrite nth_error_app1; [exact H2|]. apply nth_error_Some. congruence.
Qed.
Lemma load_set_cache r p on : loadGlobalIDBitmap (set_cache r p on) = loadGlobalIDBitmap r.
Proof. reflexivity. Qed.

(** What fetching the bitmap does. *)
Lemma get_cached hp own r0 r : valid hp own -> cached hp own r0 r ->
  match loadGlobalIDBitmap r0 with
  | Ok b => exists p r' l, GetGlobalIDBitmap r hp = (Ok p, r', hp ++ l) /\ nth_error (hp ++ l) p = Some b /\ cached (hp ++ l) own r0 r'
  | Err e => GetGlobalIDBitmap r hp = (Err e, r, hp)
  | Panic => GetGlobalIDBitmap r hp = (Panic, r, hp)
  end.
Proof.
  intros Hv (p & on & -> & H). unfold GetGlobalIDBitmap. cbn [set_cache r_globalIDs r_cacheGlobalIDs].
  assert (N : forall b, loadGlobalIDBitmap r0 = Ok b -> exists p0 r' l,
    (let '(p1, h') := alloc hp b in (Ok p1, if on then set_cache (set_cache r0 p on) (Some p1) on else set_cache r0 p on, h'))
      = (Ok p0, r', hp ++ l) /\ nth_error (hp ++ l) p0 = Some b /\ cached (hp ++ l) own r0 r').
  { intros b Hb. exists (length hp). eexists _, [b]. split; [reflexivity|].
    split; [rewrite nth_error_app2 by lia; rewrite Nat.sub_diag; reflexivity|].
    destruct on; [|apply cached_extend; exists p, false; auto]. exists (Some (length hp)), true. split; [reflexivity|].
    intros q Hq. injection Hq as <-. exists b. split; [exact Hb|]. split; [rewrite nth_error_app2 by lia; rewrite Nat.sub_diag; reflexivity|].
    intros Hin. apply Hv in Hin. lia. }
  destruct p as [q|].
  - destruct (H q eq_refl) as (b & Hb & Hn & Ho). rewrite load_set_cache in *. rewrite Hb in *. destruct on; [|apply N; reflexivity].
    exists q, (set_cache r0 (Some q) true), []. rewrite app_nil_r. split; [reflexivity|]. split; [exact Hn|].
    exists (Some q), true. split; [reflexivity|]. intros q' Hq. injection Hq as <-. eauto.
  - rewrite load_set_cache. destruct (loadGlobalIDBitmap r0) as [b|e|] eqn:E; [|reflexivity|reflexivity].
    apply N. reflexivity.
Qed.

Lemma get_keeps hp own r0 r out r' hp' : valid hp own -> cached hp own r0 r -> GetGlobalIDBitmap r hp = (out, r', hp') ->
  cached hp' own r0 r' /\ exists l, hp' = hp ++ l.
Proof.
  intros Hv Hc Hg. pose proof (get_cached _ _ _ _ Hv Hc) as G. destruct (loadGlobalIDBitmap r0) as [b|e|].
  - destruct G as (p & r1 & l & G1 & _ & G3). rewrite G1 in Hg. injection Hg as <- <- <-. split; [exact G3|eauto].
  - rewrite G in Hg. injection Hg as <- <- <-. split; [exact Hc|exists []; symmetry; apply app_nil_r].
  - rewrite G in Hg. injection Hg as <- <- <-. split; [exact Hc|exists []; symmetry; apply app_nil_r].
Qed.

Lemma valid_extend hp l own : valid hp own -> valid (hp ++ l) own.
Proof. intros H p Hp. apply H in Hp. rewrite app_length. lia. Qed.
Lemma all_cached_extend hp l own rs0 rs : Forall2 (cached hp own) rs0 rs -> Forall2 (cached (hp ++ l) own) rs0 rs.
Proof. induction 1; constructor; auto using cached_extend. Qed.

Lemma loop_keeps own opts : forall rs rs0 deny result hp out rs' hp', valid hp own -> Forall2 (cached hp own) rs0 rs ->
  multiLoop opts rs deny result hp = (out, rs', hp') -> Forall2 (cached hp' own) rs0 rs' /\ exists l, hp' = hp ++ l.
Proof.
  induction rs as [|r rs IH]; intros rs0 deny result hp out rs' hp' Hv Hc H; inversion Hc as [|r0 ? rs0' ? Hc1 Hc2]; subst; cbn [multiLoop] in H.
  - injection H as <- <- <-. split; [constructor|exists []; symmetry; apply app_nil_r].
  - destruct (aggregateSequential r _) as [rr|e|]; try (injection H as <- <- <-; split; [exact Hc|exists []; symmetry; apply app_nil_r]).
    destruct (GetGlobalIDBitmap r hp) as [[out1 r1] hp1] eqn:Eg.
    destruct (get_keeps _ _ _ _ _ _ _ Hv Hc1 Eg) as (K1 & l & ->).
    assert (S0 : Forall2 (cached (hp ++ l) own) (r0 :: rs0') (r1 :: rs)) by (constructor; [exact K1|apply all_cached_extend; exact Hc2]).
    destruct out1 as [p|e|]; try (injection H as <- <- <-; split; [exact S0|eauto]).
    destruct (nth_error (hp ++ l) p) as [g|]; try (injection H as <- <- <-; split; [exact S0|eauto]).
    destruct (multiLoop opts rs (bm_or deny g) _ (hp ++ l)) as [[out2 rs2] hp2] eqn:El. injection H as <- <- <-.
    destruct (IH rs0' _ _ _ _ _ _ (valid_extend _ l _ Hv) (all_cached_extend _ l _ _ _ Hc2) El) as (K2 & l2 & ->).
    split; [constructor; [apply cached_extend; exact K1|exact K2]|]. exists (l ++ l2). apply app_assoc_reverse.
Qed.

Lemma Forall2_length {A B} (P : A -> B -> Prop) l l' : Forall2 P l l' -> length l = length l'.
Proof. induction 1; cbn; congruence. Qed.
Lemma Forall2_impl {A B} (P Q : A -> B -> Prop) l l' : (forall x y, P x y -> Q x y) -> Forall2 P l l' -> Forall2 Q l l'.
Proof. induction 2; constructor; auto. Qed.
Lemma Forall2_rev' {A B} (P : A -> B -> Prop) l l' : Forall2 P l l' -> Forall2 P (rev l) (rev l').
Proof.
  induction 1 as [|x y l l' H1 H2 IH]; cbn [rev]; [constructor|]. apply Forall2_app; [exact IH|]. constructor; [exact H1|constructor].
Qed.

Lemma multi_keeps own opts rs0 rs hp out rs' hp' : valid hp own -> Forall2 (cached hp own) rs0 rs ->
  MultiAggregate opts rs hp = (out, rs', hp') -> Forall2 (cached hp' own) rs0 rs' /\ exists l, hp' = hp ++ l.
Proof.
  unfold MultiAggregate. intros Hv Hc H. destruct (zlen rs =? 0).
  - injection H as <- <- <-. split; [exact Hc|exists []; symmetry; apply app_nil_r].
  - destruct (multiLoop opts (rev rs) bm_new zeroResult hp) as [[o2 r2] h2] eqn:E. injection H as <- <- <-.
    destruct (loop_keeps own opts _ (rev rs0) _ _ _ _ _ _ Hv (Forall2_rev' _ _ _ Hc) E) as (K & l & ->).
    split; [|eauto]. rewrite <- (rev_involutive rs0). apply Forall2_rev'. exact K.
Qed.

Lemma put_split {A} i (x y : A) l : nth_error l i = Some y -> exists l1 l2, l = l1 ++ y :: l2 /\ length l1 = i /\ put i x l = l1 ++ x :: l2.
Proof.
  intros H. destruct (nth_error_split _ _ H) as (l1 & l2 & -> & <-). exists l1, l2. split; [reflexivity|]. split; [reflexivity|].
  unfold put. rewrite firstn_app, Nat.sub_diag, firstn_all. cbn [firstn]. rewrite app_nil_r. f_equal. f_equal.
  rewrite skipn_app. rewrite skipn_all2 by lia. replace (S (length l1) - length l1)%nat with 1%nat by lia. reflexivity.
Qed.
Lemma put_Forall2 {A B} (P : A -> B -> Prop) i l0 l y x : Forall2 P l0 l -> nth_error l i = Some y ->
  (forall z, nth_error l0 i = Some z -> P z y -> P z x) -> Forall2 P l0 (put i x l).
Proof.
  intros H Hn HP. destruct (put_split i x y l Hn) as (l1 & l2 & -> & Hl & ->).
  apply Forall2_app_inv_r in H. destruct H as (k1 & k2 & K1 & K2 & ->). inversion K2 as [|z ? k2' ? K3 K4]; subst.
  apply Forall2_app; [exact K1|]. constructor; [|exact K4]. apply HP; [|exact K3].
  rewrite nth_error_app2 by (rewrite (Forall2_length _ _ _ K1); lia). rewrite (Forall2_length _ _ _ K1), Nat.sub_diag. reflexivity.
Qed.
Lemma put_length {A} i (x y : A) l : nth_error l i = Some y -> length (put i x l) = length l.
Proof. intros H. destruct (put_split i x y l H) as (l1 & l2 & -> & _ & ->). rewrite !app_length. reflexivity. Qed.
Lemma put_other {A} i j (x y : A) l : nth_error l i = Some y -> i <> j -> nth_error (put i x l) j = nth_error l j.
Proof.
  intros H Hij. destruct (put_split i x y l H) as (l1 & l2 & -> & Hl & ->).
  destruct (Nat.lt_ge_cases j i); [rewrite !nth_error_app1 by lia; reflexivity|].
  rewrite !nth_error_app2 by lia. replace (j - length l1)%nat with (S (j - length l1 - 1)) by lia. reflexivity.
Qed.

Lemma session_inv rs0 rs hp own : Forall fresh rs0 -> session rs0 rs hp own ->
  valid hp own /\ Forall2 (cached hp own) rs0 rs.
Proof.
  intros Hf. induction 1 as [hp own Hv|rs hp own i r _ [Hv IH] Hn|rs hp own i r _ [Hv IH] Hn|rs hp own i r out r' hp' _ [Hv IH] Hn Hg
    |rs hp own opts out rs' hp' _ [Hv IH] Ha|rs hp own b _ [Hv IH]|rs hp own p b _ [Hv IH] Hp].
  - split; [exact Hv|]. induction Hf as [|r rs0 [H1 H2] _ IH]; constructor; [|exact IH]. exists None, false. split; [|discriminate].
    destruct r; cbn in *; subst; reflexivity.
  - split; [exact Hv|]. eapply put_Forall2; [exact IH|exact Hn|]. intros r0 _ (p & on & -> & H). exists p, true. split; [reflexivity|exact H].
  - split; [exact Hv|]. eapply put_Forall2; [exact IH|exact Hn|]. intros r0 _ (p & on & -> & H). exists None, false. split; [reflexivity|discriminate].
  - assert (E : exists l, hp' = hp ++ l).
    { destruct (nth_error rs0 i) as [r0|] eqn:E0.
      - destruct (nth_error_split _ _ E0) as (k1 & k2 & -> & Hl). apply Forall2_app_inv_l in IH. destruct IH as (l1 & l2 & I1 & I2 & ->).
        rewrite nth_error_app2 in Hn by (rewrite <- (Forall2_length _ _ _ I1); lia). rewrite <- (Forall2_length _ _ _ I1), Hl, Nat.sub_diag in Hn.
        inversion I2 as [|? ? ? ? I3 I4]; subst. injection Hn as <-. apply (get_keeps _ _ _ _ _ _ _ Hv I3 Hg).
      - apply nth_error_None in E0. rewrite (Forall2_length _ _ _ IH) in E0. apply nth_error_None in E0. congruence. }
    destruct E as [l ->]. split; [apply valid_extend; exact Hv|].
    eapply put_Forall2; [apply all_cached_extend; exact IH|exact Hn|]. intros r0 H0 _.
    apply nth_error_split in H0. destruct H0 as (k1 & k2 & -> & Hl). apply Forall2_app_inv_l in IH. destruct IH as (l1 & l2 & I1 & I2 & ->).
    rewrite nth_error_app2 in Hn by (rewrite <- (Forall2_length _ _ _ I1); lia). rewrite <- (Forall2_length _ _ _ I1), Hl, Nat.sub_diag in Hn.
    inversion I2 as [|? ? ? ? I3 I4]; subst. injection Hn as <-. apply (get_keeps _ _ _ _ _ _ _ Hv I3 Hg).
  - destruct (multi_keeps _ _ _ _ _ _ _ _ Hv IH Ha) as (K & l & ->). split; [apply valid_extend; exact Hv|exact K].
  - split.
    + intros p [<-|Hp]; [rewrite app_length; cbn; lia|]. rewrite app_length. apply Hv in Hp. lia.
    + eapply Forall2_impl; [|exact IH]. intros r0 r (p & on & -> & H). exists p, on. split; [reflexivity|].
      intros q Hq. destruct (H q Hq) as (b' & H1 & H2 & H3). assert (L : (q < length hp)%nat) by (apply nth_error_Some; congruence).
      exists b'. split; [exact H1|]. split; [rewrite nth_error_app1 by exact L; exact H2|]. intros [<-|Hin]; [lia|exact (H3 Hin)].
  - assert (E : exists y, nth_error hp p = Some y).
    { apply Hv in Hp. apply nth_error_Some in Hp. destruct (nth_error hp p); [eauto|congruence]. }
    destruct E as [y Ey]. split.
    + intros q Hq. rewrite (put_length _ _ _ _ Ey). apply Hv. exact Hq.
    + eapply Forall2_impl; [|exact IH]. intros r0 r (p' & on & -> & H). exists p', on. split; [reflexivity|].
      intros q Hq. destruct (H q Hq) as (b' & H1 & H2 & H3). exists b'. split; [exact H1|]. split; [|exact H3].
      rewrite (put_other _ _ _ _ _ Ey); [exact H2|]. intros ->. exact (H3 Hp).
Qed.

(** C29 *)
Theorem caching_invisible rs0 rs hp own i r0 r : Forall fresh rs0 -> session rs0 rs hp own ->
  nth_error rs0 i = Some r0 -> nth_error rs i = Some r ->
  match GetGlobalIDBitmap r0 [] with
  | (Ok p0, _, hp0) => exists b p r' hp', nth_error hp0 p0 = Some b
       /\ GetGlobalIDBitmap r hp = (Ok p, r', hp') /\ nth_error hp' p = Some b
  | (Err e, _, _) => GetGlobalIDBitmap r hp = (Err e, r, hp)
  | (Panic, _, _) => GetGlobalIDBitmap r hp = (Panic, r, hp)
  end.
Proof.
  intros Hf Hs H0 Hr. destruct (session_inv _ _ _ _ Hf Hs) as [Hv Hc].
  assert (Hfr : fresh r0) by (rewrite Forall_forall in Hf; apply Hf; eapply nth_error_In; exact H0).
  destruct Hfr as [F1 F2].
  assert (Hc0 : cached hp own r0 r).
  { apply nth_error_split in H0. destruct H0 as (k1 & k2 & -> & Hl). apply Forall2_app_inv_l in Hc. destruct Hc as (l1 & l2 & I1 & I2 & ->).
    rewrite nth_error_app2 in Hr by (rewrite <- (Forall2_length _ _ _ I1); lia). rewrite <- (Forall2_length _ _ _ I1), Hl, Nat.sub_diag in Hr.
    inversion I2 as [|? ? ? ? I3 I4]; subst. injection Hr as <-. exact I3. }
  pose proof (get_cached _ _ _ _ Hv Hc0) as G. unfold GetGlobalIDBitmap at 1. rewrite F1.
  destruct (loadGlobalIDBitmap r0) as [b|e|] eqn:E; [|exact G|exact G]. cbn [alloc length app].
  destruct G as (p & r' & l & G1 & G2 & _). exists b, p, r', (hp ++ l). split; [reflexivity|]. split; assumption.
Qed.

(** ** Aggregates *)
Lemma zsum_perm a b : Permutation a b -> zsum a = zsum b.
Proof. induction 1; cbn [zsum fold_right] in *; unfold zsum in *; cbn [fold_right] in *; lia. Qed.
Lemma aggregate_perm a b res : Permutation a b -> aggregate_of a res -> aggregate_of b res.
Proof.
  intros HP (A1 & A2 & A3 & A4 & A5). unfold aggregate_of.
  assert (Hl : zlen b = zlen a) by (unfold zlen; rewrite (Permutation_length HP); reflexivity).
  assert (Hn : b <> [] -> a <> []) by (intros Hb ->; apply Permutation_nil in HP; congruence).
  rewrite <- (zsum_perm _ _ HP), Hl. split; [exact A1|]. split; [exact A2|]. split; [|split].
  - intros Hb. destruct (A3 (Hn Hb)) as [[M1 M2] [N1 N2]]. split; split.
    + eapply Permutation_in; eassumption.
    + intros y Hy. apply M2. eapply Permutation_in; [apply Permutation_sym; exact HP|exact Hy].
    + eapply Permutation_in; eassumption.
    + intros y Hy. apply N2. eapply Permutation_in; [apply Permutation_sym; exact HP|exact Hy].
  - intros ->. apply A4. apply Permutation_sym in HP. apply Permutation_nil in HP. exact HP.
  - intros Hb. apply A5. exact (Hn Hb).
Qed.

Lemma zlen_zero {A} (l : list A) : zlen l = 0 -> l = [].
Proof. destruct l; [reflexivity|]. rewrite zlen_cons. pose proof (zlen_nonneg l). lia. Qed.
Lemma i64_add a b : i64 (i64 a + i64 b) = i64 (a + b).
Proof. unfold i64, two63, two64. lia. Qed.

Lemma merge_aggregate va vb a b : zlen va + zlen vb < two63 -> aggregate_of va a -> aggregate_of vb b ->
  aggregate_of (va ++ vb) (if a_count a =? 0 then b else mergeAggregateResults a b).
Proof.
  intros Hlim HA HB. pose proof HA as (A1 & A2 & A3 & A4 & A5). pose proof HB as (B1 & B2 & B3 & B4 & B5).
  destruct (a_count a =? 0) eqn:E0.
  { apply Z.eqb_eq in E0. rewrite E0 in A1. symmetry in A1. apply zlen_zero in A1. subst va. exact HB. }
  unfold mergeAggregateResults. rewrite E0. destruct (a_count b =? 0) eqn:E1.
  { apply Z.eqb_eq in E1. rewrite E1 in B1. symmetry in B1. apply zlen_zero in B1. subst vb. rewrite app_nil_r. exact HA. }
  assert (Na : va <> []) by (intros ->; change (zlen (@nil Z)) with 0 in A1; lia).
  assert (Nb : vb <> []) by (intros ->; change (zlen (@nil Z)) with 0 in B1; lia).
  destruct (A3 Na) as [[M1 M2] [N1 N2]], (B3 Nb) as [[P1 P2] [Q1 Q2]].
  assert (Hc : i64 (a_count a + a_count b) = zlen (va ++ vb)).
  { rewrite A1, B1, zlen_app. pose proof (zlen_nonneg va). pose proof (zlen_nonneg vb). unfold i64, two63, two64 in *. lia. }
  assert (Hs : i64 (a_sum a + a_sum b) = i64 (zsum (va ++ vb))) by (rewrite A2, B2, zsum_app; apply i64_add).
  rewrite Hc, Hs. unfold aggregate_of. cbn [a_count a_sum a_min a_max a_avg]. split; [reflexivity|]. split; [reflexivity|].
  split; [|split].
  - intros _. unfold minInt64, maxInt64. split; split.
    + apply in_or_app. destruct (_ <? _); auto.
    + intros y Hy. apply in_app_or in Hy. destruct Hy as [Hy|Hy]; [apply M2 in Hy|apply P2 in Hy]; destruct (a_min a <? a_min b) eqn:E; lia.
    + apply in_or_app. destruct (_ >? _); auto.
    + intros y Hy. apply in_app_or in Hy. destruct Hy as [Hy|Hy]; [apply N2 in Hy|apply Q2 in Hy]; destruct (a_max a >? a_max b) eqn:E; lia.
  - intros E. apply app_eq_nil in E. tauto.
  - intros _. unfold average. pose proof (zlen_nonneg va). pose proof (zlen_nonneg vb). rewrite <- zlen_app in *.
    destruct (zlen (va ++ vb) >? 0) eqn:E; [reflexivity|]. rewrite zlen_app in E. lia.
Qed.

(** ** What a reader contributes *)
Definition solid (r : reader) (pairs : list (Z * Z)) : Prop :=
  fresh r /\ (exists blocks, view r blocks /\ Permutation (all_pairs blocks) pairs)
  /\ exists b, loadGlobalIDBitmap r = Ok b /\ forall id, is_u64 id -> bm_contains b id = occurs id pairs.

Lemma occurs_in id pairs : occurs id pairs = true <-> In id (map fst pairs).
Proof.
  unfold occurs. rewrite existsb_exists, in_map_iff. split; intros (p & H1 & H2); exists p; [split; [apply Z.eqb_eq|]|split; [|apply Z.eqb_eq]]; assumption.
Qed.
Lemma all_pairs_ids blocks : Forall good_block blocks -> map fst (all_pairs blocks) = flat_map fst blocks.
Proof.
  induction 1 as [|b l Hb _ IH]; [reflexivity|]. unfold all_pairs in *. cbn [flat_map]. rewrite map_app, IH. f_equal.
  unfold pairs_of. apply combine_fst. apply good_length. exact Hb.
Qed.
Lemma ids_u64 blocks : Forall good_block blocks -> Forall is_u64 (flat_map fst blocks).
Proof. induction 1 as [|b l Hb _ IH]; cbn [flat_map]; [constructor|]. apply Forall_app. split; [apply Hb|exact IH]. Qed.

Context {Lw : SroarLaws Srr}.

Lemma bitmap_set A : Forall is_u64 A -> exists b, bm_deser (bm_ser (fold_left bm_set A bm_new)) = Ok b
  /\ forall id, is_u64 id -> (bm_contains b id = true <-> In id A).
Proof.
  intros HA. destruct (law_ser (fold_left bm_set A bm_new)) as (b & Hb & He). exists b. split; [exact Hb|].
  intros id Hid. rewrite (He id Hid), bm_fold_contains by assumption. rewrite law_new by assumption. intuition discriminate.
Qed.
Lemma bool_iff a b : (a = true <-> b = true) -> a = b.
Proof. destruct a, b; intuition congruence. Qed.

Lemma nth_error_ext {A} (a b : list A) : (forall i, nth_error a i = nth_error b i) -> a = b.
Proof.
  revert b. induction a as [|x a IH]; intros [|y b] H; [reflexivity|specialize (H 0%nat); discriminate|specialize (H 0%nat); discriminate|].
  f_equal; [specialize (H 0%nat); cbn in H; congruence|]. apply IH. intros i. exact (H (S i)).
Qed.

Lemma file_solid r pairs : file_with r pairs -> solid r pairs.
Proof.
  intros [options faults h now w blocks H He Hnt HR (Hst & Hct & Hgp) ->|srt options faults h sw H Hs Hu Hc Hfit He HR ->].
  - assert (Hty : Forall (fun p => typed_call (fst p)) h).
    { destruct H as [now0 w0 f0 cs outs w1 fin n _ _ Hty _ -> _ _ _ _]. clear - Hty. revert outs.
      induction Hty as [|c cs Hc _ IH]; intros [|o outs]; cbn [combine]; constructor; auto. }
    destruct (finished_facts options faults h now w H) as (bl & A & X & L & off & Hef & HL & HF & Hlim & HX & HC & HR').
    rewrite HR in HR'. injection HR' as HR'. rewrite HR'.
    pose proof (finalized_view _ _ _ _ _ _ _ _ HF Hlim He) as HV. rewrite HL in HV. rewrite <- HR' in HV |- *.
    assert (EB : bl = blocks).
    { assert (Hl : length bl = length blocks) by (pose proof (v_count _ _ (v_indexed _ _ HV)); unfold zlen in *; lia).
      apply nth_error_ext. intros i. destruct (Nat.lt_ge_cases i (length bl)) as [Hi|Hi].
      - pose proof (v_small _ _ (v_indexed _ _ HV)) as Hsm. unfold zlen, two32 in Hsm.
        assert (Hu : is_u64 (Z.of_nat i)) by (unfold is_u64, two64; lia).
        pose proof (v_pairs _ _ HV _ Hu) as G1. rewrite (Hgp _ Hu), Nat2Z.id in G1.
        destruct (nth_error bl i), (nth_error blocks i); congruence.
      - rewrite (proj2 (nth_error_None bl i)), (proj2 (nth_error_None blocks i)) by lia. reflexivity. }
    subst blocks. destruct (effects_typed _ _ _ Hef Hty) as [HA _].
    split; [rewrite HR'; split; reflexivity|]. split; [exists bl; split; [exact HV|reflexivity]|].
    destruct (bitmap_set A HA) as (b & Hb & Hm). exists b. split; [rewrite HR', (loadGlobalIDBitmap_finalized _ _ _ _ _ _ _ _ HF Hlim); exact Hb|].
    intros id Hid. apply bool_iff. rewrite (Hm id Hid), occurs_in, all_pairs_ids by apply HV. rewrite (effects_ids_exact _ _ _ Hef Hnt). reflexivity.
  - destruct (simple_closed _ _ _ _ _ H Hs Hu Hc Hfit) as (t & now & L & off & X & HF & HL & HP).
    pose proof (NewReader_finalized _ _ _ _ _ _ _ _ HF HL) as HR'. rewrite HR in HR'. injection HR' as ->.
    pose proof (finalized_view _ _ _ _ _ _ _ _ HF HL He) as HV.
    assert (PP : Permutation (all_pairs (map snd L)) (concat (written h))).
    { unfold pblock in *. rewrite HP. clear - Hs. induction (written h) as [|b l IH]; cbn [map concat]; [constructor|].
      apply Permutation_app; [apply Permutation_sym; apply arrange_perm; exact Hs|exact IH]. }
    split; [split; reflexivity|]. split; [eexists; split; [exact HV|exact PP]|].
    destruct (bitmap_set (flat_map fst (map snd L)) (ids_u64 _ (v_good _ _ (v_indexed _ _ HV)))) as (b & Hb & Hm). exists b.
    split; [rewrite (loadGlobalIDBitmap_finalized _ _ _ _ _ _ _ _ HF HL); exact Hb|]. intros id Hid.
    apply bool_iff. rewrite (Hm id Hid), occurs_in. rewrite <- all_pairs_ids by apply HV.
    split; apply Permutation_in; apply Permutation_map; [exact PP|apply Permutation_sym; exact PP].
Qed.

(** ** The loop, newest file first *)
Fixpoint shadow (allow : option bm) (seen : list (Z * Z)) (files : list (list (Z * Z))) : list (Z * Z) :=
  match files with
  | [] => []
  | f :: older => filter (fun p => allowed allow p && negb (occurs (fst p) seen)) f ++ shadow allow (seen ++ f) older
  end.

Lemma occurs_app id a b : occurs id (a ++ b) = occurs id a || occurs id b.
Proof. apply existsb_app. Qed.
Lemma filter_perm {A} (f : A -> bool) a b : Permutation a b -> Permutation (filter f a) (filter f b).
Proof.
  induction 1; cbn [filter]; [constructor|destruct (f x); [constructor|]; assumption|destruct (f x), (f y); try constructor; reflexivity|].
  etransitivity; eassumption.
Qed.
Lemma filter_ext_in' {A} (f g : A -> bool) l : (forall x, In x l -> f x = g x) -> filter f l = filter g l.
Proof. induction l as [|x l IH]; intros H; cbn [filter]; [reflexivity|]. rewrite H by (left; reflexivity). rewrite IH by (intros; apply H; right; assumption). reflexivity. Qed.
Lemma filter_le {A} (f : A -> bool) l : zlen (filter f l) <= zlen l.
Proof. induction l as [|x l IH]; cbn [filter]; [lia|]. destruct (f x); rewrite !zlen_cons; lia. Qed.

Lemma loop_exact own opts : forall files rs0 rs deny seen vs result hp, valid hp own -> Forall2 (cached hp own) rs0 rs -> Forall2 solid rs0 files ->
  (forall id, is_u64 id -> bm_contains deny id = occurs id seen) -> aggregate_of vs result ->
  zlen vs + zlen (concat files) < two63 ->
  exists res rs' hp', multiLoop opts rs deny result hp = (Ok res, rs', hp')
    /\ aggregate_of (vs ++ map snd (shadow (mo_filter opts) seen files)) res.
Proof.
  induction files as [|f files IH]; intros rs0 rs deny seen vs result hp Hv Hc Hs Hd Ha Hlen; inversion Hs as [|r0 ? rs0' ? Hs1 Hs2]; subst;
    inversion Hc as [|? r ? rs' Hc1 Hc2]; subst; cbn [multiLoop shadow].
  { cbn [map]. rewrite app_nil_r. eauto. }
  destruct Hs1 as (Hf & (blocks & HV & HP) & b & Hb & Hm).
  set (ro := mkOpts (mo_skip opts) (mo_filter opts) (Some deny) 0).
  assert (Hagg : aggregateSequential r ro = Ok (answer r0 ro blocks)).
  { destruct Hc1 as (p & on & -> & _). change (aggregateSequential (set_cache r0 p on) ro) with (aggregateSequential r0 ro).
    apply sequential_answer; [exact HV|]. unfold uses_footer, has_filter, ro. cbn. destruct (mo_filter opts); cbn; rewrite ?andb_false_r; discriminate. }
  rewrite Hagg. pose proof (answer_aggregate r0 blocks ro (v_indexed _ _ HV)) as Hans.
  pose proof (get_cached _ _ _ _ Hv Hc1) as G. rewrite Hb in G. destruct G as (p & r' & l & G1 & G2 & G3). rewrite G1, G2.
  set (vals := map snd (filter (fun q => allowed (mo_filter opts) q && negb (occurs (fst q) seen)) f)).
  assert (Hans' : aggregate_of vals (answer r0 ro blocks)).
  { eapply aggregate_perm; [|exact Hans]. unfold chosen, vals. apply Permutation_map. etransitivity; [|apply filter_perm; exact HP].
    rewrite (filter_ext_in' _ (fun q => allowed (mo_filter opts) q && negb (occurs (fst q) seen))); [reflexivity|].
    intros q Hq. unfold passes, allowed, ro. cbn [o_filter o_deny]. f_equal. f_equal. apply Hd.
    pose proof (ids_u64 _ (v_good _ _ (v_indexed _ _ HV))) as HU. rewrite <- all_pairs_ids in HU by apply HV.
    rewrite Forall_forall in HU. apply HU. apply in_map. exact Hq. }
  cbn [concat] in Hlen. rewrite zlen_app in Hlen.
  assert (Hvl : zlen vals <= zlen f) by (unfold vals; rewrite zlen_map; apply filter_le).
  pose proof (zlen_nonneg (concat files)) as Hnn.
  destruct (IH rs0' rs' (bm_or deny b) (seen ++ f) (vs ++ vals)
              (if a_count result =? 0 then answer r0 ro blocks else mergeAggregateResults result (answer r0 ro blocks))
              (hp ++ l) (valid_extend _ l _ Hv) (all_cached_extend _ l _ _ _ Hc2) Hs2) as (res & rs2 & hp2 & E1 & E2).
  - intros id Hid. rewrite law_or by exact Hid. rewrite (Hd id Hid), (Hm id Hid), occurs_app. reflexivity.
  - apply merge_aggregate; [lia|exact Ha|exact Hans'].
  - rewrite zlen_app. lia.
  - rewrite E1. eexists res, _, hp2. split; [reflexivity|]. rewrite map_app, app_assoc. exact E2.
Qed.

Lemma occurs_concat_rev id files : occurs id (concat (rev files)) = occurs id (concat files).
Proof.
  induction files as [|f l IH]; cbn [rev concat]; [reflexivity|]. rewrite concat_app, !occurs_app. cbn [concat]. rewrite app_nil_r, IH.
  apply orb_comm.
Qed.
Lemma shadow_app allow seen l f : shadow allow seen (l ++ [f])
  = shadow allow seen l ++ filter (fun p => allowed allow p && negb (occurs (fst p) (seen ++ concat l))) f.
Proof.
  revert seen. induction l as [|g l IH]; intros seen; cbn [app shadow concat]; [rewrite !app_nil_r; reflexivity|].
  rewrite IH, <- !app_assoc. reflexivity.
Qed.
Lemma filter_filter {A} (f g : A -> bool) l : filter f (filter g l) = filter (fun x => f x && g x) l.
Proof.
  induction l as [|x l IH]; cbn [filter]; [reflexivity|]. destruct (g x); cbn [filter]; rewrite ?IH; [rewrite andb_true_r|rewrite andb_false_r]; reflexivity.
Qed.
Lemma shadow_visible allow files : Permutation (shadow allow [] (rev files)) (filter (allowed allow) (visible files)).
Proof.
  induction files as [|f newer IH]; cbn [rev visible]; [constructor|]. rewrite shadow_app, filter_app, Permutation_app_comm.
  apply Permutation_app; [|exact IH]. rewrite filter_filter. cbn [app].
  rewrite (filter_ext_in' _ (fun x => allowed allow x && negb (occurs (fst x) (concat newer)))); [reflexivity|].
  intros x _. rewrite occurs_concat_rev. reflexivity.
Qed.

Lemma zlen_concat_rev {A} (l : list (list A)) : zlen (concat (rev l)) = zlen (concat l).
Proof. induction l as [|x l IH]; cbn [rev concat]; [reflexivity|]. rewrite concat_app, !zlen_app, IH. cbn [concat]. rewrite app_nil_r. lia. Qed.

Lemma files_solid rs0 files : Forall2 file_with rs0 files -> Forall2 solid rs0 files /\ Forall fresh rs0.
Proof.
  induction 1 as [|r f rs0 files H _ [IH1 IH2]]; [split; constructor|]. apply file_solid in H.
  split; constructor; auto. apply H.
Qed.

(** C27 *)
Lemma newest_wins_inv rs0 files rs hp own opts : Forall2 file_with rs0 files -> valid hp own -> Forall2 (cached hp own) rs0 rs ->
  zlen (concat files) < two63 ->
  exists res rs' hp' new, MultiAggregate opts rs hp = (Ok res, rs', hp')
    /\ aggregate_of (map snd (filter (allowed (mo_filter opts)) (visible files))) res
    /\ hp' = hp ++ new.
Proof.
  intros HF Hv Hc Hlen. destruct (files_solid _ _ HF) as [Hsol Hfr].
  unfold MultiAggregate. destruct (zlen rs =? 0) eqn:E.
  - apply Z.eqb_eq in E. apply zlen_zero in E. subst rs. inversion Hc; subst. inversion HF; subst. cbn [visible filter map].
    exists zeroResult, [], hp, []. rewrite app_nil_r. split; [reflexivity|]. split; [|reflexivity].
    unfold aggregate_of, zeroResult. cbn. repeat split; try reflexivity; congruence.
  - destruct (loop_exact own opts (rev files) (rev rs0) (rev rs) bm_new [] [] zeroResult hp Hv (Forall2_rev' _ _ _ Hc) (Forall2_rev' _ _ _ Hsol))
      as (res & rs' & hp' & E1 & E2).
    + intros id Hid. rewrite law_new by exact Hid. reflexivity.
    + unfold aggregate_of, zeroResult. cbn. repeat split; try reflexivity; congruence.
    + rewrite zlen_concat_rev. change (zlen (@nil Z)) with 0. lia.
    + rewrite E1. destruct (loop_keeps own opts _ (rev rs0) _ _ _ _ _ _ Hv (Forall2_rev' _ _ _ Hc) E1) as (_ & l & ->).
      exists res, (rev rs'), (hp ++ l), l. split; [reflexivity|]. split; [|reflexivity].
      eapply aggregate_perm; [|exact E2]. cbn [app]. apply Permutation_map. apply shadow_visible.
Qed.

Theorem newest_wins rs0 files rs hp own opts : Forall2 file_with rs0 files -> session rs0 rs hp own ->
  zlen (concat files) < two63 ->
  exists res rs' hp' new, MultiAggregate opts rs hp = (Ok res, rs', hp')
    /\ aggregate_of (map snd (filter (allowed (mo_filter opts)) (visible files))) res
    /\ hp' = hp ++ new.
Proof.
  intros HF Hs. destruct (session_inv _ _ _ _ (proj2 (files_solid _ _ HF)) Hs) as [Hv Hc].
  apply (newest_wins_inv rs0 files rs hp own); assumption.
Qed.

Theorem always_stored_ids rs0 files rs hp own i file r :
  Forall2 file_with rs0 files -> session rs0 rs hp own -> nth_error files i = Some file -> nth_error rs i = Some r ->
  exists p r' hp' b, GetGlobalIDBitmap r hp = (Ok p, r', hp') /\ nth_error hp' p = Some b
    /\ forall id, is_u64 id -> bm_contains b id = occurs id file.
Proof.
  intros HF Hs Hf Hr. destruct (files_solid _ _ HF) as [Hsol Hfr].
  assert (E : exists r0, nth_error rs0 i = Some r0 /\ solid r0 file).
  { clear - Hsol Hf. revert i Hf. induction Hsol as [|x y l l' H _ IH]; intros [|i] Hf; try discriminate; cbn in *; [injection Hf as <-; eauto|apply IH; exact Hf]. }
  destruct E as (r0 & E0 & [F1 F2] & _ & b & Hb & Hm).
  pose proof (caching_invisible _ _ _ _ _ _ _ Hfr Hs E0 Hr) as G. unfold GetGlobalIDBitmap at 1 in G. rewrite F1, Hb in G.
  cbn [alloc length app] in G. destruct G as (b' & p & r' & hp' & G1 & G2 & G3). injection G1 as <-.
  exists p, r', hp', b. auto.
Qed.

End MultiFacts.

(** A newly opened reader has no cache. *)
Lemma opened_fresh data r : NewReader data = Ok r -> fresh r.
Proof.
  unfold NewReader, rbind. destruct (readHeader data) as [h|e|]; try discriminate.
  destruct (readFooter data h) as [[[h' meta] index]|e|]; try discriminate.
  intros H. injection H as <-. split; reflexivity.
Qed.
