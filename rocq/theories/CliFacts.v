(** Proofs about the command line. *)
From Coq Require Import Ascii String.
From Verif Require Import Machine MachineFacts Encoding Sroar FileIO FileFacts Writer Reader Aggregate Spec Cli CliSpec
  WriterFacts BlockFacts HistoryFacts ReachFacts RunFacts FinalFacts WriterProps ArbFacts AggFacts AggProps.
From Coq Require Import Lia ZifyBool.
Local Open Scope Z_scope.
Local Open Scope list_scope.
Ltac Zify.zify_post_hook ::= Z.div_mod_to_equations.

(** ** Numbers *)
Lemma number_nonneg s : Forall is_digit s -> 0 <= number s.
Proof.
  unfold number. assert (G : forall a, 0 <= a -> Forall is_digit s -> 0 <= fold_left (fun a c => 10 * a + (c - 48)) s a).
  { induction s as [|c s IH]; intros a Ha H; cbn [fold_left]; [exact Ha|]. inversion H; subst. apply IH; [|assumption]. unfold is_digit in *. lia. }
  apply G. lia.
Qed.

Lemma parseDigits_sound s : forall n z, 0 <= n < two64 -> parseDigits s n = Some z ->
  Forall is_digit s /\ z = fold_left (fun a c => 10 * a + (c - 48)) s n /\ 0 <= z < two64.
Proof.
  induction s as [|c s IH]; intros n z Hn; cbn [parseDigits fold_left]; [intros H; injection H as <-; auto|].
  destruct ((48 <=? c) && (c <=? 57)) eqn:Ec; [|discriminate].
  destruct (n >=? cutoff) eqn:En; [discriminate|]. unfold cutoff in En.
  assert (M : u64 (n * 10) = n * 10) by (unfold u64, two64 in *; lia). rewrite M.
  assert (N : u64 (n * 10 + (c - 48)) <? n * 10 = false -> u64 (n * 10 + (c - 48)) = 10 * n + (c - 48)).
  { unfold u64, two64 in *. intros. lia. }
  destruct (u64 (n * 10 + (c - 48)) <? n * 10) eqn:E1; [discriminate|]. specialize (N eq_refl).
  assert (B : 0 <= 10 * n + (c - 48) < two64) by (rewrite <- N; unfold u64, two64; lia). rewrite N. intros H.
  destruct (IH _ _ B H) as (H1 & H2 & H3).
  split; [|auto]. constructor; [unfold is_digit; lia|exact H1].
Qed.
Lemma fold_ge s : forall a, 0 <= a -> Forall is_digit s -> a <= fold_left (fun a c => 10 * a + (c - 48)) s a.
Proof.
  induction s as [|c s IH]; intros a Ha H; cbn [fold_left]; [lia|]. inversion H; subst. unfold is_digit in *.
  specialize (IH (10 * a + (c - 48)) ltac:(lia) ltac:(assumption)). lia.
Qed.
Lemma parseDigits_complete s : forall n, 0 <= n -> Forall is_digit s ->
  fold_left (fun a c => 10 * a + (c - 48)) s n < two64 -> parseDigits s n = Some (fold_left (fun a c => 10 * a + (c - 48)) s n).
Proof.
  induction s as [|c s IH]; intros n Hn H HL; cbn [parseDigits fold_left] in *; [reflexivity|].
  inversion H as [|? ? Hc Hs]; subst. unfold is_digit in Hc.
  pose proof (fold_ge s (10 * n + (c - 48)) ltac:(lia) Hs) as G.
  replace ((48 <=? c) && (c <=? 57)) with true by lia. unfold cutoff, two64 in *.
  replace (n >=? (18446744073709551616 - 1) / 10 + 1) with false by lia.
  unfold u64, two64. rewrite (Z.mod_small (n * 10)) by lia. rewrite Z.mod_small by lia.
  replace (n * 10 + (c - 48) <? n * 10) with false by lia. replace (n * 10 + (c - 48)) with (10 * n + (c - 48)) by ring.
  apply IH; [lia|exact Hs|exact HL].
Qed.

Lemma ParseUint_spec s z : ParseUint s = Some z <-> unsigned s z.
Proof.
  unfold ParseUint, unsigned, numeral, number. destruct s as [|c s].
  - split; [discriminate|]. intros ((H & _) & _). congruence.
  - split.
    + intros H. apply parseDigits_sound in H; [|unfold two64; lia]. destruct H as (H1 & -> & H3). repeat split; try tauto; try discriminate; unfold is_u64, two64 in *; lia.
    + intros ((_ & H1) & <- & H2). apply parseDigits_complete; [lia|exact H1|unfold is_u64, two64 in *; lia].
Qed.
Lemma i64_min_neg : i64 (- i64 two63) = - two63. Proof. reflexivity. Qed.
Lemma ParseInt_spec s z : ParseInt s = Some z <-> signed s z.
Proof.
  unfold ParseInt, signed. destruct s as [|c s].
  - split; [discriminate|]. intros (_ & d & (H & _) & [[<- _]|[[E _]|[E _]]]); congruence.
  - set (nd := if c =? 45 then (true, s) else if c =? 43 then (false, s) else (false, c :: s)).
    assert (V : forall un, is_u64 un -> (if negb false && (un >=? two63) then None else if false && (un >? two63) then None else Some (i64 un)) = if un <? two63 then Some un else None).
    { intros un Hu. cbn [negb andb]. unfold is_u64, two64 in *. destruct (un >=? two63) eqn:E1; destruct (un <? two63) eqn:E2; try lia; try reflexivity.
      rewrite i64_id by (unfold is_i64, two63 in *; lia). reflexivity. }
    assert (W : forall un, is_u64 un -> (if negb true && (un >=? two63) then None else if true && (un >? two63) then None else Some (i64 (- i64 un))) = if un <=? two63 then Some (- un) else None).
    { intros un Hu. cbn [negb andb]. unfold is_u64, two64 in *. destruct (un >? two63) eqn:E1; destruct (un <=? two63) eqn:E2; try lia; try reflexivity.
      destruct (Z.eq_dec un two63) as [->|N]; [reflexivity|]. rewrite (i64_id un) by (unfold is_i64, two63 in *; lia). rewrite i64_id by (unfold is_i64, two63 in *; lia). reflexivity. }
    assert (P : forall d un, ParseUint d = Some un -> is_u64 un /\ numeral d /\ number d = un).
    { intros d un H. apply ParseUint_spec in H. destruct H as (? & ? & ?). auto. }
    assert (Q : forall d, numeral d -> number d < two64 -> ParseUint d = Some (number d)).
    { intros d H L. apply ParseUint_spec. repeat split; try apply H. - apply number_nonneg, H. - exact L. }
    split.
    + destruct nd as [neg d] eqn:End. destruct (ParseUint d) as [un|] eqn:Ep; [|discriminate].
      destruct (P _ _ Ep) as (Hu & Hd & Hn). subst nd.
      destruct neg.
      * rewrite W by exact Hu. destruct (un <=? two63) eqn:E; [|discriminate]. intros H; injection H as <-.
        destruct (c =? 45) eqn:Ec; [|destruct (c =? 43); discriminate]. injection End as <-. assert (c = 45) by lia. subst c.
        split; [unfold is_i64, is_u64, two63, two64 in *; lia|]. exists s. split; [exact Hd|]. right; right. rewrite Hn. auto.
      * rewrite V by exact Hu. destruct (un <? two63) eqn:E; [|discriminate]. intros H; injection H as <-.
        split; [unfold is_i64, is_u64, two63, two64 in *; lia|]. exists d. split; [exact Hd|].
        destruct (c =? 45) eqn:Ec; [discriminate|]. destruct (c =? 43) eqn:Ec'; injection End as <-; [|left; auto].
        assert (c = 43) by lia. subst c. right; left. auto.
    + intros (Hz & d & Hd & K). pose proof (number_nonneg d (proj2 Hd)) as Hnn.
      assert (Ep : ParseUint d = Some (number d)) by (apply Q; [exact Hd|]; unfold is_i64, two63, two64 in *; destruct K as [[_ ->]|[[_ ->]|[_ ->]]]; lia).
      destruct (P _ _ Ep) as (Hu & _).
      destruct K as [[E ->]|[[E ->]|[E ->]]].
      * assert (Ec : is_digit c) by (destruct Hd as [_ Hd]; rewrite <- E in Hd; inversion Hd; assumption).
        unfold is_digit in Ec. replace nd with (false, d) by (unfold nd; replace (c =? 45) with false by lia; replace (c =? 43) with false by lia; rewrite E; reflexivity).
        rewrite Ep, V by exact Hu. unfold is_i64 in Hz. destruct (number d <? two63) eqn:El; [reflexivity|lia].
      * injection E as -> ->. unfold nd. cbn [Z.eqb Pos.eqb]. rewrite Ep, V by exact Hu. unfold is_i64 in Hz. destruct (number d <? two63) eqn:El; [reflexivity|lia].
      * injection E as -> ->. unfold nd. cbn [Z.eqb Pos.eqb]. rewrite Ep, W by exact Hu. unfold is_i64 in Hz. destruct (number d <=? two63) eqn:El; [reflexivity|lia].
Qed.

(** ** Fields *)
Lemma splitComma_ne s : splitComma s <> [].
Proof. destruct s as [|c s]; cbn; [discriminate|]. destruct (c =? 44); [discriminate|]. destruct (splitComma s); discriminate. Qed.
Lemma join_split s : join (splitComma s) = s.
Proof.
  induction s as [|c s IH]; [reflexivity|]. cbn [splitComma]. pose proof (splitComma_ne s) as N.
  destruct (c =? 44) eqn:E.
  - assert (c = 44) by lia. subst c. destruct (splitComma s) as [|x xs]; [congruence|]. cbn [join app] in *. f_equal. exact IH.
  - destruct (splitComma s) as [|x xs]; [congruence|]. rewrite <- IH. destruct xs; reflexivity.
Qed.
Definition plain (s : list Z) : Prop := Forall (fun c => c <> 44) s.
Lemma split_plain s : plain s -> splitComma s = [s].
Proof.
  induction 1 as [|c s Hc Hs IH]; [reflexivity|]. cbn [splitComma]. replace (c =? 44) with false by lia. rewrite IH. reflexivity.
Qed.
Lemma split_app s t : plain s -> splitComma (s ++ 44 :: t) = s :: splitComma t.
Proof.
  induction 1 as [|c s Hc Hs IH]; [reflexivity|]. cbn [splitComma app]. replace (c =? 44) with false by lia. rewrite IH. reflexivity.
Qed.
Lemma split_join fields : fields <> [] -> Forall plain fields -> splitComma (join fields) = fields.
Proof.
  intros N H. induction H as [|s fs Hs Hf IH]; [congruence|]. destruct fs as [|s' fs]; [apply split_plain, Hs|].
  change (join (s :: s' :: fs)) with (s ++ 44 :: join (s' :: fs)). rewrite split_app by exact Hs. f_equal. apply IH. discriminate.
Qed.

(** ** White space *)
Lemma isSpace_spec c : isSpace c = true <-> is_space c.
Proof. unfold isSpace, is_space. lia. Qed.
Lemma trimLeft_split s : exists b, s = b ++ trimLeft s /\ Forall is_space b.
Proof.
  induction s as [|c s (b & E & H)]; [exists []; auto|]. cbn [trimLeft]. destruct (isSpace c) eqn:Ec.
  - exists (c :: b). split; [cbn; congruence|]. constructor; [apply isSpace_spec, Ec|exact H].
  - exists []. auto.
Qed.
Lemma trimLeft_app b s : Forall is_space b -> trimLeft (b ++ s) = trimLeft s.
Proof. induction 1 as [|c b Hc Hb IH]; [reflexivity|]. cbn. apply isSpace_spec in Hc. rewrite Hc. exact IH. Qed.
Lemma trimLeft_id s : hd 0 s <> 32 -> ~ (9 <= hd 0 s <= 13) -> trimLeft s = s.
Proof. destruct s as [|c s]; [reflexivity|]. cbn. intros. unfold isSpace. replace (((9 <=? c) && (c <=? 13)) || (c =? 32)) with false by lia. reflexivity. Qed.
Definition visible (s : list Z) : Prop := Forall (fun c => ~ is_space c) s.
Lemma trimLeft_visible s t : s <> [] -> visible s -> trimLeft (s ++ t) = s ++ t.
Proof.
  intros N H. destruct s as [|c s]; [congruence|]. inversion H; subst. cbn.
  destruct (isSpace c) eqn:E; [|reflexivity]. apply isSpace_spec in E. contradiction.
Qed.
Lemma trimSpace_padded b s a : Forall is_space b -> Forall is_space a -> s <> [] -> visible s -> trimSpace (b ++ s ++ a) = s.
Proof.
  intros Hb Ha N H. unfold trimSpace. rewrite trimLeft_app by exact Hb. rewrite trimLeft_visible by assumption.
  rewrite rev_app_distr, trimLeft_app by (apply Forall_rev, Ha). rewrite <- (app_nil_r (rev s)), trimLeft_visible.
  - rewrite app_nil_r. apply rev_involutive.
  - intros E. apply N. rewrite <- (rev_involutive s), E. reflexivity.
  - apply Forall_rev, H.
Qed.
Lemma trimSpace_split s : exists b a, s = b ++ trimSpace s ++ a /\ Forall is_space b /\ Forall is_space a.
Proof.
  unfold trimSpace. destruct (trimLeft_split s) as (b & E & Hb). destruct (trimLeft_split (rev (trimLeft s))) as (a & E' & Ha).
  exists b, (rev a). split; [|split; [exact Hb|apply Forall_rev, Ha]].
  rewrite <- rev_app_distr, <- E', rev_involutive. exact E.
Qed.

(** ** Lists of numbers *)
Definition clean (denotes : list Z -> Z -> Prop) : Prop := forall s z, denotes s z -> s <> [] /\ plain s /\ visible s.
Lemma digits_clean d : Forall is_digit d -> plain d /\ visible d.
Proof.
  intros H. split; (eapply Forall_impl; [|exact H]); unfold is_digit, is_space; intros; lia.
Qed.
Lemma unsigned_clean : clean unsigned.
Proof. intros s z ((N & H) & _). split; [exact N|apply digits_clean, H]. Qed.
Lemma signed_clean : clean signed.
Proof.
  intros s z (_ & d & (N & H) & K). apply digits_clean in H. destruct H as [P V].
  destruct K as [[-> _]|[[-> _]|[-> _]]]; [auto| |]; (split; [discriminate|]); split; constructor; try assumption; unfold is_space; lia.
Qed.
Lemma space_plain b : Forall is_space b -> plain b.
Proof. intros H. eapply Forall_impl; [|exact H]. unfold is_space. intros. lia. Qed.

Lemma parseAll_spec parse denotes fields : (forall s z, parse s = Some z <-> denotes s z) -> clean denotes ->
  forall zs, parseAll parse fields = Some zs <-> Forall2 (padded denotes) fields zs.
Proof.
  intros Hp Hc. induction fields as [|s fs IH]; intros zs; cbn [parseAll].
  - split; [intros H; injection H as <-; constructor|intros H; inversion H; reflexivity].
  - split.
    + destruct (parse (trimSpace s)) as [x|] eqn:Ex; [|discriminate]. destruct (parseAll parse fs) as [xs|] eqn:Exs; [|discriminate].
      intros H; injection H as <-. constructor; [|apply IH; reflexivity].
      apply Hp in Ex. destruct (trimSpace_split s) as (b & a & E & Hb & Ha). exists b, (trimSpace s), a. auto.
    + intros H. inversion H as [|? x ? xs Hx Hxs]; subst. destruct Hx as (b & d & a & -> & Hb & Ha & Hd).
      destruct (Hc _ _ Hd) as (N & _ & V). rewrite trimSpace_padded by assumption.
      apply Hp in Hd. rewrite Hd. apply IH in Hxs. rewrite Hxs. reflexivity.
Qed.
Lemma parse_list parse denotes t : (forall s z, parse s = Some z <-> denotes s z) -> clean denotes ->
  forall zs, parseAll parse (splitComma t) = Some zs <-> comma_list denotes t zs.
Proof.
  intros Hp Hc zs. rewrite (parseAll_spec parse denotes _ Hp Hc). split.
  - intros H. exists (splitComma t). split; [apply splitComma_ne|]. split; [symmetry; apply join_split|exact H].
  - intros (fs & N & -> & H). rewrite split_join; [exact H|exact N|].
    clear N. induction H as [|s z fs zs (b & d & a & -> & Hb & Ha & Hd) _ IH]; constructor; [|exact IH].
    apply Forall_app. split; [apply space_plain, Hb|]. apply Forall_app. split; [apply (Hc _ _ Hd)|apply space_plain, Ha].
Qed.
Lemma Forall2_len {A B} (R : A -> B -> Prop) l m : Forall2 R l m -> zlen l = zlen m.
Proof. unfold zlen. induction 1; cbn; lia. Qed.
Lemma parse_list_len parse denotes t zs : (forall s z, parse s = Some z <-> denotes s z) -> clean denotes ->
  parseAll parse (splitComma t) = Some zs -> zlen zs = zlen (splitComma t) /\ zs <> [].
Proof.
  intros Hp Hc H. apply (parseAll_spec parse denotes _ Hp Hc) in H. split; [symmetry; eapply Forall2_len, H|].
  intros ->. inversion H as [E|]. apply (splitComma_ne t). symmetry. exact E.
Qed.
Lemma comma_list_ne denotes t zs : clean denotes -> comma_list denotes t zs -> t <> [].
Proof.
  intros Hc (fs & N & E & H). destruct H as [|s z fs zs (b & d & a & E' & _ & _ & Hd) H]; [congruence|].
  destruct (Hc _ _ Hd) as (Nd & _). destruct d as [|x d]; [congruence|]. intros ->.
  assert (K : s <> []) by (subst s; destruct b; discriminate). destruct s; [congruence|]. destruct fs; discriminate.
Qed.

(** ** Printing *)
Lemma fold_digits : forall fuel z acc, 0 <= z < 10 ^ Z.of_nat fuel -> (0 < fuel)%nat ->
  exists d, digits fuel z acc = d ++ acc /\ numeral d /\ number d = z /\ (hd 0 d = 48 -> d = [48]).
Proof.
  induction fuel as [|fuel IH]; intros z acc Hz Hf; [lia|]. cbn [digits].
  rewrite Nat2Z.inj_succ, Z.pow_succ_r in Hz by lia.
  destruct (z / 10 =? 0) eqn:E.
  - exists [48 + z mod 10]. split; [reflexivity|]. split; [split; [discriminate|constructor; [unfold is_digit; lia|constructor]]|].
    split; [unfold number; cbn [fold_left]; lia|]. cbn. intros ->. reflexivity.
  - destruct (IH (z / 10) ((48 + z mod 10) :: acc)) as (d & Hd & [Hn Hd1] & Hd2 & Hd3).
    + lia.
    + destruct fuel; [cbn in Hz; lia|lia].
    + exists (d ++ [48 + z mod 10]). split; [rewrite Hd, <- app_assoc; reflexivity|].
      split; [split; [destruct d; discriminate|apply Forall_app; split; [exact Hd1|constructor; [unfold is_digit; lia|constructor]]]|].
      split.
      * unfold number in *. rewrite fold_left_app, Hd2. cbn [fold_left]. lia.
      * destruct d as [|c d]; [congruence|]. cbn [hd app]. intros H48. specialize (Hd3 H48). injection Hd3 as -> ->.
        exfalso. unfold number in Hd2. cbn in Hd2. lia.
Qed.
Lemma decimal_canonical z : - two64 < z < two64 -> canonical_decimal (decimal z) z.
Proof.
  intros Hz. unfold decimal, canonical_decimal. destruct (z <? 0) eqn:E.
  - destruct (fold_digits 20 (- z) []) as (d & -> & N & V & H); [unfold two64 in *; change (10 ^ Z.of_nat 20) with 100000000000000000000; lia|lia|].
    rewrite app_nil_r. right. split; [lia|]. exists d. split; [reflexivity|]. split; [exact N|]. split; [exact V|].
    intros H48. rewrite (H H48) in V. unfold number in V. cbn in V. lia.
  - destruct (fold_digits 20 z []) as (d & -> & N & V & H); [unfold two64 in *; change (10 ^ Z.of_nat 20) with 100000000000000000000; lia|lia|].
    rewrite app_nil_r. left. split; [lia|]. auto.
Qed.
Lemma canonical_signed s z : is_i64 z -> canonical_decimal s z -> signed s z.
Proof.
  intros Hz [(H0 & N & V & _)|(H0 & d & -> & N & V & _)]; split; try exact Hz.
  - exists s. split; [exact N|]. left. auto.
  - exists d. split; [exact N|]. right; right. split; [reflexivity|lia].
Qed.
Lemma canonical_unsigned s z : is_u64 z -> canonical_decimal s z -> unsigned s z.
Proof.
  intros Hz [(H0 & N & V & _)|(H0 & _)]; [|unfold is_u64 in Hz; lia]. split; [exact N|]. auto.
Qed.

Lemma printPairs_spec ids : forall vals, Forall is_u64 ids -> Forall is_i64 vals -> zlen ids = zlen vals ->
  exists l, printPairs ids vals = Ok l /\ listing (combine ids vals) l.
Proof.
  induction ids as [|i ids IH]; intros vals Hi Hv Hl; destruct vals as [|v vals]; try (unfold zlen in Hl; cbn in Hl; lia).
  - exists []. split; [reflexivity|constructor].
  - inversion Hi; inversion Hv; subst. destruct (IH vals) as (l & E & HL); try assumption; [unfold zlen in *; cbn in *; lia|].
    cbn [printPairs rbind]. rewrite E. cbn [rbind]. eexists. split; [reflexivity|]. cbn [combine].
    constructor; [apply decimal_canonical; unfold is_u64, two64 in *; lia|apply decimal_canonical; unfold is_i64, two63, two64 in *; lia|exact HL].
Qed.
Lemma listing_app p l q m : listing p l -> listing q m -> listing (p ++ q) (l ++ m).
Proof.
  intros H. induction H as [|id v rest s t u Hs Ht _ IH]; intros Hq; [exact Hq|]. specialize (IH Hq).
  replace ((s ++ [9] ++ t ++ [10] ++ u) ++ m) with (s ++ [9] ++ t ++ [10] ++ (u ++ m)) by (rewrite !app_assoc; reflexivity).
  cbn [app]. constructor; assumption.
Qed.
(** ** The read command *)
Section Commands.
Context {Srr : Sroar}.

Lemma zseq_cons n : 0 < n -> zseq n = 0 :: map (fun i => 1 + i) (zseq (n - 1)).
Proof.
  intros H. unfold zseq. replace (Z.to_nat n) with (S (Z.to_nat (n - 1))) by lia. cbn [seq map]. f_equal.
  rewrite <- seq_shift, !map_map. apply map_ext. intros. lia.
Qed.
Lemma dumpBlocks_spec r blocks : forall k, 0 <= k -> Forall good_block blocks ->
  (forall i, 0 <= i < zlen blocks -> GetPairs r (k + i) = match nth_error blocks (Z.to_nat i) with Some b => Ok b | None => Err ErrIndex end) ->
  exists l, dumpBlocks r (map (fun i => k + i) (zseq (zlen blocks))) = Ok l /\ listing (all_pairs blocks) l.
Proof.
  induction blocks as [|b bs IH]; intros k Hk Hg HP.
  - exists []. split; [reflexivity|constructor].
  - inversion Hg as [|? ? Hb Hbs]; subst. pose proof (zlen_nonneg bs) as Hn. rewrite zseq_cons by (rewrite zlen_cons; lia).
    cbn [map dumpBlocks]. rewrite HP by (rewrite zlen_cons; lia). cbn [Z.to_nat nth_error]. destruct b as [ids vals].
    destruct Hb as (Hi & Hv & Hl & _). cbn [fst snd rbind] in *.
    destruct (printPairs_spec ids vals Hi Hv Hl) as (l & -> & HL). cbn [rbind].
    rewrite map_map, zlen_cons. replace (1 + zlen bs - 1) with (zlen bs) by lia.
    destruct (IH (k + 1) ltac:(lia) Hbs) as (m & Em & HM).
    { intros i Hi'. specialize (HP (1 + i) ltac:(rewrite zlen_cons; lia)). replace (k + 1 + i) with (k + (1 + i)) by ring. rewrite HP.
      replace (Z.to_nat (1 + i)) with (S (Z.to_nat i)) by lia. reflexivity. }
    rewrite (map_ext _ (fun i => k + 1 + i)) by (intros; ring). rewrite Em. cbn [rbind].
    exists (l ++ m). split; [reflexivity|]. cbn [all_pairs flat_map]. apply listing_app; [exact HL|exact HM].
Qed.

Theorem read_dump options faults h now w fmt2f help name :
  finished_run options faults h now w -> faithful (encoding_of options) ->
  exists blocks out, stored h blocks
    /\ runRead fmt2f help name (bytes_of w) true false = Exited out
    /\ dump_of name (zlen blocks) (all_pairs blocks) out.
Proof.
  intros H He. destruct (finished_indexed options faults h now w H) as (r & blocks & HR & Hs & HI & HV).
  destruct (HV He) as [V _]. exists blocks. pose proof (v_count _ _ HI) as HC. pose proof (v_small _ _ HI) as HS. pose proof (zlen_nonneg blocks) as Hn.
  destruct (metadata _ _ _ _ _ H) as (r' & HR' & Hver & _). rewrite HR in HR'. injection HR' as <-.
  destruct (dumpBlocks_spec r blocks 0 ltac:(lia) (v_good _ _ HI)) as (l & El & HL).
  { intros i Hi. rewrite Z.add_0_l. apply (v_pairs _ _ V). unfold is_u64, two32, two64 in *. lia. }
  rewrite (map_ext _ (fun i => i)), map_id in El by (intros; apply Z.add_0_l).
  eexists. split; [exact Hs|]. unfold runRead. rewrite HR. cbn [rbind]. rewrite HC, Hver.
  replace (u32 (zlen blocks)) with (zlen blocks) by (unfold u32, two32 in *; lia). rewrite El. cbn [rbind negb andb].
  split; [reflexivity|]. exists (decimal (zlen blocks)), l. split; [apply decimal_canonical; unfold two32, two64 in *; lia|]. split; [exact HL|].
  unfold header_of. rewrite !app_nil_r. change (decimal 1) with [49]. change (text "Version: 1") with (text "Version: " ++ [49]).
  repeat rewrite <- app_assoc. reflexivity.
Qed.

Theorem read_statistics options faults h now w fmt2f help name :
  finished_run options faults h now w ->
  exists blocks, stored h blocks
    /\ (Forall no_min_stat blocks ->
        exists res out, aggregate_of (map snd (all_pairs blocks)) res
          /\ runRead fmt2f help name (bytes_of w) false true = Exited out
          /\ statistics_of name (zlen blocks) res (fmt2f (a_avg res)) out).
Proof.
  intros H. destruct (finished_indexed options faults h now w H) as (r & blocks & HR & Hs & HI & _).
  exists blocks. pose proof (v_count _ _ HI) as HC. pose proof (v_small _ _ HI) as HS. pose proof (zlen_nonneg blocks) as Hn.
  destruct (metadata _ _ _ _ _ H) as (r' & HR' & Hver & _). rewrite HR in HR'. injection HR' as <-.
  split; [exact Hs|]. intros Hm.
  assert (X : exists res, Aggregate r = Ok res /\ aggregate_of (map snd (all_pairs blocks)) res
     /\ is_i64 (a_count res) /\ is_i64 (a_min res) /\ is_i64 (a_max res) /\ is_i64 (a_sum res)).
  { rewrite all_pairs_snd by apply HI.
    assert (K : Forall is_i64 (flat_map snd blocks) /\ zlen (flat_map snd blocks) < two63).
    { rewrite <- chosen_none by apply HI. split; [apply chosen_i64|apply chosen_length]; apply HI. }
    destruct K as [K1 K2].
    exists (result_of (acc_of (flat_map snd blocks))). split; [|split].
    - unfold Aggregate, aggregateSequential. cbn [has_filter DefaultAggregateOptions o_filter o_deny o_skip negb].
      rewrite andb_true_r. destruct (zlen (r_index r) >? 0) eqn:E.
      + rewrite (footer_result r blocks HI Hm). reflexivity.
      + pose proof (index_length r blocks HI) as HL. assert (blocks = []) as ->.
        { destruct blocks; [reflexivity|]. rewrite zlen_cons in *. pose proof (zlen_nonneg blocks). lia. }
        rewrite HC. reflexivity.
    - apply result_aggregate; assumption.
    - pose proof (acc_of_ok _ K2) as (A1 & A2 & A3 & A4 & _). revert A1 A2 A3 A4.
      unfold result_of. set (a := acc_of _). assert (Hc : c_count a <= zlen (flat_map snd blocks)).
      { unfold a, acc_of. cbn [c_count]. pose proof (zlen_nonneg (flat_map snd blocks)). rewrite i64_id by (unfold is_i64, two63 in *; lia). lia. }
      assert (Hmn : is_i64 (c_min a) /\ is_i64 (c_max a)).
      { unfold a, acc_of. cbn [c_min c_max]. clear - K1. induction K1 as [|v l Hv _ [IH1 IH2]].
        - cbn. unfold is_i64, two63, max_int64, min_int64. lia.
        - unfold lmin, lmax in *. cbn [fold_right]. unfold is_i64 in *. lia. }
      destruct Hmn as [M1 M2]. cbn [a_count a_min a_max a_sum]. intros A1 A2 _ _. split; [unfold is_i64, two63 in *; lia|]. tauto. }
  destruct X as (res & Er & Ha & R1 & R2 & R3 & R4). eexists res, _. split; [exact Ha|].
  unfold runRead. rewrite HR. cbn [rbind]. rewrite HC, Hver, Er. cbn [rbind negb andb].
  split; [reflexivity|]. exists (decimal (zlen blocks)), (decimal (a_count res)), (decimal (a_min res)), (decimal (a_max res)), (decimal (a_sum res)).
  unfold is_i64 in *. do 5 (split; [apply decimal_canonical; unfold two32, two63, two64 in *; lia|]).
  unfold header_of. rewrite !app_nil_r. change (decimal 1) with [49]. change (text "Version: 1") with (text "Version: " ++ [49]).
  repeat rewrite <- app_assoc. reflexivity.
Qed.
(** ** The write command *)

Lemma comma_list_typed (denotes : list Z -> Z -> Prop) (P : Z -> Prop) t zs : (forall s z, denotes s z -> P z) -> comma_list denotes t zs -> Forall P zs.
Proof.
  intros Hd (fs & _ & _ & H). induction H as [|s z fs zs (b & d & a & _ & _ & _ & K) _ IH]; constructor; [eapply Hd, K|exact IH].
Qed.

(** The commands as a function of what was parsed. *)
Definition write_pairs now0 now (faults : list fault) (outputFile ids values : list Z) : exit * option file :=
  match NewWriter now0 [] faults with
  | (Err _, f) => (Failed, Some f)
  | (Panic, f) => (Crashed, Some f)
  | (Ok w, _) =>
      match WriteBlock ids values w with
      | (Err _, w1) => (Failed, Some (w_file (snd (Close w1))))
      | (Panic, w1) => (Crashed, Some (w_file w1))
      | (Ok _, w1) =>
          match FinalizeAndClose now w1 with
          | (Err _, w2) => (Failed, Some (w_file w2))
          | (Panic, w2) => (Crashed, Some (w_file w2))
          | (Ok _, w2) =>
              (Exited (text "Wrote file with " ++ decimal (zlen ids) ++ text " entries to " ++ outputFile ++ [10]),
               Some (w_file w2))
          end
      end
  end.
Lemma runWrite_good now0 now faults name idsStr valuesStr ids vals : pairs_given idsStr valuesStr ids vals ->
  runWrite now0 now faults name idsStr valuesStr = write_pairs now0 now faults name ids vals.
Proof.
  intros (H1 & H2 & Hl). pose proof (comma_list_ne _ _ _ unsigned_clean H1) as N1. pose proof (comma_list_ne _ _ _ signed_clean H2) as N2.
  unfold runWrite. destruct idsStr as [|c1 s1]; [congruence|]. destruct valuesStr as [|c2 s2]; [congruence|].
  apply (parse_list ParseUint _ _ ParseUint_spec unsigned_clean) in H1. apply (parse_list ParseInt _ _ ParseInt_spec signed_clean) in H2.
  destruct (parse_list_len _ _ _ _ ParseUint_spec unsigned_clean H1) as [L1 _].
  destruct (parse_list_len _ _ _ _ ParseInt_spec signed_clean H2) as [L2 _].
  replace (zlen (splitComma (c1 :: s1)) =? zlen (splitComma (c2 :: s2))) with true by lia. cbn [negb]. rewrite H1, H2. reflexivity.
Qed.
Lemma runWrite_bad now0 now faults name idsStr valuesStr :
  (forall ids vals, ~ pairs_given idsStr valuesStr ids vals) ->
  runWrite now0 now faults name idsStr valuesStr = (Failed, None).
Proof.
  intros H. unfold runWrite. destruct idsStr as [|c1 s1]; [reflexivity|]. destruct valuesStr as [|c2 s2]; [reflexivity|].
  destruct (zlen (splitComma (c1 :: s1)) =? zlen (splitComma (c2 :: s2))) eqn:El; [|reflexivity]. cbn [negb].
  destruct (parseAll ParseUint (splitComma (c1 :: s1))) as [ids|] eqn:E1; [|reflexivity].
  destruct (parseAll ParseInt (splitComma (c2 :: s2))) as [vals|] eqn:E2; [|reflexivity]. exfalso. apply (H ids vals).
  destruct (parse_list_len _ _ _ _ ParseUint_spec unsigned_clean E1) as [L1 _].
  destruct (parse_list_len _ _ _ _ ParseInt_spec signed_clean E2) as [L2 _].
  apply (parse_list ParseUint _ _ ParseUint_spec unsigned_clean) in E1. apply (parse_list ParseInt _ _ ParseInt_spec signed_clean) in E2.
  split; [exact E1|]. split; [exact E2|lia].
Qed.
Lemma pairs_given_or idsStr valuesStr : (exists ids vals, pairs_given idsStr valuesStr ids vals)
  \/ (forall ids vals, ~ pairs_given idsStr valuesStr ids vals).
Proof.
  destruct (parseAll ParseUint (splitComma idsStr)) as [ids|] eqn:E1.
  2:{ right. intros ids vals (H & _). apply (parse_list ParseUint _ _ ParseUint_spec unsigned_clean) in H. congruence. }
  destruct (parseAll ParseInt (splitComma valuesStr)) as [vals|] eqn:E2.
  2:{ right. intros ids' vals (_ & H & _). apply (parse_list ParseInt _ _ ParseInt_spec signed_clean) in H. congruence. }
  destruct (Z.eq_dec (zlen ids) (zlen vals)) as [El|El].
  - left. exists ids, vals. apply (parse_list ParseUint _ _ ParseUint_spec unsigned_clean) in E1.
    apply (parse_list ParseInt _ _ ParseInt_spec signed_clean) in E2. split; [exact E1|]. split; assumption.
  - right. intros ids' vals' (H1 & H2 & H3). apply (parse_list ParseUint _ _ ParseUint_spec unsigned_clean) in H1.
    apply (parse_list ParseInt _ _ ParseInt_spec signed_clean) in H2. congruence.
Qed.
Lemma pairs_given_typed idsStr valuesStr ids vals : pairs_given idsStr valuesStr ids vals ->
  zlen ids <= max_items -> typed_block ids vals /\ ids <> [].
Proof.
  intros (H1 & H2 & Hl) L1. split; [|apply (parse_list ParseUint _ _ ParseUint_spec unsigned_clean) in H1;
    exact (proj2 (parse_list_len _ _ _ _ ParseUint_spec unsigned_clean H1))].
  split; [eapply comma_list_typed; [|exact H1]; intros s z K; apply K|].
  split; [eapply comma_list_typed; [|exact H2]; intros s z K; apply K|]. lia.
Qed.

Theorem write_reads_back now0 now faults name idsStr valuesStr out f fmt2f help :
  runWrite now0 now faults name idsStr valuesStr = (Exited out, Some f) ->
  exists ids vals, pairs_given idsStr valuesStr ids vals
    /\ (zlen ids <= max_items -> zlen (f_data f) < two63 -> zlen (bm_ser (fold_left bm_set ids bm_new)) < two32 ->
        (exists n, canonical_decimal n (zlen ids) /\ out = text "Wrote file with " ++ n ++ text " entries to " ++ name ++ [10])
        /\ exists dump, runRead fmt2f help name (f_data f) true false = Exited dump
             /\ dump_of name 1 (combine ids vals) dump).
Proof.
  intros H. destruct (pairs_given_or idsStr valuesStr) as [(ids & vals & Hp)|Hn].
  2:{ rewrite runWrite_bad in H by exact Hn. discriminate. }
  exists ids, vals. split; [exact Hp|]. intros Hi Hf Hb. destruct (pairs_given_typed _ _ _ _ Hp Hi) as [Ht Hne].
  rewrite (runWrite_good _ _ _ _ _ _ _ _ Hp) in H. unfold write_pairs in H.
  destruct (NewWriter now0 [] faults) as [[w0|er|] f0] eqn:Hnew; try discriminate.
  destruct (WriteBlock ids vals w0) as [[[]|er|] w1] eqn:Hw; try discriminate.
  destruct (FinalizeAndClose now w1) as [[[]|er|] w2] eqn:Hfin; try discriminate. injection H as <- <-.
  assert (Hrun : run_calls [CWriteBlock ids vals] w0 = ([Ok 0], w1)).
  { cbn [run_calls run_call]. unfold mbind, mret. rewrite Hw. reflexivity. }
  assert (Hlast : run_call (CFinalizeAndClose now) w1 = (Ok 0, w2)) by (cbn [run_call]; unfold mbind, mret; rewrite Hfin; reflexivity).
  assert (Hty : Forall typed_call [CWriteBlock ids vals]) by (constructor; [exact Ht|constructor]).
  assert (Hok : finalizes_ok [CWriteBlock ids vals] w0) by (split; [discriminate|exact I]).
  destruct (history_finalized False now0 [] faults w0 f0 _ _ w1 _ now 0 w2 Hnew Hty ltac:(tauto) Hrun Hok (or_intror eq_refl) Hlast)
    as (bs & A & He & _ & Hcnt & Hids).
  assert (bs = [(ids, vals)] /\ A = ids) as [-> ->].
  { cbn [combine] in He. inversion He as [|? ? ? ? ? ? ? He1 He2]; subst. inversion He2; subst. inversion He1; subst; cbn [app]; rewrite ?app_nil_r; auto.
    match goal with H : context[CWriteBlock] |- _ => exfalso; eapply H; reflexivity end || congruence. }
  assert (HF : finished_run [] faults [(CWriteBlock ids vals, Ok 0)] now w2).
  { eapply finished with (cs := [CWriteBlock ids vals]) (outs := [Ok 0]) (fin := CFinalizeAndClose now);
      [exact Hnew|constructor|exact Hty|exact Hrun|reflexivity|exact Hok|right; reflexivity|exact Hlast|].
    constructor; [exact Hf|rewrite Hcnt; cbn; unfold two32; lia|rewrite Hids; exact Hb]. }
  split.
  { exists (decimal (zlen ids)). split; [|reflexivity]. pose proof (zlen_nonneg ids). apply decimal_canonical. unfold max_items, two64 in *. lia. }
  destruct (read_dump _ _ _ _ _ fmt2f help name HF) as (blocks & dump & Hs & Hd & HD); [left; reflexivity|].
  assert (blocks = [(ids, vals)]) as ->.
  { inversion Hs as [|? ? ? b1 b2 S1 S2]; subst. inversion S2; subst. inversion S1; subst; [reflexivity|]. match goal with H : forall ids vals, _ |- _ => exfalso; eapply H; reflexivity end || congruence. }
  exists dump. split; [exact Hd|]. cbn [all_pairs flat_map] in HD. rewrite app_nil_r in HD. exact HD.
Qed.

Lemma estimate_default n ids vals : zlen ids = n -> zlen vals = n -> 1 <= n ->
  estimate (encoding_of []) 64 ids vals <= target_of [] <-> n <= 1015.
Proof.
  intros H1 H2 Hn. unfold estimate, claimed, calculatePadding, PageSize.
  assert (E : encoding_of [] = 0) by reflexivity. assert (T : target_of [] = 16384) by reflexivity. rewrite E, T.
  unfold id_claim, val_claim. change (usesFixedWidth 0) with true. cbv iota. rewrite H1, H2.
  destruct (Z.eqb_spec ((64 + (80 + n * 8 + n * 8)) mod 4096) 0); lia.
Qed.
Theorem write_succeeds now0 now faults name idsStr valuesStr ids vals :
  fault_free faults -> pairs_given idsStr valuesStr ids vals -> zlen ids <= max_items ->
  exists f, runWrite now0 now faults name idsStr valuesStr
            = (if zlen ids <=? 1015
               then Exited (text "Wrote file with " ++ decimal (zlen ids) ++ text " entries to " ++ name ++ [10])
               else Failed, Some f).
Proof.
  intros Hff Hp Hi. destruct (pairs_given_typed _ _ _ _ Hp Hi) as [Ht Hne].
  rewrite (runWrite_good _ _ _ _ _ _ _ _ Hp). unfold write_pairs.
  destruct (no_faults_no_errors now0 [] faults [CWriteBlock ids vals] Hff ltac:(constructor) ltac:(left; reflexivity)
    ltac:(constructor; [exact Ht|constructor]) ltac:(intros c [<-|[]]; reflexivity)) as (w0 & f0 & outs & w & Hnew & Hrun & Hexp & _ & Hfin).
  rewrite Hnew. pose proof (NewWriter_good True now0 [] faults w0 f0 (fun _ => Hff) Hnew) as Hg.
  pose proof (write_outcome True _ _ _ _ _ w0 ids vals Hg Ht) as O. cbn [run_calls run_call] in Hrun. unfold mbind, mret in Hrun.
  assert (Hz : zlen (bytes_of w0) = 64).
  { pose proof (NewWriter_rule True now0 [] faults (fun _ => Hff)) as T. rewrite Hnew in T. destruct T as [T _].
    rewrite (End_bytes _ _ _ _ T). apply zlen_initial. }
  destruct Hp as (_ & _ & Hl). assert (1 <= zlen ids) by (destruct ids; [congruence|rewrite zlen_cons; pose proof (zlen_nonneg ids); lia]).
  destruct (WriteBlock ids vals w0) as [[[]|er|] w1] eqn:Hw.
  - injection Hrun as <- <-. destruct O as (_ & _ & _ & O). rewrite Hz in O.
    assert (zlen ids <= 1015).
    { destruct O as [O|O]; [lia|]. apply (estimate_default (zlen ids)) in O; auto; lia. }
    replace (zlen ids <=? 1015) with true by lia. destruct (Hfin now) as [_ HF]. cbn [run_call] in HF. unfold mbind, mret in HF.
    destruct (FinalizeAndClose now w1) as [[[]|er|] w2]; try discriminate. eexists. reflexivity.
  - injection Hrun as <- <-. exists (w_file (snd (Close w1))).
    enough (~ zlen ids <= 1015) by (replace (zlen ids <=? 1015) with false by lia; reflexivity).
    inversion Hexp as [|c r cs rs Hx _]; subst. inversion Hx as [|ids' vals' n Hwf Hn| | | | | |]; subst.
    + destruct O as (_ & _ & _ & _ & _ & O). specialize (O I (zlen ids) ltac:(lia)). rewrite !ztake_all in O by lia.
      rewrite Hz in O. intros K. apply (estimate_default (zlen ids) ids vals) in K; auto; lia.
    + exfalso. destruct H0 as [K|K]; [injection K as <- <-; congruence|discriminate].
    + exfalso. destruct H0 as [K|K]; [injection K as -> ->; congruence|discriminate].
  - exfalso. injection Hrun as <- <-. inversion Hexp as [|c r cs rs Hx _]; subst. inversion Hx.
Qed.

(** ** Crashes *)
Theorem write_never_crashes now0 now faults name idsStr valuesStr :
  (forall ids vals, pairs_given idsStr valuesStr ids vals -> zlen ids <= max_items) ->
  fst (runWrite now0 now faults name idsStr valuesStr) <> Crashed.
Proof.
  intros Hs. destruct (pairs_given_or idsStr valuesStr) as [(ids & vals & Hp)|Hn].
  2:{ rewrite runWrite_bad by exact Hn. discriminate. }
  destruct (pairs_given_typed _ _ _ _ Hp (Hs _ _ Hp)) as [Ht Hne].
  rewrite (runWrite_good _ _ _ _ _ _ _ _ Hp). unfold write_pairs.
  pose proof (NewWriter_rule False now0 [] faults ltac:(tauto)) as T.
  destruct (NewWriter now0 [] faults) as [[w0|er|] f0] eqn:Hnew; [clear T|discriminate|contradiction].
  pose proof (NewWriter_good False now0 [] faults w0 f0 ltac:(tauto) Hnew) as Hg.
  pose proof (call_good False (CWriteBlock ids vals) _ _ _ _ _ w0 Ht Hg) as G. cbn [run_call] in G. unfold mbind, mret in G.
  destruct (WriteBlock ids vals w0) as [[[]|er|] w1]; [|discriminate|destruct G as [G _]; congruence].
  destruct G as (_ & _ & [(? & ? & _ & [G|G] & _)|[(G & _)|[(L & bs & ad & _ & _ & G & _)|(? & ? & _ & _ & G)]]]); try discriminate.
  pose proof (call_good False (CFinalizeAndClose now) _ _ _ _ _ w1 I G) as K. cbn [run_call] in K. unfold mbind, mret in K.
  destruct (FinalizeAndClose now w1) as [[[]|er|] w2]; [discriminate|discriminate|destruct K as [K _]; congruence].
Qed.

Lemma printPairs_no_panic ids : forall vals, zlen ids <= zlen vals -> exists l, printPairs ids vals = Ok l.
Proof.
  induction ids as [|i ids IH]; intros [|v vals] H; cbn [printPairs]; eauto.
  - rewrite zlen_cons, zlen_nil in H. pose proof (zlen_nonneg ids). lia.
  - rewrite !zlen_cons in H. destruct (IH vals ltac:(lia)) as [l ->]. cbn [rbind]. eauto.
Qed.
Theorem read_never_crashes fmt2f help name data dump agg : Forall is_byte data ->
  (forall r, NewReader data = Ok r -> Forall (fun e => 80 <= e_size e) (r_index r)) ->
  runRead fmt2f help name data dump agg <> Crashed.
Proof.
  intros HB HS. unfold runRead. pose proof (NewReader_no_panic data HB) as N.
  destruct (NewReader data) as [r|er|] eqn:HR; [|discriminate|congruence]. cbn [rbind]. specialize (HS r eq_refl).
  pose proof (typed_counts _ (NewReader_typed data r HB HR)) as HC.
  assert (D : forall idx, dumpBlocks r idx <> Panic).
  { induction idx as [|i idx IH]; [discriminate|]. cbn [dumpBlocks].
    pose proof (readBlock_no_panic r (i64 i) HS) as P. unfold GetPairs in *.
    destruct (readBlock r (i64 i)) as [[ids vals]|er|] eqn:E; [|discriminate|congruence]. cbn [rbind].
    destruct (readBlock_len r _ ids vals HC E) as (L1 & e & _ & L & _).
    destruct (printPairs_no_panic ids vals) as [l ->]; [lia|]. cbn [rbind]. destruct (dumpBlocks r idx); [discriminate|discriminate|congruence]. }
  pose proof (aggregate_no_panic r) as A.
  destruct dump.
  - specialize (D (zseq (u32 (BlockCount r)))). destruct (dumpBlocks r _) as [l|er|]; [|discriminate|congruence]. cbn [rbind].
    destruct agg; cbn [rbind]; [|discriminate]. specialize (A DefaultAggregateOptions HC HS ltac:(discriminate)). fold (Aggregate r) in A.
    unfold Aggregate in *. destruct (aggregateSequential r _); [discriminate|discriminate|congruence].
  - cbn [rbind]. destruct agg; cbn [rbind]; [|discriminate]. specialize (A DefaultAggregateOptions HC HS ltac:(discriminate)).
    unfold Aggregate in *. destruct (aggregateSequential r _); [discriminate|discriminate|congruence].
Qed.
End Commands.
