(** Command lines (C63). *)
From Coq Require Import Ascii String Lia.
From Verif Require Import Machine MachineFacts Encoding Sroar FileIO Writer Reader Aggregate Spec Cli CliSpec CliFacts CliMain CliMainSpec.
From Coq Require Import Floats.SpecFloat.
Local Open Scope Z_scope.
Local Open Scope list_scope.

Lemma same_text_spec a b : same_text a b = true <-> a = b.
Proof. unfold same_text. destruct (list_eq_dec Z.eq_dec a b); split; congruence. Qed.
Lemma same_text_refl a : same_text a a = true.
Proof. apply same_text_spec. reflexivity. Qed.
Lemma same_text_neq a b : same_text a b = false <-> a <> b.
Proof. unfold same_text. destruct (list_eq_dec Z.eq_dec a b); split; congruence. Qed.

(** Flag names that can be spelled, and are not confused. *)
Definition plain (name : list Z) : Prop := exists c s, name = c :: s /\ c <> 45 /\ c <> 61 /\ ~ In 61 s.
Definition proper (defs : flagSet) : Prop := Forall (fun x => plain (fst x)) defs /\ NoDup (map fst defs).

Lemma lookup_in defs : NoDup (map fst defs) -> forall name b, lookupFlag defs name = Some b <-> In (name, b) defs.
Proof.
  induction defs as [|[n x] defs IH]; intros N name b; cbn [lookupFlag In]; [split; [discriminate|tauto]|].
  cbn [map fst] in N. inversion N as [|? ? N1 N2]; subst. destruct (same_text n name) eqn:E.
  - apply same_text_spec in E. subst n. split; [intros [= ->]; left; reflexivity|]. intros [[= ->]|H]; [reflexivity|].
    destruct N1. apply (in_map fst) in H. exact H.
  - apply same_text_neq in E. rewrite (IH N2). split; [auto|]. intros [[= -> ->]|H]; [congruence|exact H].
Qed.

Lemma cut_plain s : ~ In 61 s -> forall v, cutEquals s = (s, None) /\ cutEquals (s ++ 61 :: v) = (s, Some v).
Proof.
  induction s as [|c s IH]; intros H v; cbn [cutEquals app]; [split; reflexivity|].
  destruct (IH (fun K => H (or_intror K)) v) as [E1 E2]. rewrite E1, E2.
  destruct (c =? 61) eqn:K; [|split; reflexivity]. destruct H. left. lia.
Qed.
Lemma cut_inv s : forall n v, cutEquals s = (n, v) -> s = n ++ match v with Some x => 61 :: x | None => [] end /\ ~ In 61 n.
Proof.
  induction s as [|c s IH]; intros n v; cbn [cutEquals]; [intros [= <- <-]; split; [reflexivity|tauto]|].
  destruct (c =? 61) eqn:K; [intros [= <- <-]; split; [cbn [app]; f_equal; lia|tauto]|].
  destruct (cutEquals s) as [n' v'] eqn:E. intros [= <- <-]. destruct (IH _ _ eq_refl) as [-> H]. split; [reflexivity|].
  intros [->|G]; [discriminate K|exact (H G)].
Qed.
Lemma dash_text : text "-" = [45] /\ text "--" = [45; 45] /\ text "=" = [61].
Proof. repeat split. Qed.
Lemma readName_plain name v : plain name -> readName name = FlagArg name None /\ readName (name ++ 61 :: v) = FlagArg name (Some v).
Proof.
  intros (c & s & -> & H1 & H2 & H3). cbn [readName app]. destruct (cut_plain s H3 v) as [E1 E2]. rewrite E1, E2.
  replace ((c =? 45) || (c =? 61)) with false by (symmetry; apply orb_false_iff; split; apply Z.eqb_neq; assumption). split; reflexivity.
Qed.
Lemma lookArg_plain d name v : dashes d -> plain name -> lookArg (d ++ name) = FlagArg name None /\ lookArg (d ++ name ++ text "=" ++ v) = FlagArg name (Some v).
Proof.
  destruct dash_text as (T1 & T2 & T3). rewrite T3. intros D P. destruct (readName_plain name v P) as [E1 E2]. destruct P as (c & s & -> & H1 & H2 & H3).
  assert (K : (c =? 45) = false) by (apply Z.eqb_neq; exact H1).
  destruct D as [->| ->]; rewrite ?T1, ?T2; cbn [app lookArg] in *; change (negb (45 =? 45)) with false; change (45 =? 45) with true; cbv iota; rewrite ?K; split; assumption.
Qed.
Lemma readName_inv s n v : readName s = FlagArg n v -> s = n ++ match v with Some x => 61 :: x | None => [] end /\ plain n.
Proof.
  destruct s as [|c s]; cbn [readName]; [discriminate|]. destruct ((c =? 45) || (c =? 61)) eqn:K; [discriminate|]. apply orb_false_iff in K. destruct K as [K1 K2].
  destruct (cutEquals s) as [n' v'] eqn:E. intros [= <- <-]. apply cut_inv in E. destruct E as [-> H]. split; [reflexivity|]. exists c, n'. repeat split; [lia|lia|exact H].
Qed.
Lemma lookArg_inv s n v : lookArg s = FlagArg n v -> exists d, dashes d /\ s = d ++ n ++ match v with Some x => text "=" ++ x | None => [] end.
Proof.
  destruct dash_text as (T1 & T2 & T3). rewrite T3. unfold lookArg. destruct s as [|c0 [|c1 rest]]; try discriminate. destruct (c0 =? 45) eqn:E0; [|discriminate]. cbn [negb].
  destruct (c1 =? 45) eqn:E1.
  - destruct rest as [|c2 rest]; [discriminate|]. intros H. apply readName_inv in H. destruct H as [-> _]. exists (text "--"). split; [right; reflexivity|]. rewrite T2. cbn [app].
    f_equal; [lia|]. f_equal. lia.
  - intros H. apply readName_inv in H. destruct H as [E _]. exists (text "-"). split; [left; reflexivity|]. rewrite T1. cbn [app]. f_equal; [lia|exact E].
Qed.
Lemma lookArg_none s : (lookArg s = NotFlag \/ lookArg s = Terminator) <-> (s = [] \/ s = text "-" \/ s = text "--" \/ exists c t, s = c :: t /\ c <> 45).
Proof.
  destruct dash_text as (T1 & T2 & _). rewrite T1, T2. unfold lookArg. destruct s as [|c0 [|c1 rest]].
  - split; auto.
  - split; [|auto]. intros _. destruct (Z.eq_dec c0 45) as [->|N]; [auto|]. right; right; right. eauto.
  - destruct (c0 =? 45) eqn:E0; cbn [negb].
    + split.
      * destruct (c1 =? 45) eqn:E1.
        -- destruct rest; [intros _; right; right; left; f_equal; [lia|f_equal; lia]|]. unfold readName. destruct (_ || _); [intros [H|H]; discriminate|]. destruct (cutEquals _); intros [H|H]; discriminate.
        -- unfold readName. destruct (_ || _); [intros [H|H]; discriminate|]. destruct (cutEquals _); intros [H|H]; discriminate.
      * intros [H|[H|[H|(c & t & [= -> ->] & H)]]]; try discriminate; [|lia]. injection H as -> -> ->. auto.
    + split; [|auto]. intros _. right; right; right. exists c0, (c1 :: rest). split; [reflexivity|lia].
Qed.

Lemma existsb_same s l : existsb (same_text s) l = true <-> In s l.
Proof.
  rewrite existsb_exists. split; [intros (x & H & E); apply same_text_spec in E; subst; exact H|]. intros H. exists s. split; [exact H|apply same_text_refl].
Qed.
Lemma ParseBool_spec t b : ParseBool t = Some b <-> truth t b.
Proof.
  unfold ParseBool, truth. match goal with |- context [existsb (same_text t) ?l] => set (l1 := l) end.
  destruct (existsb (same_text t) l1) eqn:E1; subst l1.
  - apply existsb_same in E1. split; [intros [= <-]; left; split; [reflexivity|]; cbn [In] in *; tauto|]. intros [[-> _]|[-> H]]; [reflexivity|exfalso].
    cbn [In] in E1, H. repeat (destruct E1 as [<-|E1]; [repeat (destruct H as [H|H]; [discriminate H|]); exact H|]); exact E1.
  - match goal with |- context [existsb (same_text t) ?l] => set (l2 := l) end. destruct (existsb (same_text t) l2) eqn:E2; subst l2.
    + apply existsb_same in E2. split; [intros [= <-]; right; split; [reflexivity|]; cbn [In] in *; tauto|]. intros [[-> H]|[-> _]]; [|reflexivity].
      exfalso. apply not_true_iff_false in E1. apply E1. apply existsb_same. cbn [In] in *. tauto.
    + split; [discriminate|]. intros [[-> H]|[-> H]]; exfalso; [apply not_true_iff_false in E1; apply E1|apply not_true_iff_false in E2; apply E2]; apply existsb_same; cbn [In] in *; tauto.
Qed.

(** ** Parse *)
Lemma parse_spelled defs a l b : proper defs -> spells defs a l -> no_flag b -> flagParse defs (a ++ b) = Parsed l.
Proof.
  intros [P N] H Hb.
  assert (PI : forall name x, In (name, x) defs -> plain name /\ lookupFlag defs name = Some x).
  { intros name x Hin. split; [|apply lookup_in; assumption]. rewrite Forall_forall in P. apply (P _ Hin). }
  induction H as [|d name v args l D I H IH|d name v args l D I H IH|d name args l D I H IH|d name t x args l D I T H IH]; cbn [app].
  - destruct Hb as [->|(s & more & -> & Hs)]; [reflexivity|]. cbn [flagParse]. apply lookArg_none in Hs. destruct Hs as [->| ->]; reflexivity.
  - destruct (PI _ _ I) as [Q L]. cbn [flagParse]. rewrite (proj1 (lookArg_plain d name v D Q)), L, IH. reflexivity.
  - destruct (PI _ _ I) as [Q L]. cbn [flagParse]. rewrite (proj2 (lookArg_plain d name v D Q)), L, IH. reflexivity.
  - destruct (PI _ _ I) as [Q L]. cbn [flagParse]. rewrite (proj1 (lookArg_plain d name [] D Q)), L, IH. reflexivity.
  - destruct (PI _ _ I) as [Q L]. cbn [flagParse]. rewrite (proj2 (lookArg_plain d name t D Q)), L. apply ParseBool_spec in T. rewrite T, IH. reflexivity.
Qed.
Lemma parse_only_spelled defs : proper defs -> forall n args l, (length args <= n)%nat -> flagParse defs args = Parsed l ->
  exists a b, args = a ++ b /\ spells defs a l /\ no_flag b.
Proof.
  intros [P N]. induction n as [|n IH]; intros args l HL E.
  { destruct args; [|cbn in HL; lia]. injection E as <-. exists [], []. repeat split; [constructor|left; reflexivity]. }
  destruct args as [|s args]; [injection E as <-; exists [], []; repeat split; [constructor|left; reflexivity]|].
  cbn [length] in HL. cbn [flagParse] in E. destruct (lookArg s) as [| | |name value] eqn:K.
  - injection E as <-. exists [], (s :: args). repeat split; [constructor|right; exists s, args; split; [reflexivity|apply lookArg_none; auto]].
  - injection E as <-. exists [], (s :: args). repeat split; [constructor|right; exists s, args; split; [reflexivity|apply lookArg_none; auto]].
  - discriminate E.
  - apply lookArg_inv in K. destruct K as (d & D & ->). destruct (lookupFlag defs name) as [[|]|] eqn:L.
    + apply (lookup_in defs N) in L. destruct value as [v|].
      * destruct (ParseBool v) as [x|] eqn:B; [|discriminate E]. destruct (flagParse defs args) as [l'| |] eqn:E'; try discriminate E. cbn [andThen] in E. injection E as <-.
        destruct (IH args l' ltac:(lia) E') as (a & b & -> & S & Hb). exists ((d ++ name ++ text "=" ++ v) :: a), b. split; [reflexivity|]. split; [|exact Hb].
        apply spells_bool; try assumption. apply ParseBool_spec. exact B.
      * destruct (flagParse defs args) as [l'| |] eqn:E'; try discriminate E. cbn [andThen] in E. injection E as <-.
        destruct (IH args l' ltac:(lia) E') as (a & b & -> & S & Hb). exists ((d ++ name) :: a), b. split; [rewrite app_nil_r; reflexivity|]. split; [|exact Hb]. apply spells_on; assumption.
    + apply (lookup_in defs N) in L. destruct value as [v|].
      * destruct (flagParse defs args) as [l'| |] eqn:E'; try discriminate E. cbn [andThen] in E. injection E as <-.
        destruct (IH args l' ltac:(lia) E') as (a & b & -> & S & Hb). exists ((d ++ name ++ text "=" ++ v) :: a), b. split; [reflexivity|]. split; [|exact Hb]. apply spells_equals; assumption.
      * destruct args as [|v args]; [discriminate E|]. destruct (flagParse defs args) as [l'| |] eqn:E'; try discriminate E. cbn [andThen] in E. injection E as <-.
        destruct (IH args l' ltac:(cbn [length] in HL; lia) E') as (a & b & -> & S & Hb). exists ((d ++ name) :: v :: a), b. split; [rewrite app_nil_r; reflexivity|]. split; [|exact Hb]. apply spells_apart; assumption.
    + destruct (_ || _); discriminate E.
Qed.

(** ** Values *)
Lemma string_last name : forall l default v, string_is name default l v -> stringVar name default l = v.
Proof.
  assert (Q : forall b v, (forall x, ~ In (SetString name x) b) -> stringVar name v b = v).
  { induction b as [|s b IH]; intros v H; [reflexivity|]. unfold stringVar in *. cbn [fold_left].
    assert (E : match s with SetString n x => if same_text n name then x else v | SetBool _ _ => v end = v).
    { destruct s as [n x|n x]; [|reflexivity]. destruct (same_text n name) eqn:K; [|reflexivity]. apply same_text_spec in K. subst n. destruct (H x). left. reflexivity. }
    rewrite E. apply IH. intros x Hx. apply (H x). right. exact Hx. }
  intros l default v [(a & b & -> & H)|[-> H]]; [|apply Q; exact H]. unfold stringVar. rewrite fold_left_app. cbn [fold_left]. rewrite same_text_refl. apply Q. exact H.
Qed.
Lemma bool_last name : forall l default v, bool_is name default l v -> boolVar name default l = v.
Proof.
  assert (Q : forall b v, (forall x, ~ In (SetBool name x) b) -> boolVar name v b = v).
  { induction b as [|s b IH]; intros v H; [reflexivity|]. unfold boolVar in *. cbn [fold_left].
    assert (E : match s with SetBool n x => if same_text n name then x else v | SetString _ _ => v end = v).
    { destruct s as [n x|n x]; [reflexivity|]. destruct (same_text n name) eqn:K; [|reflexivity]. apply same_text_spec in K. subst n. destruct (H x). left. reflexivity. }
    rewrite E. apply IH. intros x Hx. apply (H x). right. exact Hx. }
  intros l default v [(a & b & -> & H)|[-> H]]; [|apply Q; exact H]. unfold boolVar. rewrite fold_left_app. cbn [fold_left]. rewrite same_text_refl. apply Q. exact H.
Qed.
Lemma string_some name : forall l default, exists v, string_is name default l v.
Proof.
  induction l as [|s l IH] using rev_ind; intros default; [exists default; right; split; [reflexivity|intros x []]|].
  destruct s as [n x|n x].
  - destruct (list_eq_dec Z.eq_dec n name) as [->|NE]; [exists x; left; exists l, []; split; [reflexivity|intros y []]|].
    destruct (IH default) as [v [(a & b & -> & H)|[-> H]]]; [exists v; left; exists a, (b ++ [SetString n x]); split; [rewrite <- app_assoc; reflexivity|]|exists default; right; split; [reflexivity|]];
      intros y Hy; apply in_app_iff in Hy; destruct Hy as [Hy|[[= Hy _]|[]]]; try (exact (H y Hy)); congruence.
  - destruct (IH default) as [v [(a & b & -> & H)|[-> H]]]; [exists v; left; exists a, (b ++ [SetBool n x]); split; [rewrite <- app_assoc; reflexivity|]|exists default; right; split; [reflexivity|]];
      intros y Hy; apply in_app_iff in Hy; destruct Hy as [Hy|[[=]|[]]]; exact (H y Hy).
Qed.
Lemma stringVar_is name l default : string_is name default l (stringVar name default l).
Proof. destruct (string_some name l default) as [v H]. rewrite (string_last _ _ _ _ H). exact H. Qed.

Lemma plain_check name : match name with c :: s => negb (c =? 45) && negb (c =? 61) && forallb (fun x => negb (x =? 61)) s | [] => false end = true -> plain name.
Proof.
  destruct name as [|c s]; [discriminate|]. rewrite !andb_true_iff, !negb_true_iff, !Z.eqb_neq, forallb_forall. intros [[H1 H2] H3]. exists c, s. repeat split; try assumption.
  intros H. specialize (H3 61 H). discriminate H3.
Qed.
Lemma write_proper : proper writeFlags.
Proof.
  split; [repeat (constructor; [apply plain_check; reflexivity|]); constructor|].
  repeat (constructor; [cbn; intros K; repeat (destruct K as [K|K]; [discriminate K|]); exact K|]). constructor.
Qed.
Lemma read_proper : proper readFlags.
Proof.
  split; [repeat (constructor; [apply plain_check; reflexivity|]); constructor|].
  repeat (constructor; [cbn; intros K; repeat (destruct K as [K|K]; [discriminate K|]); exact K|]). constructor.
Qed.
Lemma put_same fs n d : put_file fs n d n = Some d.
Proof. unfold put_file. rewrite same_text_refl. reflexivity. Qed.
Lemma put_other fs n d m : m <> n -> put_file fs n d m = fs m.
Proof. intros H. unfold put_file. apply same_text_neq in H. rewrite H. reflexivity. Qed.
