(** Replacing files among several read together (C66). *)
From Coq Require Import Lia ZArith Permutation.
From Verif Require Import Machine MachineFacts Encoding FileIO Sroar Writer SimpleWriter Reader Aggregate Multi Spec SimpleSpec MultiSpec AggFacts MultiFacts MergeSpec.
Local Open Scope Z_scope.

Lemma occurs_in id l : occurs id l = true <-> In id (map fst l).
Proof.
  unfold occurs. rewrite existsb_exists, in_map_iff. split; intros (p & H1 & H2); exists p; [apply Z.eqb_eq in H2; auto|split; [exact H2|apply Z.eqb_eq; exact H1]].
Qed.
Lemma occurs_app id a b : occurs id (a ++ b) = occurs id a || occurs id b.
Proof. unfold occurs. apply existsb_app. Qed.
Lemma occurs_visible id files : occurs id (visible files) = occurs id (concat files).
Proof.
  induction files as [|f files IH]; [reflexivity|]. cbn [visible concat]. rewrite !occurs_app, IH. destruct (occurs id (concat files)) eqn:E; [rewrite !orb_true_r; reflexivity|]. rewrite !orb_false_r.
  apply eq_true_iff_eq. rewrite !occurs_in, !in_map_iff. split; intros (p & H1 & H2); exists p; (split; [exact H1|]).
  - apply filter_In in H2. tauto.
  - apply filter_In. rewrite H1, E. auto.
Qed.
Lemma occurs_perm id a b : Permutation a b -> occurs id a = occurs id b.
Proof.
  intros H. apply eq_true_iff_eq. rewrite !occurs_in. assert (P := Permutation_map fst H). split; intros K; [exact (Permutation_in _ P K)|exact (Permutation_in _ (Permutation_sym P) K)].
Qed.
Lemma filter_filter {A} (f g : A -> bool) l : filter f (filter g l) = filter (fun x => f x && g x) l.
Proof. induction l as [|x l IH]; [reflexivity|]. cbn [filter]. destruct (g x) eqn:G, (f x) eqn:F; cbn [filter andb]; rewrite ?F, ?IH; reflexivity. Qed.
Lemma perm_filter {A} (f : A -> bool) a b : Permutation a b -> Permutation (filter f a) (filter f b).
Proof.
  induction 1 as [|x a b H IH|x y a|a b c H1 IH1 H2 IH2]; cbn [filter]; [constructor|destruct (f x); [constructor|]; exact IH| |eapply perm_trans; eassumption].
  destruct (f x), (f y); try apply Permutation_refl. apply perm_swap.
Qed.
Lemma visible_app a b : visible (a ++ b) = filter (fun p => negb (occurs (fst p) (concat b))) (visible a) ++ visible b.
Proof.
  induction a as [|f a IH]; [reflexivity|]. cbn [app visible]. rewrite IH, filter_app, app_assoc, filter_filter. do 2 f_equal.
  apply filter_ext. intros p. rewrite concat_app, occurs_app, negb_orb. apply andb_comm.
Qed.
Lemma occurs_concat id m m' : Permutation (visible m) (visible m') -> occurs id (concat m) = occurs id (concat m').
Proof. intros H. rewrite <- !occurs_visible. apply occurs_perm, H. Qed.
Lemma visible_replace a m m' b : Permutation (visible m) (visible m') -> Permutation (visible (a ++ m ++ b)) (visible (a ++ m' ++ b)).
Proof.
  intros H. rewrite !visible_app. apply Permutation_app.
  - rewrite (filter_ext _ (fun p => negb (occurs (fst p) (concat (m' ++ b))))); [apply Permutation_refl|]. intros p. rewrite !concat_app, !occurs_app, (occurs_concat _ _ _ H). reflexivity.
  - apply Permutation_app; [|apply Permutation_refl]. apply perm_filter, H.
Qed.
Lemma visible_one f : visible [f] = f.
Proof.
  cbn [visible concat]. rewrite app_nil_r. induction f as [|p f IH]; [reflexivity|]. cbn [filter occurs existsb negb]. f_equal. exact IH.
Qed.

Lemma filter_le {A} (f : A -> bool) l : (length (filter f l) <= length l)%nat.
Proof. induction l as [|x l IH]; [constructor|]. cbn [filter length]. destruct (f x); cbn [length]; lia. Qed.
Lemma visible_length files : (length (visible files) <= length (concat files))%nat.
Proof.
  induction files as [|f files IH]; [constructor|]. cbn [visible concat]. rewrite !app_length. pose proof (filter_le (fun p => negb (occurs (fst p) (concat files))) f). lia.
Qed.

Lemma aggregates_agree a b r1 r2 : Permutation a b -> aggregate_of a r1 -> aggregate_of b r2 -> agree r1 r2.
Proof.
  intros HP H1 H2. pose proof (aggregate_perm _ _ _ HP H1) as H3. destruct b as [|x b].
  - right. clear H1 HP. destruct H2 as (A1 & A2 & _ & A4 & _), H3 as (B1 & B2 & _ & B4 & _). unfold nothing. rewrite A1, A2, B1, B2, (A4 eq_refl), (B4 eq_refl). repeat split.
  - left. apply (aggregate_unique (x :: b)); [discriminate|exact H3|exact H2].
Qed.

(** ** Files as updates *)
Lemma NoDup_app_intro {A} (a b : list A) : NoDup a -> NoDup b -> (forall x, In x a -> In x b -> False) -> NoDup (a ++ b).
Proof.
  induction a as [|x a IH]; intros H1 H2 H3; [exact H2|]. inversion H1; subst. cbn [app]. constructor.
  - intros K. apply in_app_or in K. destruct K as [K|K]; [contradiction|]. exact (H3 x (or_introl eq_refl) K).
  - apply IH; [assumption|exact H2|]. intros y Y1 Y2. exact (H3 y (or_intror Y1) Y2).
Qed.
Lemma NoDup_filter_fst (f : Z * Z -> bool) l : NoDup (map fst l) -> NoDup (map fst (filter f l)).
Proof.
  induction l as [|p l IH]; [constructor|]. cbn [map filter]. intros H. inversion H as [|? ? H1 H2]; subst. destruct (f p); [|apply IH, H2]. cbn [map]. constructor; [|apply IH, H2].
  intros K. apply H1. apply in_map_iff in K. destruct K as (q & E & Q). apply filter_In in Q. apply in_map_iff. exists q. tauto.
Qed.
Lemma visible_nodup files : Forall (fun f => NoDup (map fst f)) files -> NoDup (map fst (visible files)).
Proof.
  induction 1 as [|f files H _ IH]; [constructor|]. cbn [visible]. rewrite map_app. apply NoDup_app_intro.
  - apply NoDup_filter_fst, H.
  - exact IH.
  - intros x H1 H2. apply in_map_iff in H1. destruct H1 as (p & <- & H1). apply filter_In in H1. destruct H1 as [_ H1]. apply occurs_in in H2. rewrite occurs_visible in H2. rewrite H2 in H1. discriminate.
Qed.

Lemma last_put_app a b id v : last_put (a ++ b) id v <-> last_put b id v \/ (~ In id (map fst b) /\ last_put a id v).
Proof.
  split.
  - intros (x & y & E & N). revert x E. induction a as [|p a IH]; intros x E; [left; exists x, y; auto|]. destruct x as [|q x]; cbn [app] in E.
    + right. injection E as -> <-. rewrite map_app in N. split; [intros K; apply N, in_or_app; auto|]. exists [], a. split; [reflexivity|]. intros K. apply N, in_or_app. auto.
    + injection E as -> E. destruct (IH x E) as [K|[K1 (x' & y' & -> & K2)]]; [left; exact K|]. right. split; [exact K1|]. exists (q :: x'), y'. auto.
  - intros [(x & y & -> & N)|[N1 (x & y & -> & N2)]].
    + exists (a ++ x), y. rewrite <- app_assoc. auto.
    + exists x, (y ++ b). rewrite <- app_assoc. split; [reflexivity|]. rewrite map_app. intros K. apply in_app_or in K. tauto.
Qed.
Lemma last_put_in l id v : NoDup (map fst l) -> last_put l id v <-> In (id, v) l.
Proof.
  intros H. split; [intros (x & y & -> & _); apply in_or_app; right; left; reflexivity|]. intros K. apply in_split in K. destruct K as (x & y & ->). exists x, y. split; [reflexivity|].
  rewrite map_app in H. cbn [map fst] in H. apply NoDup_remove_2 in H. intros K. apply H, in_or_app. auto.
Qed.
Lemma last_put_occurs l id v : last_put l id v -> In id (map fst l).
Proof. intros (x & y & -> & _). rewrite map_app. apply in_or_app. right. left. reflexivity. Qed.
Lemma visible_last files : Forall (fun f => NoDup (map fst f)) files -> forall id v, In (id, v) (visible files) <-> last_put (concat files) id v.
Proof.
  induction 1 as [|f files H _ IH]; intros id v; cbn [visible concat].
  - split; [intros []|]. intros (x & y & E & _). destruct x; discriminate.
  - rewrite in_app_iff, last_put_app, IH, filter_In, (last_put_in _ _ _ H). cbn [fst].
    assert (Q : negb (occurs id (concat files)) = true <-> ~ In id (map fst (concat files))) by (rewrite <- occurs_in; destruct (occurs id (concat files)); cbn [negb]; intuition congruence).
    rewrite Q. tauto.
Qed.
