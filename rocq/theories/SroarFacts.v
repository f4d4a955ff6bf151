(** The concrete bitmap of Sroar.v satisfies the laws, so they are consistent. *)
From Verif Require Import Machine MachineFacts Sroar.

Lemma fold_min_le l x y : In y (x :: l) -> fold_left Z.min l x <= y.
Proof.
  revert x y. induction l as [|z l IH]; intros x y; cbn [fold_left].
  - intros [->|[]]. lia.
  - intros H. specialize (IH (Z.min x z)).
    destruct H as [->|[->|H]].
    + assert (fold_left Z.min l (Z.min y z) <= Z.min y z) by (apply IH; left; reflexivity). lia.
    + assert (fold_left Z.min l (Z.min x y) <= Z.min x y) by (apply IH; left; reflexivity). lia.
    + apply IH. right. assumption.
Qed.
Lemma fold_max_ge l x y : In y (x :: l) -> y <= fold_left Z.max l x.
Proof.
  revert x y. induction l as [|z l IH]; intros x y; cbn [fold_left].
  - intros [->|[]]. lia.
  - intros H. specialize (IH (Z.max x z)).
    destruct H as [->|[->|H]].
    + assert (Z.max y z <= fold_left Z.max l (Z.max y z)) by (apply IH; left; reflexivity). lia.
    + assert (Z.max x y <= fold_left Z.max l (Z.max x y)) by (apply IH; left; reflexivity). lia.
    + apply IH. right. assumption.
Qed.
Lemma fold_min_in l x : In (fold_left Z.min l x) (x :: l).
Proof.
  revert x. induction l as [|z l IH]; intros x; cbn [fold_left]; [left; reflexivity|].
  destruct (IH (Z.min x z)) as [H|H]; [|right; right; assumption].
  rewrite <- H. destruct (Z.min_spec x z) as [[_ ->]|[_ ->]]; cbn; tauto.
Qed.
Lemma fold_max_in l x : In (fold_left Z.max l x) (x :: l).
Proof.
  revert x. induction l as [|z l IH]; intros x; cbn [fold_left]; [left; reflexivity|].
  destruct (IH (Z.max x z)) as [H|H]; [|right; right; assumption].
  rewrite <- H. destruct (Z.max_spec x z) as [[_ ->]|[_ ->]]; cbn; tauto.
Qed.

Lemma words_of_ser (b : list Z) : words_of (length b) (flat_map (fun x => le_bytes 8 x) b) = map u64 b.
Proof.
  induction b as [|x b IH]; [reflexivity|].
  cbn [length flat_map map words_of]. f_equal.
  - rewrite firstn_app. pose proof (zlen_le_bytes 8 x) as H. unfold zlen in H.
    rewrite firstn_all2 by lia. replace (8 - length (le_bytes 8 x))%nat with O by lia.
    rewrite firstn_O, app_nil_r. apply le_val_8.
  - exact IH.
Qed.
Lemma ser_length (b : list Z) : length (flat_map (fun x => le_bytes 8 x) b) = (8 * length b)%nat.
Proof.
  induction b as [|x b IH]; [reflexivity|]. cbn [flat_map length]. rewrite app_length, IH.
  pose proof (zlen_le_bytes 8 x) as H. unfold zlen in H. lia.
Qed.

Lemma contains_in (b : list Z) y : existsb (fun x => u64 x =? y) b = true <-> In y (map u64 b).
Proof.
  rewrite existsb_exists, in_map_iff. split.
  - intros (x & Hx & E). exists x. split; [lia|assumption].
  - intros (x & E & Hx). exists x. split; [assumption|lia].
Qed.

#[global] Instance list_sroar_laws : SroarLaws list_sroar.
Proof.
  constructor; cbn [bm bm_new bm_set bm_contains bm_min bm_max bm_or bm_ser bm_deser list_sroar].
  - reflexivity.
  - intros b x y Hx Hy. destruct (existsb (fun y0 => u64 y0 =? u64 x) b) eqn:E.
    + destruct (Z.eqb_spec x y) as [->|]; [|reflexivity]. rewrite (u64_id y) in E by assumption.
      cbn. assumption.
    + cbn [existsb]. rewrite !(u64_id x) by (try apply u64_range; assumption). reflexivity.
  - intros a b y _. apply existsb_app.
  - intros b y _ H. apply contains_in in H. destruct (map u64 b); [destruct H|].
    apply fold_min_le. assumption.
  - intros b y _ H. apply contains_in in H. destruct (map u64 b); [destruct H|].
    apply fold_max_ge. assumption.
  - intros b (y & _ & H). apply contains_in in H.
    cbn [bm_min bm_contains list_sroar] in *. rewrite contains_in.
    assert (G : Forall is_u64 (map u64 b)) by (apply Forall_map, Forall_forall; intros; apply u64_range).
    destruct (map u64 b) as [|z l] eqn:E; [destruct H|].
    rewrite Forall_forall in G. split; [apply G|]; apply fold_min_in.
  - intros b (y & _ & H). apply contains_in in H.
    cbn [bm_max bm_contains list_sroar] in *. rewrite contains_in.
    assert (G : Forall is_u64 (map u64 b)) by (apply Forall_map, Forall_forall; intros; apply u64_range).
    destruct (map u64 b) as [|z l] eqn:E; [destruct H|].
    rewrite Forall_forall in G. split; [apply G|]; apply fold_max_in.
  - intros b H. destruct b as [|x b]; [split; reflexivity|]. exfalso. apply H. exists (u64 x).
    split; [apply u64_range|]. cbn. rewrite Z.eqb_refl. reflexivity.
  - intros b. apply Forall_forall. intros z Hz. apply in_flat_map in Hz. destruct Hz as (x & _ & Hz).
    pose proof (le_bytes_bytes 8 x) as G. rewrite Forall_forall in G. apply G. assumption.
  - intros b. eexists. split; [reflexivity|]. rewrite ser_length.
    replace (8 * length b / 8)%nat with (length b) by (rewrite Nat.mul_comm, Nat.div_mul; lia).
    rewrite words_of_ser. intros y Hy. cbn [bm_contains list_sroar].
    apply eq_true_iff_eq. rewrite !contains_in, map_map.
    rewrite (map_ext (fun x => u64 (u64 x)) u64); [reflexivity|].
    intros x. apply u64_id, u64_range.
Qed.
