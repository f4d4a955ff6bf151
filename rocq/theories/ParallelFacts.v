(** The parallel machine: invariant, partial correctness, progress, termination. *)
From Coq Require Import Permutation Floats.SpecFloat.
From Verif Require Import Machine MachineFacts Encoding Sroar Writer Reader Aggregate Parallel Spec.
Ltac Zify.zify_post_hook ::= Z.div_mod_to_equations.

(** ** Accumulators form a commutative monoid *)
Definition acc_plus (a b : acc) : acc :=
  mkAcc (i64 (c_count a + c_count b)) (Z.min (c_min a) (c_min b)) (Z.max (c_max a) (c_max b)) (i64 (c_sum a + c_sum b)).
(** Accumulators of something: in range, and untouched if nothing was counted. *)
Definition acc_ok (a : acc) : Prop :=
  0 <= c_count a < two63 /\ is_i64 (c_sum a) /\ c_min a <= max_int64 /\ min_int64 <= c_max a
  /\ (c_count a = 0 -> c_min a = max_int64 /\ c_max a = min_int64).

Lemma acc_plus_comm a b : acc_plus a b = acc_plus b a.
Proof. unfold acc_plus. f_equal; [f_equal; lia|lia|lia|f_equal; lia]. Qed.
Lemma acc_plus_assoc a b c : acc_plus a (acc_plus b c) = acc_plus (acc_plus a b) c.
Proof.
  unfold acc_plus. cbn [c_count c_min c_max c_sum]. rewrite !i64_add_l, !i64_add_r. f_equal; [f_equal; lia|lia|lia|f_equal; lia].
Qed.
Lemma acc_plus_0 a : acc_ok a -> acc_plus acc0 a = a.
Proof.
  intros (H1 & H2 & H3 & H4 & _). destruct a as [c mn mx s]. unfold acc_plus, acc0. cbn [c_count c_min c_max c_sum] in *.
  rewrite !i64_id by (unfold is_i64 in *; lia). f_equal; lia.
Qed.
Lemma acc_0_plus a : acc_ok a -> acc_plus a acc0 = a.
Proof. intros. rewrite acc_plus_comm. apply acc_plus_0. assumption. Qed.
Lemma acc0_ok : acc_ok acc0.
Proof. unfold acc_ok, acc0, two63, is_i64, two63. cbn. unfold max_int64, min_int64. lia. Qed.

Definition acc_sum (l : list acc) : acc := fold_right acc_plus acc0 l.
Definition count_sum (l : list acc) : Z := fold_right (fun a n => c_count a + n) 0 l.
Lemma count_sum_nonneg l : Forall acc_ok l -> 0 <= count_sum l.
Proof. unfold count_sum. induction 1 as [|a l (H & _) _ IH]; cbn [fold_right]; lia. Qed.
Lemma count_sum_cons a l : count_sum (a :: l) = c_count a + count_sum l.
Proof. reflexivity. Qed.
Lemma acc_sum_ok l : Forall acc_ok l -> count_sum l < two63 -> acc_ok (acc_sum l) /\ c_count (acc_sum l) = count_sum l.
Proof.
  induction 1 as [|a l Ha Hl IH]; intros Hc; [split; [apply acc0_ok|reflexivity]|].
  rewrite count_sum_cons in Hc. pose proof (count_sum_nonneg l Hl) as Hp.
  destruct Ha as (A1 & A2 & A3 & A4 & A5). destruct IH as [(B1 & B2 & B3 & B4 & B5) B6]; [lia|].
  assert (E : c_count (acc_sum (a :: l)) = count_sum (a :: l)).
  { rewrite count_sum_cons. change (i64 (c_count a + c_count (acc_sum l)) = c_count a + count_sum l). rewrite B6. apply i64_id. unfold is_i64, two63 in *. lia. }
  split; [|exact E]. unfold acc_ok. rewrite E, count_sum_cons.
  cbn [acc_sum fold_right acc_plus c_sum c_min c_max]. fold (acc_sum l).
  split; [lia|]. split; [apply i64_range|]. split; [lia|]. split; [lia|]. intros E0.
  destruct A5 as [-> ->]; [lia|]. destruct B5 as [-> ->]; [lia|]. split; reflexivity.
Qed.
Lemma acc_sum_app l1 l2 : Forall acc_ok l2 -> count_sum l2 < two63 -> acc_sum (l1 ++ l2) = acc_plus (acc_sum l1) (acc_sum l2).
Proof.
  intros H2 Hc. induction l1 as [|a l IH]; cbn [app acc_sum fold_right].
  - fold (acc_sum l2). rewrite acc_plus_0; [reflexivity|apply acc_sum_ok; assumption].
  - fold (acc_sum (l ++ l2)) (acc_sum l). rewrite IH. apply acc_plus_assoc.
Qed.
Lemma count_sum_app l1 l2 : count_sum (l1 ++ l2) = count_sum l1 + count_sum l2.
Proof. unfold count_sum. induction l1 as [|a l IH]; cbn [app fold_right]; lia. Qed.
Lemma acc_sum_perm l1 l2 : Permutation l1 l2 -> acc_sum l1 = acc_sum l2.
Proof.
  induction 1; cbn [acc_sum fold_right]; [reflexivity| | |congruence].
  - unfold acc_sum in IHPermutation. rewrite IHPermutation. reflexivity.
  - rewrite !acc_plus_assoc. f_equal. apply acc_plus_comm.
Qed.
Lemma count_sum_perm l1 l2 : Permutation l1 l2 -> count_sum l1 = count_sum l2.
Proof. unfold count_sum. induction 1; cbn [fold_right]; lia. Qed.

(** ** Merging results *)
Definition merge_all (l : list acc) (st : aggResult * Z * Z) : aggResult * Z * Z :=
  fold_left (fun st a => merge_result (fst (fst st)) (result_of a) (snd (fst st)) (snd st)) l st.
Lemma merge_all_spec l : Forall acc_ok l -> count_sum l < two63 ->
  let '(fin, tc, ts) := merge_all l (zeroResult, 0, 0) in
  a_count fin = c_count (acc_sum l) /\ tc = c_count (acc_sum l) /\ ts = c_sum (acc_sum l)
  /\ (l <> [] -> a_min fin = c_min (acc_sum l) /\ a_max fin = c_max (acc_sum l))
  /\ a_avg fin = f64_zero.
Proof.
  induction l as [|a l IH] using rev_ind; intros H Hc.
  - cbn. repeat split; try reflexivity; congruence.
  - apply Forall_app in H. destruct H as [Hl Ha]. inversion Ha as [|x y Ha' _]; subst. clear Ha.
    rewrite count_sum_app, count_sum_cons in Hc. change (count_sum []) with 0 in Hc.
    pose proof (count_sum_nonneg l Hl) as Hp. destruct Ha' as (A1 & A2 & A3 & A4 & A5).
    assert (Ha' : acc_ok a) by (unfold acc_ok; auto).
    destruct (acc_sum_ok l Hl) as [(B1 & B2 & B3 & B4 & B5) B6]; [lia|]. specialize (IH Hl ltac:(lia)).
    assert (Es : acc_sum (l ++ [a]) = acc_plus (acc_sum l) a).
    { rewrite acc_sum_app; [|constructor; [exact Ha'|constructor]|cbn; lia]. cbn [acc_sum fold_right].
      rewrite (acc_0_plus a Ha'). reflexivity. }
    unfold merge_all in *. rewrite fold_left_app. cbn [fold_left].
    destruct (fold_left _ l (zeroResult, 0, 0)) as [[fin tc] ts]. cbn [fst snd] in *.
    destruct IH as (I1 & I2 & I3 & I4 & I5). unfold merge_result. rewrite Es. unfold acc_plus, result_of.
    cbn [a_count a_min a_max a_sum a_avg c_count c_min c_max c_sum]. rewrite I1, I2, I3.
    split; [reflexivity|]. split; [reflexivity|]. split; [reflexivity|]. split; [|exact I5]. intros _.
    destruct l as [|z l].
    + cbn in I1. rewrite <- I1, I1. cbn [acc_sum fold_right acc0 c_count c_min c_max].
      rewrite Z.eqb_refl, !orb_true_r. split; lia.
    + destruct I4 as [-> ->]; [discriminate|]. destruct (Z.eqb_spec (c_count (acc_sum (z :: l))) 0) as [E|_].
      * destruct (B5 E) as [-> ->]. rewrite !orb_true_r. split; lia.
      * rewrite !orb_false_r. destruct (Z.ltb_spec (c_min a) (c_min (acc_sum (z :: l)))), (Z.gtb_spec (c_max a) (c_max (acc_sum (z :: l)))); lia.
Qed.

Lemma finish_spec l : Forall acc_ok l -> count_sum l < two63 -> l <> [] ->
  let '(fin, tc, ts) := merge_all l (zeroResult, 0, 0) in finish fin tc ts = result_of (acc_sum l).
Proof.
  intros H Hc Hn. pose proof (merge_all_spec l H Hc) as M. destruct (merge_all l (zeroResult, 0, 0)) as [[fin tc] ts].
  destruct M as (M1 & -> & -> & M4 & M5). destruct (M4 Hn) as [M6 M7]. unfold finish, result_of. rewrite M1, M6, M7, M5.
  f_equal. unfold average. destruct (c_count (acc_sum l) >? 0); reflexivity.
Qed.

(** ** Distribution of the blocks *)
Lemma ztake_plus {A} a n (l : list A) : 0 <= a -> 0 <= n -> ztake a l ++ ztake n (zdrop a l) = ztake (a + n) l.
Proof.
  intros. destruct (Z.le_gt_cases (zlen l) a).
  - rewrite zdrop_all by lia. rewrite (ztake_all a), (ztake_all (a + n)) by lia. unfold ztake. rewrite firstn_nil. apply app_nil_r.
  - rewrite <- (ztake_zdrop a l) at 3. rewrite ztake_app_r by (rewrite zlen_ztake; lia). rewrite zlen_ztake. repeat f_equal. lia.
Qed.
Section Split.
Variable blockIndices : list Z.
Variable numWorkers : nat.
Hypothesis Hn : (0 < numWorkers)%nat.
Notation wb := (workerBlocks blockIndices numWorkers).
Notation bpw := (blocksPerWorker blockIndices numWorkers).

Lemma bpw_bounds : 0 <= bpw /\ zlen blockIndices <= Z.of_nat numWorkers * bpw.
Proof.
  unfold blocksPerWorker. pose proof (zlen_nonneg blockIndices). set (n := zlen blockIndices) in *. clearbody n.
  assert (0 < Z.of_nat numWorkers) by lia. set (m := Z.of_nat numWorkers) in *. clearbody m.
  pose proof (Z.div_mod (n + m - 1) m ltac:(lia)). pose proof (Z.mod_pos_bound (n + m - 1) m ltac:(lia)).
  split; [apply Z.div_pos; lia|nia].
Qed.

Lemma workerBlocks_prefix k : concat (map wb (seq 0 k)) = ztake (Z.of_nat k * bpw) blockIndices.
Proof.
  destruct bpw_bounds as [Hb _].
  induction k as [|k IH]; [cbn; reflexivity|].
  rewrite seq_S, map_app, concat_app, IH, Nat.add_0_l. cbn [map concat]. rewrite app_nil_r.
  unfold workerBlocks. replace (Z.of_nat (S k)) with (Z.of_nat k + 1) by lia.
  set (a := Z.of_nat k * bpw). set (b := (Z.of_nat k + 1) * bpw).
  assert (0 <= a <= b) by (unfold a, b; nia). clearbody a b.
  pose proof (zlen_nonneg blockIndices) as Hl. destruct (Z.gtb_spec b (zlen blockIndices)).
  - destruct (Z.geb_spec a (zlen blockIndices)).
    + rewrite app_nil_r, !ztake_all by lia. reflexivity.
    + unfold slice. rewrite ztake_plus by lia. rewrite !ztake_all by lia. reflexivity.
  - destruct (Z.geb_spec a b); [replace b with a by lia; apply app_nil_r|]. unfold slice.
    rewrite ztake_plus by lia. f_equal. lia.
Qed.

Lemma workerBlocks_all : concat (map wb (seq 0 numWorkers)) = blockIndices.
Proof. rewrite workerBlocks_prefix. apply ztake_all. apply bpw_bounds. Qed.
End Split.

(** ** Updating one worker *)
Lemma set_nth_length {A} (l : list A) : forall i x, length (set_nth i x l) = length l.
Proof. induction l as [|y l IH]; intros [|i] x; cbn; auto. Qed.
Lemma nth_set_nth_eq {A} (l : list A) : forall i x, (i < length l)%nat -> nth_error (set_nth i x l) i = Some x.
Proof. induction l as [|y l IH]; intros [|i] x H; cbn in *; [lia|lia|reflexivity|]. apply IH. lia. Qed.
Lemma nth_set_nth_neq {A} (l : list A) : forall i j x, i <> j -> nth_error (set_nth i x l) j = nth_error l j.
Proof. induction l as [|y l IH]; intros [|i] [|j] x H; cbn; try reflexivity; try congruence. apply IH. congruence. Qed.

Definition active (x : worker) : Z := match x with WIdle | WExit => 0 | _ => 1 end.
Definition active_sum (ws : list worker) : Z := fold_right (fun x n => active x + n) 0 ws.
Lemma active_nonneg ws : 0 <= active_sum ws.
Proof. unfold active_sum. induction ws as [|x ws IH]; cbn [fold_right]; [lia|]. destruct x; cbn [active]; lia. Qed.
Lemma active_set ws : forall i x y, nth_error ws i = Some y -> active_sum (set_nth i x ws) = active_sum ws - active y + active x.
Proof.
  unfold active_sum. induction ws as [|z ws IH]; intros [|i] x y H; cbn in H; try discriminate; cbn [set_nth fold_right].
  - injection H as ->. lia.
  - rewrite (IH i x y H). lia.
Qed.
Lemma active_pos ws i y : nth_error ws i = Some y -> active y <= active_sum ws.
Proof.
  unfold active_sum. revert i. induction ws as [|z ws IH]; intros [|i] H; cbn in H; try discriminate; cbn [fold_right].
  - injection H as ->. pose proof (active_nonneg ws) as G. unfold active_sum in G. lia.
  - specialize (IH i H). destruct z; cbn [active]; lia.
Qed.
Lemma active_some ws : active_sum ws <> 0 -> exists i x, nth_error ws i = Some x /\ active x = 1.
Proof.
  induction ws as [|z ws IH]; intros H; [cbn in H; lia|]. cbn [active_sum fold_right] in H.
  destruct (active z) eqn:E.
  - destruct IH as (i & x & H1 & H2); [exact H|]. exists (S i), x. auto.
  - exists O, z. split; [reflexivity|]. destruct z; cbn in *; congruence.
  - exfalso. destruct z; cbn in E; discriminate.
Qed.

(** ** The machine *)
Section Invariant.
Variable blk : Z -> acc -> res acc.
Variable idx : list Z.
Variable n : nat.
Variable g : Z -> acc.
Hypothesis Hn : (0 < n)%nat.
Hypothesis Hg : forall i, In i idx -> acc_ok (g i).
Hypothesis Hblk : forall i a, In i idx -> acc_ok a -> blk i a = Ok (acc_plus a (g i)).
Hypothesis Hcount : count_sum (map g idx) < two63.
Notation wb := (workerBlocks idx n).
Notation step := (step blk idx n).
Notation run := (run blk idx n).

Definition wres (w : nat) : acc := acc_sum (map g (wb w)).

(** Results sent so far, by the workers numbered from [w]. *)
Definition sent (x : worker) : bool := match x with WDefer | WExit => true | _ => false end.
Definition gift (w : nat) (x : worker) : list acc :=
  if sent x then match wb w with [] => [] | _ => [wres w] end else [].
Fixpoint sent_list (w : nat) (ws : list worker) : list acc :=
  match ws with
  | [] => []
  | x :: ws' => gift w x ++ sent_list (S w) ws'
  end.
Lemma sent_list_set ws : forall w i x y, nth_error ws i = Some y -> sent y = false ->
  Permutation (sent_list w (set_nth i x ws)) (gift (w + i) x ++ sent_list w ws).
Proof.
  induction ws as [|z ws IH]; intros w [|i] x y H Hs; cbn in H; try discriminate; cbn [set_nth sent_list].
  - injection H as ->. rewrite Nat.add_0_r. unfold gift at 3. rewrite Hs. reflexivity.
  - rewrite (IH (S w) i x y H Hs). replace (w + S i)%nat with (S w + i)%nat by lia.
    rewrite !app_assoc. apply Permutation_app_tail, Permutation_app_comm.
Qed.
Lemma sent_list_same ws : forall w i x y, nth_error ws i = Some y -> sent y = sent x ->
  sent_list w (set_nth i x ws) = sent_list w ws.
Proof.
  induction ws as [|z ws IH]; intros w [|i] x y H Hs; cbn in H; try discriminate; cbn [set_nth sent_list].
  - injection H as ->. unfold gift. rewrite Hs. reflexivity.
  - rewrite (IH (S w) i x y H Hs). reflexivity.
Qed.
Lemma sent_list_short ws : forall w i y, nth_error ws i = Some y -> sent y = false ->
  (length (sent_list w ws) < length ws)%nat.
Proof.
  assert (L : forall ws w, (length (sent_list w ws) <= length ws)%nat).
  { clear. induction ws as [|z ws IH]; intros w; cbn [sent_list length]; [lia|]. rewrite app_length. specialize (IH (S w)).
    unfold gift. destruct (sent z), (wb w); cbn; lia. }
  induction ws as [|z ws IH]; intros w [|i] y H Hs; cbn in H; try discriminate; cbn [sent_list length]; rewrite app_length.
  - injection H as ->. specialize (L ws (S w)). unfold gift. rewrite Hs. cbn. lia.
  - specialize (IH (S w) i y H Hs). unfold gift. destruct (sent z), (wb w); cbn; lia.
Qed.

Definition all_results : list acc := flat_map (fun w => gift w WExit) (seq 0 n).
Lemma sent_list_all ws w : (forall i x, nth_error ws i = Some x -> x = WExit) ->
  sent_list w ws = flat_map (fun w => gift w WExit) (seq w (length ws)).
Proof.
  revert w. induction ws as [|z ws IH]; intros w H; [reflexivity|]. cbn [sent_list length seq flat_map].
  rewrite (H O z eq_refl). f_equal. apply IH. intros i x Hi. apply (H (S i)). exact Hi.
Qed.

Definition worker_ok (w : nat) (x : worker) : Prop :=
  match x with
  | WLoop todo a => exists pre, wb w = pre ++ todo /\ a = acc_sum (map g pre) /\ wb w <> []
  | WSend r => r = result_of (wres w) /\ wb w <> []
  | _ => True
  end.
Definition chan_ok (s : pstate) : Prop :=
  exists rest, p_chan s = map result_of rest /\ Permutation rest (sent_list 0 (p_workers s)).
Definition all_exit (ws : list worker) : Prop := forall w x, nth_error ws w = Some x -> x = WExit.

Definition main_ok (s : pstate) : Prop :=
  let ws := p_workers s in
  match p_main s with
  | MAdd k => (k <= n)%nat /\ p_closed s = false /\ (forall w x, nth_error ws w = Some x -> (x = WIdle <-> (k <= w)%nat))
              /\ p_wg s = active_sum ws /\ chan_ok s
  | MGo k => (k < n)%nat /\ p_closed s = false /\ (forall w x, nth_error ws w = Some x -> (x = WIdle <-> (k <= w)%nat))
              /\ p_wg s = active_sum ws + 1 /\ chan_ok s
  | MWait => p_closed s = false /\ (forall w x, nth_error ws w = Some x -> x <> WIdle)
              /\ p_wg s = active_sum ws /\ chan_ok s
  | MClose => p_closed s = false /\ all_exit ws /\ p_wg s = 0 /\ chan_ok s
  | MMerge fin tc ts => p_closed s = true /\ all_exit ws /\ p_wg s = 0
              /\ exists done rest, merge_all done (zeroResult, 0, 0) = (fin, tc, ts)
                   /\ p_chan s = map result_of rest /\ Permutation (done ++ rest) all_results
  | MDone r => exists done, Permutation done all_results
                 /\ r = (let '(fin, tc, ts) := merge_all done (zeroResult, 0, 0) in finish fin tc ts)
                 /\ all_exit ws /\ p_chan s = []
  end.
Definition Inv (s : pstate) : Prop :=
  p_crashed s = false /\ length (p_workers s) = n
  /\ (forall w x, nth_error (p_workers s) w = Some x -> worker_ok w x) /\ main_ok s.

Lemma count_sub (l1 l2 l3 : list Z) : idx = l1 ++ l2 ++ l3 -> Forall acc_ok (map g l2) /\ count_sum (map g l2) < two63.
Proof.
  intros E. assert (HF : Forall acc_ok (map g idx)) by (apply Forall_map, Forall_forall; exact Hg).
  rewrite E, !map_app in HF. pose proof Hcount as HC. rewrite E, !map_app, !count_sum_app in HC.
  apply Forall_app in HF. destruct HF as [F1 HF]. apply Forall_app in HF. destruct HF as [F2 F3].
  split; [exact F2|]. pose proof (count_sum_nonneg _ F1). pose proof (count_sum_nonneg _ F3). lia.
Qed.
Lemma wb_sub w : (w < n)%nat -> exists l1 l3, idx = l1 ++ wb w ++ l3.
Proof.
  intros Hw. pose proof (workerBlocks_all idx n Hn) as E.
  exists (concat (map wb (seq 0 w))), (concat (map wb (seq (S w) (n - S w)))).
  assert (Es : seq 0 n = seq 0 w ++ w :: seq (S w) (n - S w)).
  { replace n with (w + S (n - S w))%nat at 1 by lia. rewrite seq_app. reflexivity. }
  rewrite Es, map_app, concat_app in E. symmetry. exact E.
Qed.

Lemma loop_step w pre i todo : (w < n)%nat -> wb w = pre ++ i :: todo ->
  blk i (acc_sum (map g pre)) = Ok (acc_sum (map g (pre ++ [i]))).
Proof.
  intros Hw E. destruct (wb_sub w Hw) as (l1 & l3 & EI). rewrite E in EI.
  assert (Hin : In i idx) by (rewrite EI; apply in_or_app; right; apply in_or_app; left; apply in_or_app; right; left; reflexivity).
  destruct (count_sub l1 pre (i :: todo ++ l3)) as [F1 F2]; [rewrite EI, <- app_assoc; reflexivity|].
  rewrite Hblk; [|exact Hin|apply acc_sum_ok; assumption]. f_equal.
  rewrite map_app. cbn [map]. pose proof (Hg i Hin) as Hgi. rewrite acc_sum_app; [|constructor; [exact Hgi|constructor]|].
  - cbn [acc_sum fold_right]. rewrite acc_0_plus by exact Hgi. reflexivity.
  - rewrite count_sum_cons. change (count_sum []) with 0. destruct Hgi as (? & _). lia.
Qed.

(** The part of [main_ok] that a worker step can touch. *)
Lemma main_ok_worker s s' w x y :
  Inv s -> nth_error (p_workers s) w = Some x -> active x = 1 -> y <> WIdle ->
  p_main s' = p_main s -> p_closed s' = p_closed s -> p_workers s' = set_nth w y (p_workers s) ->
  p_crashed s' = false ->
  p_wg s' = p_wg s - active x + active y ->
  worker_ok w y ->
  (p_closed s = false -> chan_ok s -> chan_ok s') -> Inv s'.
Proof.
  intros (I1 & I2 & I3 & I4) Hx Ha Hy Em Ec Ew Ecr Eg Hok Hch.
  assert (Hlt : (w < length (p_workers s))%nat) by (apply nth_error_Some; congruence).
  split; [exact Ecr|]. split; [rewrite Ew, set_nth_length; exact I2|]. split.
  { intros v z Hz. rewrite Ew in Hz. destruct (Nat.eq_dec w v) as [<-|Nv].
    - rewrite nth_set_nth_eq in Hz by exact Hlt. injection Hz as <-. exact Hok.
    - rewrite nth_set_nth_neq in Hz by exact Nv. apply I3. exact Hz. }
  assert (Hidle : forall k, (forall v z, nth_error (p_workers s) v = Some z -> (z = WIdle <-> (k <= v)%nat)) ->
     forall v z, nth_error (p_workers s') v = Some z -> (z = WIdle <-> (k <= v)%nat)).
  { intros k Hk v z Hz. rewrite Ew in Hz. destruct (Nat.eq_dec w v) as [<-|Nv].
    - rewrite nth_set_nth_eq in Hz by exact Hlt. injection Hz as <-. specialize (Hk w x Hx).
      assert (x <> WIdle) by (intros ->; discriminate). split; [intros; contradiction|intros L; apply Hk in L; contradiction].
    - rewrite nth_set_nth_neq in Hz by exact Nv. apply Hk. exact Hz. }
  assert (Hact : active_sum (p_workers s') = active_sum (p_workers s) - active x + active y).
  { rewrite Ew. apply active_set. exact Hx. }
  assert (Hne : all_exit (p_workers s) -> False) by (intros G; apply G in Hx; subst x; discriminate).
  unfold main_ok in *. rewrite Em, Ec, Eg, Hact. destruct (p_main s) as [k|k| | |fin tc ts|r].
  - destruct I4 as (J1 & J2 & J3 & J4 & J5). repeat (split; [auto; lia|]). auto.
  - destruct I4 as (J1 & J2 & J3 & J4 & J5). repeat (split; [auto; lia|]). auto.
  - destruct I4 as (J2 & J3 & J4 & J5). split; [exact J2|]. split.
    { intros v z Hz. rewrite Ew in Hz. destruct (Nat.eq_dec w v) as [<-|Nv].
      - rewrite nth_set_nth_eq in Hz by exact Hlt. injection Hz as <-. exact Hy.
      - rewrite nth_set_nth_neq in Hz by exact Nv. eapply J3. exact Hz. }
    split; [lia|auto].
  - destruct I4 as (_ & J & _). contradiction.
  - destruct I4 as (_ & J & _). contradiction.
  - destruct I4 as (d & _ & _ & J & _). contradiction.
Qed.

Lemma chan_ok_same s s' w x y : nth_error (p_workers s) w = Some x -> sent x = sent y ->
  p_workers s' = set_nth w y (p_workers s) -> p_chan s' = p_chan s -> chan_ok s -> chan_ok s'.
Proof.
  intros Hx Hs Ew Ec (rest & R1 & R2). exists rest. rewrite Ec, Ew, (sent_list_same _ _ _ _ x) by (assumption || congruence). auto.
Qed.

(** Weights for termination. *)
Definition weight (w : nat) (x : worker) : nat :=
  match x with
  | WIdle => length (wb w) + 6
  | WStart => length (wb w) + 5
  | WLoop todo _ => length todo + 4
  | WSend _ => 3
  | WDefer => 1
  | WExit => 0
  end.
Fixpoint weights (w : nat) (ws : list worker) : nat :=
  match ws with [] => 0 | x :: ws' => weight w x + weights (S w) ws' end.
Lemma weights_set ws : forall w i x y, nth_error ws i = Some y ->
  (weights w (set_nth i x ws) + weight (w + i) y = weights w ws + weight (w + i) x)%nat.
Proof.
  induction ws as [|z ws IH]; intros w [|i] x y H; cbn in H; try discriminate; cbn [set_nth weights].
  - injection H as ->. rewrite Nat.add_0_r. lia.
  - specialize (IH (S w) i x y H). replace (w + S i)%nat with (S w + i)%nat by lia. lia.
Qed.
Definition main_weight (m : mainpc) : nat :=
  match m with
  | MAdd k => 2 * (n - k) + 5
  | MGo k => 2 * (n - k) + 4
  | MWait => 3
  | MClose => 2
  | MMerge _ _ _ => 1
  | MDone _ => 0
  end.
Definition measure (s : pstate) : nat := (main_weight (p_main s) + weights 0 (p_workers s) + length (p_chan s))%nat.

Lemma worker_step_inv s w : Inv s -> 
  match step_worker blk idx n s w with
  | Some s' => Inv s' /\ (measure s' < measure s)%nat
  | None => forall x, nth_error (p_workers s) w = Some x -> active x = 0
  end.
Proof.
  intros HI. destruct HI as (I1 & I2 & I3 & I4). assert (HI : Inv s) by (split; auto).
  unfold step_worker. destruct (nth_error (p_workers s) w) as [x|] eqn:Hx; [|intros y Hy; discriminate].
  assert (Hw : (w < n)%nat) by (rewrite <- I2; apply nth_error_Some; congruence).
  pose proof (I3 w x Hx) as Hok. pose proof (fun y => weights_set (p_workers s) 0 w y x Hx) as HW. cbn [Nat.add] in HW.
  destruct x as [| |todo a|r| |].
  - intros y Hy. injection Hy as <-. reflexivity.
  - (* start *)
    destruct (wb w) as [|b l] eqn:Eb.
    + split.
      * eapply (main_ok_worker s _ w WStart WDefer); try reflexivity; try exact HI; try exact Hx; try discriminate; try exact I1; try exact I.
        { cbn. lia. }
        intros _ (rest & R1 & R2). exists rest. split; [exact R1|]. cbn [set_worker p_workers].
        rewrite (sent_list_set _ 0 w WDefer WStart Hx eq_refl). unfold gift. cbn [sent Nat.add]. rewrite Eb. exact R2.
      * specialize (HW WDefer). cbn [weight] in HW. unfold measure. cbn [set_worker p_main p_workers p_chan]. lia.
    + split.
      * eapply (main_ok_worker s _ w WStart (WLoop (b :: l) acc0)); try reflexivity; try exact HI; try exact Hx; try discriminate; try exact I1.
        { cbn. lia. }
        { exists []. split; [exact Eb|]. split; [reflexivity|]. rewrite Eb. discriminate. }
        intros _. eapply chan_ok_same; [exact Hx| |reflexivity|reflexivity]; reflexivity.
      * specialize (HW (WLoop (b :: l) acc0)). cbn [weight] in HW. rewrite Eb in HW. unfold measure. cbn [set_worker p_main p_workers p_chan]. lia.
  - (* loop *)
    destruct Hok as (pre & E1 & E2 & E3). destruct todo as [|i todo].
    + rewrite app_nil_r in E1. split.
      * eapply (main_ok_worker s _ w (WLoop [] a) (WSend (result_of a))); try reflexivity; try exact HI; try exact Hx; try discriminate; try exact I1.
        { cbn. lia. }
        { split; [unfold wres; rewrite E1, E2; reflexivity|exact E3]. }
        intros _. eapply chan_ok_same; [exact Hx| |reflexivity|reflexivity]; reflexivity.
      * specialize (HW (WSend (result_of a))). cbn [weight length] in HW. unfold measure. cbn [set_worker p_main p_workers p_chan]. lia.
    + rewrite E2, (loop_step w pre i todo Hw E1). split.
      * eapply (main_ok_worker s _ w (WLoop (i :: todo) a) (WLoop todo (acc_sum (map g (pre ++ [i]))))); try reflexivity; try exact HI; try exact Hx; try discriminate; try exact I1.
        { cbn. lia. }
        { exists (pre ++ [i]). split; [rewrite <- app_assoc; exact E1|]. split; [reflexivity|exact E3]. }
        intros _. eapply chan_ok_same; [exact Hx| |reflexivity|reflexivity]; reflexivity.
      * specialize (HW (WLoop todo (acc_sum (map g (pre ++ [i]))))). cbn [weight length] in HW. unfold measure.
        cbn [set_worker p_main p_workers p_chan]. lia.
  - (* send *)
    destruct Hok as [-> E3].
    assert (Hc : p_closed s = false /\ chan_ok s).
    { unfold main_ok in I4. assert (Hne : all_exit (p_workers s) -> False) by (intros G; apply G in Hx; discriminate).
      destruct (p_main s); [| | |destruct I4 as (_ & J & _); contradiction|destruct I4 as (_ & J & _); contradiction|destruct I4 as (d & _ & _ & J & _); contradiction];
        tauto. }
    destruct Hc as [Hcl Hch]. rewrite Hcl.
    assert (Hlen : (length (p_chan s) < n)%nat).
    { destruct Hch as (rest & R1 & R2). rewrite R1, map_length, (Permutation_length R2), <- I2. eapply sent_list_short; [exact Hx|reflexivity]. }
    apply Nat.ltb_lt in Hlen. rewrite Hlen. split.
    + eapply (main_ok_worker s _ w (WSend (result_of (wres w))) WDefer); try reflexivity; try exact HI; try exact Hx; try discriminate; try exact I1; try exact I.
      { cbn. lia. }
      intros _ (rest & R1 & R2). exists (rest ++ [wres w]). split; [cbn; rewrite R1, map_app; reflexivity|].
      cbn [set_worker set_chan p_workers]. rewrite (sent_list_set _ 0 w WDefer _ Hx eq_refl). unfold gift. cbn [sent Nat.add].
      destruct (wb w); [contradiction|]. rewrite R2. apply Permutation_app_comm.
    + specialize (HW WDefer). cbn [weight] in HW. unfold measure. cbn [set_worker set_chan p_main p_workers p_chan]. rewrite app_length. cbn [length]. lia.
  - (* defer *)
    assert (Hwg : 1 <= p_wg s).
    { pose proof (active_pos _ _ _ Hx) as Ha. cbn [active] in Ha. unfold main_ok in I4.
      assert (Hne : all_exit (p_workers s) -> False) by (intros G; apply G in Hx; discriminate).
      destruct (p_main s); [| | |destruct I4 as (_ & J & _); contradiction|destruct I4 as (_ & J & _); contradiction|destruct I4 as (d & _ & _ & J & _); contradiction];
        decompose [and] I4; lia. }
    destruct (Z.leb_spec (p_wg s) 0); [lia|]. split.
    + eapply (main_ok_worker s _ w WDefer WExit); try reflexivity; try exact HI; try exact Hx; try discriminate; try exact I1; try exact I.
      { cbn. lia. }
      intros _. eapply chan_ok_same; [exact Hx| |reflexivity|reflexivity]; reflexivity.
    + specialize (HW WExit). cbn [weight] in HW. unfold measure. cbn [set_worker set_wg p_main p_workers p_chan]. lia.
  - intros y Hy. injection Hy as <-. reflexivity.
Qed.

Lemma main_step_inv s : Inv s ->
  match step_main n s with
  | Some s' => Inv s' /\ (measure s' < measure s)%nat
  | None => (exists r, p_main s = MDone r) \/ exists w x, nth_error (p_workers s) w = Some x /\ active x = 1
  end.
Proof.
  intros (I1 & I2 & I3 & I4). unfold step_main, main_ok in *. destruct (p_main s) as [k|k| | |fin tc ts|r] eqn:Em.
  - destruct I4 as (J1 & J2 & J3 & J4 & J5). destruct (Nat.ltb_spec k n).
    + split.
      * split; [exact I1|]. split; [exact I2|]. split; [exact I3|]. unfold main_ok. cbn [set_main set_wg p_main p_workers p_closed p_wg].
        split; [lia|]. split; [exact J2|]. split; [exact J3|]. split; [lia|exact J5].
      * unfold measure. cbn [set_main set_wg p_main p_workers p_chan]. rewrite Em. cbn [main_weight]. lia.
    + split.
      * split; [exact I1|]. split; [exact I2|]. split; [exact I3|]. unfold main_ok. cbn [set_main p_main p_workers p_closed p_wg].
        split; [exact J2|]. split; [|auto]. intros v z Hz ->. assert (v < length (p_workers s))%nat by (apply nth_error_Some; congruence).
        apply J3 in Hz. destruct Hz as [Hz _]. specialize (Hz eq_refl). lia.
      * unfold measure. cbn [set_main p_main p_workers p_chan]. rewrite Em. cbn [main_weight]. lia.
  - destruct I4 as (J1 & J2 & J3 & J4 & J5).
    destruct (nth_error (p_workers s) k) as [x|] eqn:Hx; [|apply nth_error_None in Hx; lia].
    assert (x = WIdle) as -> by (apply (J3 k x Hx); lia).
    assert (Hlt : (k < length (p_workers s))%nat) by lia. split.
    + split; [exact I1|]. split; [cbn; rewrite set_nth_length; exact I2|]. split.
      { cbn [set_main set_worker p_workers]. intros v z Hz. destruct (Nat.eq_dec k v) as [<-|Nv].
        - rewrite nth_set_nth_eq in Hz by exact Hlt. injection Hz as <-. exact I.
        - rewrite nth_set_nth_neq in Hz by exact Nv. apply I3. exact Hz. }
      unfold main_ok. cbn [set_main set_worker p_main p_workers p_closed p_wg]. split; [lia|]. split; [exact J2|]. split.
      { intros v z Hz. destruct (Nat.eq_dec k v) as [<-|Nv].
        - rewrite nth_set_nth_eq in Hz by exact Hlt. injection Hz as <-. split; [discriminate|lia].
        - rewrite nth_set_nth_neq in Hz by exact Nv. rewrite (J3 v z Hz). lia. }
      split; [rewrite (active_set _ _ _ _ Hx); cbn [active]; lia|].
      eapply chan_ok_same; [exact Hx| |reflexivity|reflexivity|exact J5]; reflexivity.
    + pose proof (weights_set (p_workers s) 0 k WStart WIdle Hx) as HW. cbn [Nat.add weight] in HW.
      unfold measure. cbn [set_main set_worker p_main p_workers p_chan]. rewrite Em. cbn [main_weight]. lia.
  - destruct I4 as (J2 & J3 & J4 & J5). destruct (Z.eqb_spec (p_wg s) 0) as [E|E].
    + split.
      * split; [exact I1|]. split; [exact I2|]. split; [exact I3|]. unfold main_ok. cbn [set_main p_main p_workers p_closed p_wg].
        split; [exact J2|]. split; [|auto]. intros v z Hz. pose proof (active_pos _ _ _ Hz) as Ha. specialize (J3 v z Hz).
        destruct z; cbn [active] in Ha; try reflexivity; try contradiction; lia.
      * unfold measure. cbn [set_main p_main p_workers p_chan]. rewrite Em. cbn [main_weight]. lia.
    + right. apply active_some. congruence.
  - destruct I4 as (J1 & J2 & J3 & rest & R1 & R2). split.
    + split; [exact I1|]. split; [exact I2|]. split; [exact I3|]. unfold main_ok. cbn [set_main close_chan p_main p_workers p_closed p_wg p_chan].
      split; [reflexivity|]. split; [exact J2|]. split; [exact J3|]. exists [], rest. split; [reflexivity|]. split; [exact R1|].
      cbn [app]. rewrite R2, (sent_list_all _ _ J2), I2. reflexivity.
    + unfold measure. cbn [set_main close_chan p_main p_workers p_chan]. rewrite Em. cbn [main_weight]. lia.
  - destruct I4 as (J1 & J2 & J3 & done & rest & D1 & D2 & D3). rewrite D2. destruct rest as [|a rest]; cbn [map].
    + rewrite J1. split.
      * split; [exact I1|]. split; [exact I2|]. split; [exact I3|]. unfold main_ok. cbn [set_main p_main p_workers p_chan].
        exists done. rewrite app_nil_r in D3. split; [exact D3|]. rewrite D1. split; [reflexivity|]. split; [exact J2|exact D2].
      * unfold measure. cbn [set_main p_main p_workers p_chan]. rewrite Em. cbn [main_weight]. lia.
    + destruct (merge_result fin (result_of a) tc ts) as [[fin' tc'] ts'] eqn:EM. split.
      * split; [exact I1|]. split; [exact I2|]. split; [exact I3|]. unfold main_ok. cbn [set_main set_chan p_main p_workers p_closed p_wg p_chan].
        split; [exact J1|]. split; [exact J2|]. split; [exact J3|]. exists (done ++ [a]), rest.
        split; [unfold merge_all in *; rewrite fold_left_app, D1; cbn [fold_left fst snd]; exact EM|]. split; [reflexivity|].
        rewrite <- app_assoc. exact D3.
      * unfold measure. cbn [set_main set_chan p_main p_workers p_chan]. rewrite Em, D2. cbn [main_weight map length]. lia.
  - left. eauto.
Qed.

(** ** Consequences *)
Lemma pinit_inv : Inv (pinit n).
Proof.
  unfold pinit. split; [reflexivity|]. cbn [p_workers p_main]. split; [apply repeat_length|].
  assert (R : forall w x, nth_error (repeat WIdle n) w = Some x -> x = WIdle).
  { intros w x H. apply nth_error_In, repeat_spec in H. exact H. }
  split; [intros w x H; rewrite (R w x H); exact I|].
  unfold main_ok. cbn [p_main p_workers p_closed p_wg p_chan]. split; [lia|]. split; [reflexivity|].
  split; [intros w x H; rewrite (R w x H); split; [lia|reflexivity]|]. split.
  - clear. induction n as [|m IH]; [reflexivity|]. cbn. exact IH.
  - exists []. split; [reflexivity|]. cbn [p_workers]. generalize 0%nat as w. clear. induction n as [|m IH]; intros w; [reflexivity|]. cbn. apply IH.
Qed.

Lemma step_inv s t s' : Inv s -> step s t = Some s' -> Inv s' /\ (measure s' < measure s)%nat.
Proof.
  intros HI H. unfold Parallel.step in H. destruct (p_crashed s); [discriminate|]. destruct t as [|w].
  - pose proof (main_step_inv s HI) as M. rewrite H in M. exact M.
  - pose proof (worker_step_inv s w HI) as M. rewrite H in M. exact M.
Qed.
Lemma run_inv sched : forall s, Inv s -> Inv (run sched s).
Proof.
  induction sched as [|t sched IH]; intros s HI; cbn [Parallel.run]; [exact HI|]. apply IH.
  destruct (step s t) as [s'|] eqn:E; [|exact HI]. eapply step_inv; eassumption.
Qed.

Lemma progress s : Inv s -> outcome s = None -> exists t s', step s t = Some s'.
Proof.
  intros HI Ho. destruct HI as (I1 & I2 & I3 & I4). assert (HI : Inv s) by (split; auto).
  unfold outcome in Ho. rewrite I1 in Ho. unfold Parallel.step. rewrite I1.
  pose proof (main_step_inv s HI) as M. destruct (step_main n s) as [s'|] eqn:E; [exists 0%nat, s'; (exact E || reflexivity)|].
  destruct M as [[r Hr]|(w & x & Hx & Ha)]; [rewrite Hr in Ho; discriminate|].
  pose proof (worker_step_inv s w HI) as W. exists (S w). destruct (step_worker blk idx n s w) as [s'|]; [eauto|].
  specialize (W x Hx). congruence.
Qed.

Lemma chunks_sum (L : list (list Z)) : Forall acc_ok (map g (concat L)) -> count_sum (map g (concat L)) < two63 ->
  let rs := flat_map (fun c => match c with [] => [] | _ => [acc_sum (map g c)] end) L in
  acc_sum rs = acc_sum (map g (concat L)) /\ Forall acc_ok rs /\ count_sum rs = count_sum (map g (concat L))
  /\ (concat L <> [] -> rs <> []).
Proof.
  cbv zeta. induction L as [|c L IH]; intros HF HC.
  - cbn. repeat split; auto.
  - cbn [concat flat_map] in *. rewrite map_app in *. rewrite count_sum_app in HC. apply Forall_app in HF. destruct HF as [F1 F2].
    pose proof (count_sum_nonneg _ F1). pose proof (count_sum_nonneg _ F2).
    destruct IH as (A1 & A2 & A3 & A4); [exact F2|lia|].
    destruct (acc_sum_ok (map g c) F1 ltac:(lia)) as [B1 B2].
    destruct c as [|b c]; [cbn [app map]; auto|].
    cbn [app]. split; [|split; [|split]].
    + rewrite acc_sum_app; [|exact F2|lia]. rewrite <- A1. reflexivity.
    + constructor; assumption.
    + rewrite count_sum_app, count_sum_cons, A3, B2. reflexivity.
    + discriminate.
Qed.
Lemma all_results_sum : acc_sum all_results = acc_sum (map g idx) /\ Forall acc_ok all_results
  /\ count_sum all_results < two63 /\ (idx <> [] -> all_results <> []).
Proof.
  assert (E : all_results = flat_map (fun c => match c with [] => [] | _ => [acc_sum (map g c)] end) (map wb (seq 0 n))).
  { unfold all_results. rewrite !flat_map_concat_map, map_map. f_equal. }
  pose proof (workerBlocks_all idx n Hn) as EI.
  destruct (chunks_sum (map wb (seq 0 n))) as (A1 & A2 & A3 & A4).
  - rewrite EI. apply Forall_map, Forall_forall. exact Hg.
  - rewrite EI. exact Hcount.
  - rewrite EI, <- E in *. repeat split; [exact A1|exact A2|lia|exact A4].
Qed.

(** Whatever the schedule, a finished call has the sequential result; it never panics. *)
Theorem parallel_result sched x : idx <> [] -> outcome (run sched (pinit n)) = Some x ->
  x = Ok (result_of (acc_sum (map g idx))).
Proof.
  intros Hi Ho. pose proof (run_inv sched _ pinit_inv) as HI. set (s := run sched (pinit n)) in *. clearbody s.
  destruct HI as (I1 & I2 & I3 & I4). unfold outcome in Ho. rewrite I1 in Ho.
  unfold main_ok in I4. destruct (p_main s) as [| | | | |r]; try discriminate. injection Ho as <-.
  destruct I4 as (done & HP & -> & _). destruct all_results_sum as (A1 & A2 & A3 & A4).
  assert (done <> []). { intros ->. apply Permutation_nil in HP. apply (A4 Hi). exact HP. }
  pose proof (finish_spec done) as F. destruct (merge_all done (zeroResult, 0, 0)) as [[fin tc] ts].
  rewrite F; [|eapply Permutation_Forall; [symmetry; exact HP|exact A2]|rewrite (count_sum_perm _ _ HP); exact A3|assumption].
  rewrite (acc_sum_perm _ _ HP), A1. reflexivity.
Qed.

(** No schedule gets stuck before the call returns, and no schedule takes more than
    [measure (pinit n)] steps. *)
Theorem parallel_progress sched : outcome (run sched (pinit n)) = None -> exists t s', step (run sched (pinit n)) t = Some s'.
Proof. apply progress. apply run_inv, pinit_inv. Qed.

Lemma execution_inv s ts s' : Inv s -> execution blk idx n s ts s' -> Inv s' /\ (length ts + measure s' <= measure s)%nat.
Proof.
  intros HI H. induction H as [s|s t ts s1 s2 Hs _ IH]; [cbn; split; [exact HI|lia]|].
  destruct (step_inv _ _ _ HI Hs) as [H1 H2]. destruct (IH H1) as [H3 H4]. split; [exact H3|]. cbn. lia.
Qed.

Lemma send_enabled s w r : Inv s -> nth_error (p_workers s) w = Some (WSend r) -> exists s', step s (S w) = Some s'.
Proof.
  intros HI Hx. pose proof (worker_step_inv s w HI) as W. destruct HI as (I1 & _). unfold Parallel.step. rewrite I1.
  destruct (step_worker blk idx n s w) as [s'|]; [eauto|]. specialize (W _ Hx). discriminate.
Qed.
End Invariant.
