(** The generator of the load test tool draws every random number once, in order. *)
From Coq Require Import Lia.
From Verif Require Import Machine MachineFacts Encoding Sroar FileIO Writer SimpleWriter Reader Aggregate Parallel Spec Loadtest LoadSpec.

Section Draws.
Variable draws : nat -> Z.
Variables maxValue maxID : Z.
Hypothesis HS : sensible maxValue maxID.

Lemma id_from prev k id k' : nextID draws maxID prev k = Ok (id, k') ->
  exists used, id_drawn maxID prev used id /\ used = map draws (seq k (length used)) /\ (k' = k + length used)%nat.
Proof.
  destruct HS as [HM HI]. unfold nextID, Int63n. rewrite (i64_id maxID) by (unfold is_i64; lia). destruct (Z.leb_spec maxID 0); [lia|]. destruct (Z.leb_spec 10 0); [lia|].
  assert (U : forall x, u64 (x mod maxID) = x mod maxID) by (intros x; apply u64_id; pose proof (Z.mod_pos_bound x maxID ltac:(lia)); unfold is_u64, two63, two64 in *; lia).
  destruct prev as [p|]; [unfold below; destruct (Z.ltb_spec (draws k mod 10) 9)|]; cbn [rbind]; intros [= <- <-].
  - exists [draws k; draws (k + 1)%nat]. split; [|split; [cbn; rewrite Nat.add_1_r; reflexivity|reflexivity]]. exists (draws k), (draws (k + 1)%nat). split; [reflexivity|]. left.
    split; [assumption|]. rewrite u64_add_r. unfold u64. f_equal. lia.
  - exists [draws k; draws (k + 1)%nat]. split; [|split; [cbn; rewrite Nat.add_1_r; reflexivity|reflexivity]]. exists (draws k), (draws (k + 1)%nat). split; [reflexivity|]. right. split; [lia|apply U].
  - exists [draws k]. split; [|split; reflexivity]. exists (draws k). split; [reflexivity|apply U].
Qed.
Lemma value_from id k v k' : nextValue draws maxValue id k = Ok (v, k') ->
  exists used, value_drawn maxValue id used v /\ used = map draws (seq k (length used)) /\ (k' = k + length used)%nat.
Proof.
  destruct HS as [HM HI]. unfold nextValue, Int63n. replace (Z.quot maxValue 10) with (maxValue / 10) by (symmetry; apply Z.quot_div_nonneg; lia).
  replace (Z.quot maxValue 20) with (maxValue / 20) by (symmetry; apply Z.quot_div_nonneg; lia).
  rewrite (u64_id maxValue) by (unfold is_u64, two63, two64 in *; lia).
  assert (1 <= maxValue / 10) by (apply Z.div_le_lower_bound; lia).
  destruct (Z.eqb_spec maxValue 0); [lia|]. destruct (Z.leb_spec (maxValue / 10) 0); [lia|]. destruct (Z.leb_spec maxValue 0); [lia|].
  unfold below. destruct (Z.ltb_spec (draws k mod 10) 7); cbn [rbind]; intros [= <- <-]; (exists [draws k; draws (k + 1)%nat]; split; [|split; [cbn; rewrite Nat.add_1_r; reflexivity|reflexivity]]);
    exists (draws k), (draws (k + 1)%nat); (split; [reflexivity|]).
  - left. split; [assumption|]. rewrite i64_add_r, i64_add_l. f_equal. lia.
  - right. split; [assumption|reflexivity].
Qed.
Lemma seq_apart (u1 u2 : list Z) k : u1 = map draws (seq k (length u1)) -> u2 = map draws (seq (k + length u1) (length u2)) -> u1 ++ u2 = map draws (seq k (length (u1 ++ u2))).
Proof. intros E1 E2. rewrite app_length, seq_app, map_app. rewrite <- E1, <- E2. reflexivity. Qed.
Lemma batch_from n : forall prev k ids vals k', makeBatch draws maxValue maxID n prev k = Ok (ids, vals, k') ->
  exists used, pairs_drawn maxValue maxID prev used (combine ids vals) /\ used = map draws (seq k (length used)) /\ (k' = k + length used)%nat /\ length (combine ids vals) = n.
Proof.
  induction n as [|n IH]; intros prev k ids vals k' H; cbn [makeBatch] in H.
  - injection H as <- <- <-. exists []. split; [constructor|]. cbn. auto.
  - destruct (nextID draws maxID prev k) as [[id k1]|e|] eqn:E1; cbn [rbind] in H; try discriminate.
    destruct (nextValue draws maxValue id k1) as [[v k2]|e|] eqn:E2; cbn [rbind] in H; try discriminate.
    destruct (makeBatch draws maxValue maxID n (Some id) k2) as [[[ids0 vals0] k3]|e|] eqn:E3; cbn [rbind] in H; try discriminate. injection H as <- <- <-.
    destruct (id_from _ _ _ _ E1) as (u1 & D1 & S1 & K1). destruct (value_from _ _ _ _ E2) as (u2 & D2 & S2 & K2). destruct (IH _ _ _ _ _ E3) as (u3 & D3 & S3 & K3 & L3). subst k1 k2.
    exists (u1 ++ u2 ++ u3). split; [cbn [combine]; apply pairs_drawn_more with (id := id); assumption|].
    split; [apply seq_apart; [exact S1|]; apply seq_apart; [exact S2|exact S3]|]. split; [rewrite !app_length; lia|]. cbn [combine length]. lia.
Qed.
Theorem generated_draws total k batches : generated draws maxValue maxID total k batches ->
  exists used, batches_drawn maxValue maxID total used batches /\ used = map draws (seq k (length used)).
Proof.
  induction 1 as [total k H|total k ids vals k' rest H M G (used & IH & S)].
  - exists []. split; [constructor; exact H|reflexivity].
  - destruct (batch_from _ _ _ _ _ _ M) as (u & D & S' & -> & L). exists (u ++ used). split; [|apply seq_apart; assumption].
    apply batches_drawn_more; [exact H| |exact D|exact IH]. unfold zlen. rewrite L. lia.
Qed.
End Draws.
