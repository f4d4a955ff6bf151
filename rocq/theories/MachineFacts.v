(** Lemmas about the basic definitions of Machine.v. *)
From Verif Require Import Machine.
Ltac Zify.zify_post_hook ::= Z.div_mod_to_equations.

(** ** Numbers *)
Lemma u64_id x : is_u64 x -> u64 x = x.
Proof. unfold is_u64, u64, two64. intros. apply Z.mod_small. lia. Qed.
Lemma u32_id x : is_u32 x -> u32 x = x.
Proof. unfold is_u32, u32, two32. intros. apply Z.mod_small. lia. Qed.
Lemma i64_id x : is_i64 x -> i64 x = x.
Proof. unfold is_i64, i64, two63, two64. intros. rewrite Z.mod_small; lia. Qed.
Lemma u64_range x : is_u64 (u64 x).
Proof. unfold is_u64, u64, two64. apply Z.mod_pos_bound. lia. Qed.
Lemma u32_range x : is_u32 (u32 x).
Proof. unfold is_u32, u32, two32. apply Z.mod_pos_bound. lia. Qed.
Lemma i64_range x : is_i64 (i64 x).
Proof. unfold is_i64, i64, two63, two64. lia. Qed.

Lemma i64_u64 x : i64 (u64 x) = i64 x.
Proof. unfold i64, u64. rewrite Zplus_mod_idemp_l. reflexivity. Qed.
Lemma u64_i64 x : u64 (i64 x) = u64 x.
Proof.
  unfold i64, u64. rewrite Zminus_mod_idemp_l. f_equal. lia.
Qed.
Lemma i64_add_l x y : i64 (i64 x + y) = i64 (x + y).
Proof.
  unfold i64. replace ((x + two63) mod two64 - two63 + y + two63) with ((x + two63) mod two64 + y) by lia.
  rewrite Zplus_mod_idemp_l. f_equal. f_equal. lia.
Qed.
Lemma i64_add_r x y : i64 (x + i64 y) = i64 (x + y).
Proof. rewrite Z.add_comm, i64_add_l. f_equal. lia. Qed.
Lemma u64_add_l x y : u64 (u64 x + y) = u64 (x + y).
Proof. unfold u64. apply Zplus_mod_idemp_l. Qed.
Lemma u64_add_r x y : u64 (x + u64 y) = u64 (x + y).
Proof. unfold u64. apply Zplus_mod_idemp_r. Qed.

(** ** Lists *)
Lemma zlen_nil {A} : zlen (@nil A) = 0. Proof. reflexivity. Qed.
Lemma zlen_cons {A} (x : A) l : zlen (x :: l) = 1 + zlen l.
Proof. unfold zlen. cbn [length]. lia. Qed.
Lemma zlen_app {A} (l1 l2 : list A) : zlen (l1 ++ l2) = zlen l1 + zlen l2.
Proof. unfold zlen. rewrite app_length. lia. Qed.
Lemma zlen_nonneg {A} (l : list A) : 0 <= zlen l.
Proof. unfold zlen. lia. Qed.
Lemma zlen_map {A B} (f : A -> B) l : zlen (map f l) = zlen l.
Proof. unfold zlen. rewrite map_length. reflexivity. Qed.
Lemma zlen_zeros n : zlen (zeros n) = Z.max 0 n.
Proof. unfold zlen, zeros. rewrite repeat_length. lia. Qed.
Lemma zlen_rev {A} (l : list A) : zlen (rev l) = zlen l.
Proof. unfold zlen. rewrite rev_length. reflexivity. Qed.
Lemma zlen_zseq n : zlen (zseq n) = Z.max 0 n.
Proof. unfold zlen, zseq. rewrite map_length, seq_length. lia. Qed.
Lemma zlen_ztake {A} n (l : list A) : zlen (ztake n l) = Z.min (Z.max 0 n) (zlen l).
Proof. unfold zlen, ztake. rewrite firstn_length. lia. Qed.
Lemma zlen_zdrop {A} n (l : list A) : zlen (zdrop n l) = Z.max 0 (zlen l - Z.max 0 n).
Proof. unfold zlen, zdrop. rewrite skipn_length. lia. Qed.
Lemma zlen_0_nil {A} (l : list A) : zlen l = 0 -> l = [].
Proof. destruct l; [reflexivity|]. unfold zlen. cbn. lia. Qed.

Lemma ztake_all {A} n (l : list A) : zlen l <= n -> ztake n l = l.
Proof. unfold zlen, ztake. intros. apply firstn_all2. lia. Qed.
Lemma ztake_0 {A} n (l : list A) : n <= 0 -> ztake n l = [].
Proof. unfold ztake. intros. replace (Z.to_nat n) with O by lia. reflexivity. Qed.
Lemma zdrop_0 {A} n (l : list A) : n <= 0 -> zdrop n l = l.
Proof. unfold zdrop. intros. replace (Z.to_nat n) with O by lia. reflexivity. Qed.
Lemma zdrop_all {A} n (l : list A) : zlen l <= n -> zdrop n l = [].
Proof. unfold zlen, zdrop. intros. apply skipn_all2. lia. Qed.
Lemma ztake_zdrop {A} n (l : list A) : ztake n l ++ zdrop n l = l.
Proof. apply firstn_skipn. Qed.
Lemma ztake_app_l {A} n (l1 l2 : list A) : n <= zlen l1 -> ztake n (l1 ++ l2) = ztake n l1.
Proof.
  unfold zlen, ztake. intros. rewrite firstn_app.
  replace (Z.to_nat n - length l1)%nat with O by lia. cbn. apply app_nil_r.
Qed.
Lemma ztake_app_r {A} n (l1 l2 : list A) : zlen l1 <= n -> ztake n (l1 ++ l2) = l1 ++ ztake (n - zlen l1) l2.
Proof.
  unfold zlen, ztake. intros. rewrite firstn_app. rewrite firstn_all2 by lia. f_equal. f_equal. lia.
Qed.
Lemma ztake_app_exact {A} n (l1 l2 : list A) : n = zlen l1 -> ztake n (l1 ++ l2) = l1.
Proof. intros. rewrite ztake_app_l by lia. apply ztake_all. lia. Qed.
Lemma zdrop_app_l {A} n (l1 l2 : list A) : n <= zlen l1 -> zdrop n (l1 ++ l2) = zdrop n l1 ++ l2.
Proof.
  unfold zlen, zdrop. intros. rewrite skipn_app.
  replace (Z.to_nat n - length l1)%nat with O by lia. reflexivity.
Qed.
Lemma zdrop_app_r {A} n (l1 l2 : list A) : zlen l1 <= n -> zdrop n (l1 ++ l2) = zdrop (n - zlen l1) l2.
Proof.
  unfold zlen, zdrop. intros. rewrite skipn_app. rewrite skipn_all2 by lia. cbn. f_equal. lia.
Qed.
Lemma zdrop_app_exact {A} n (l1 l2 : list A) : n = zlen l1 -> zdrop n (l1 ++ l2) = l2.
Proof. intros. rewrite zdrop_app_r by lia. apply zdrop_0. lia. Qed.
Lemma skipn_skipn' {A} (a b : nat) (l : list A) : skipn a (skipn b l) = skipn (a + b) l.
Proof.
  revert l. induction b as [|b IH]; intros l.
  - rewrite Nat.add_0_r. reflexivity.
  - rewrite Nat.add_succ_r. destruct l; cbn [skipn]; [destruct a; reflexivity | apply IH].
Qed.
Lemma zdrop_zdrop {A} a b (l : list A) : 0 <= a -> 0 <= b -> zdrop a (zdrop b l) = zdrop (a + b) l.
Proof.
  unfold zdrop. intros. rewrite skipn_skipn'. f_equal. lia.
Qed.
Lemma ztake_ztake {A} a b (l : list A) : ztake a (ztake b l) = ztake (Z.min a b) l.
Proof. unfold ztake. rewrite firstn_firstn. f_equal. lia. Qed.
Lemma ztake_zdrop_comm {A} a b (l : list A) : 0 <= a -> 0 <= b ->
  ztake a (zdrop b l) = zdrop b (ztake (a + b) l).
Proof.
  unfold ztake, zdrop. intros. rewrite firstn_skipn_comm. f_equal. f_equal. lia.
Qed.

Lemma zlen_slice {A} (l : list A) off n : 0 <= off -> 0 <= n ->
  zlen (slice l off n) = Z.max 0 (Z.min n (zlen l - off)).
Proof. intros. unfold slice. rewrite zlen_ztake, zlen_zdrop. pose proof (zlen_nonneg l). lia. Qed.
Lemma slice_app_l {A} (l1 l2 : list A) off n : 0 <= off -> off + n <= zlen l1 ->
  slice (l1 ++ l2) off n = slice l1 off n.
Proof.
  intros. unfold slice. destruct (Z.le_gt_cases off (zlen l1)).
  - rewrite zdrop_app_l by lia. apply ztake_app_l. rewrite zlen_zdrop. lia.
  - rewrite !ztake_0 by lia. reflexivity.
Qed.
Lemma slice_app_r {A} (l1 l2 : list A) off n : zlen l1 <= off ->
  slice (l1 ++ l2) off n = slice l2 (off - zlen l1) n.
Proof. intros. unfold slice. rewrite zdrop_app_r by lia. reflexivity. Qed.
Lemma slice_mid {A} (l1 l2 l3 : list A) off n : off = zlen l1 -> n = zlen l2 ->
  slice (l1 ++ l2 ++ l3) off n = l2.
Proof.
  intros. unfold slice. rewrite zdrop_app_exact by lia. apply ztake_app_exact. lia.
Qed.
Lemma slice_all {A} (l : list A) off n : off = 0 -> n = zlen l -> slice l off n = l.
Proof. intros. unfold slice. rewrite zdrop_0 by lia. apply ztake_all. lia. Qed.
Lemma slice_slice {A} (l : list A) o1 n1 o2 n2 : 0 <= o1 -> 0 <= o2 -> 0 <= n2 -> o2 + n2 <= n1 ->
  slice (slice l o1 n1) o2 n2 = slice l (o1 + o2) n2.
Proof.
  intros. unfold slice.
  rewrite (Z.add_comm o1 o2), <- zdrop_zdrop by lia.
  rewrite (ztake_zdrop_comm n2 o2 (ztake n1 _)) by lia. rewrite ztake_ztake.
  rewrite (ztake_zdrop_comm n2 o2) by lia. f_equal. f_equal. lia.
Qed.
Lemma slice_full_split {A} (l : list A) off n : 0 <= off -> 0 <= n ->
  l = ztake off l ++ slice l off n ++ zdrop (off + n) l.
Proof.
  intros. unfold slice. rewrite <- (ztake_zdrop off l) at 1. f_equal.
  rewrite <- (ztake_zdrop n (zdrop off l)) at 1. f_equal. rewrite zdrop_zdrop by lia. f_equal. lia.
Qed.

Lemma nth_error_zseq n i : (i < Z.to_nat n)%nat -> nth_error (zseq n) i = Some (Z.of_nat i).
Proof.
  intros. unfold zseq. rewrite nth_error_map.
  rewrite (nth_error_nth' _ O) by (rewrite seq_length; lia). rewrite seq_nth by lia. reflexivity.
Qed.
Lemma zseq_nil n : n <= 0 -> zseq n = [].
Proof. intros. unfold zseq. replace (Z.to_nat n) with O by lia. reflexivity. Qed.
Lemma zseq_S n : 0 <= n -> zseq (n + 1) = zseq n ++ [n].
Proof.
  intros. unfold zseq. replace (Z.to_nat (n + 1)) with (S (Z.to_nat n)) by lia.
  rewrite seq_S, map_app. cbn. do 2 f_equal. lia.
Qed.
Lemma in_zseq n i : In i (zseq n) <-> 0 <= i < n.
Proof.
  unfold zseq. rewrite in_map_iff. split.
  - intros (k & <- & Hk). apply in_seq in Hk. lia.
  - intros. exists (Z.to_nat i). rewrite in_seq. lia.
Qed.

(** ** Little endian *)
Lemma zlen_le_bytes n x : zlen (le_bytes n x) = Z.of_nat n.
Proof.
  revert x. induction n as [|n IH]; intros; [reflexivity|]. cbn [le_bytes]. rewrite zlen_cons, IH. lia.
Qed.
Lemma le_bytes_bytes n x : Forall is_byte (le_bytes n x).
Proof.
  revert x. induction n as [|n IH]; intros; constructor; [|apply IH].
  unfold is_byte, two8. apply Z.mod_pos_bound. lia.
Qed.
Lemma le_val_le_bytes n x : le_val (le_bytes n x) = x mod 256 ^ Z.of_nat n.
Proof.
  revert x. induction n as [|n IH]; intros.
  - cbn. symmetry. apply Z.mod_1_r.
  - cbn [le_bytes le_val]. rewrite IH. rewrite Nat2Z.inj_succ, Z.pow_succ_r by lia.
    rewrite Z.rem_mul_r by (try apply Z.pow_pos_nonneg; lia). reflexivity.
Qed.
Lemma le_val_8 x : le_val (le_bytes 8 x) = u64 x.
Proof. rewrite le_val_le_bytes. reflexivity. Qed.
Lemma le_val_4 x : le_val (le_bytes 4 x) = u32 x.
Proof. rewrite le_val_le_bytes. reflexivity. Qed.
Lemma le_val_range bs : Forall is_byte bs -> 0 <= le_val bs < 256 ^ zlen bs.
Proof.
  induction 1 as [|b bs Hb _ IH]; [cbn; lia|].
  cbn [le_val]. rewrite zlen_cons. rewrite Z.pow_add_r by (pose proof (zlen_nonneg bs); lia).
  change (256 ^ 1) with 256. unfold is_byte, two8 in Hb. lia.
Qed.
Lemma le_bytes_le_val bs n : Forall is_byte bs -> length bs = n -> le_bytes n (le_val bs) = bs.
Proof.
  intros H. revert n. induction H as [|b bs Hb _ IH]; intros n <-; [reflexivity|].
  cbn [length le_bytes le_val]. unfold is_byte, two8 in Hb.
  replace ((b + 256 * le_val bs) mod 256) with b by lia.
  replace ((b + 256 * le_val bs) / 256) with (le_val bs) by lia.
  f_equal. apply IH. reflexivity.
Qed.
Lemma le_bytes_u64 x : le_bytes 8 (u64 x) = le_bytes 8 x.
Proof.
  rewrite <- le_val_8. apply le_bytes_le_val; [apply le_bytes_bytes|].
  pose proof (zlen_le_bytes 8 x). unfold zlen in *. lia.
Qed.

Lemma Forall_ztake {A} (P : A -> Prop) n l : Forall P l -> Forall P (ztake n l).
Proof. intros H. rewrite <- (ztake_zdrop n l) in H. apply Forall_app in H. tauto. Qed.
Lemma Forall_zdrop {A} (P : A -> Prop) n l : Forall P l -> Forall P (zdrop n l).
Proof. intros H. rewrite <- (ztake_zdrop n l) in H. apply Forall_app in H. tauto. Qed.
Lemma Forall_slice {A} (P : A -> Prop) o n l : Forall P l -> Forall P (slice l o n).
Proof. intros. unfold slice. apply Forall_ztake, Forall_zdrop; assumption. Qed.
Lemma zeros_bytes n : Forall is_byte (zeros n).
Proof. unfold zeros. apply Forall_forall. intros x H. apply repeat_spec in H. subst. unfold is_byte, two8. lia. Qed.
