(** Proofs about slices (Memory.v): what the library writes to, and what it reads. *)
From Coq Require Import Permutation.
From Verif Require Import Machine MachineFacts Encoding Sroar FileIO Writer SimpleWriter Reader Parallel ParallelFacts Memory MemorySpec SimpleSpec.
Local Open Scope nat_scope.

(** ** Lists *)
Lemma nth_set_same {A} (d : A) : forall l k v, k < length l -> nth k (set_nth k v l) d = v.
Proof. induction l as [|x l IH]; intros [|k] v H; cbn in *; try lia; [reflexivity|]. apply IH. lia. Qed.
Lemma nth_set_other {A} (d : A) : forall l j k v, j <> k -> nth k (set_nth j v l) d = nth k l d.
Proof. induction l as [|x l IH]; intros [|j] [|k] v H; cbn; try reflexivity; try lia. apply IH. lia. Qed.
Lemma set_nth_beyond {A} : forall (l : list A) k v, length l <= k -> set_nth k v l = l.
Proof. induction l as [|x l IH]; intros [|k] v H; cbn in *; try reflexivity; try lia. rewrite IH by lia. reflexivity. Qed.
Lemma firstn_set {A} : forall (l : list A) n k v, firstn n (set_nth k v l) = set_nth k v (firstn n l).
Proof. induction l as [|x l IH]; intros [|n] [|k] v; cbn; try reflexivity. rewrite IH. reflexivity. Qed.
Lemma skipn_set {A} : forall (l : list A) o k v, skipn o (set_nth (o + k) v l) = set_nth k v (skipn o l).
Proof.
  induction l as [|x l IH]; intros [|o] k v; cbn [Nat.add]; try reflexivity; [destruct k; reflexivity|].
  cbn [set_nth skipn]. apply IH.
Qed.
Lemma set_nth_middle {A} (pre : list A) : forall x post v, set_nth (length pre) v (pre ++ x :: post) = pre ++ v :: post.
Proof. induction pre as [|y pre IH]; intros x post v; cbn; [reflexivity|]. rewrite IH. reflexivity. Qed.
Lemma split_maps {A B} (l : list (A * B)) : split l = (map fst l, map snd l).
Proof. induction l as [|[a b] l IH]; cbn; [reflexivity|]. rewrite IH. reflexivity. Qed.

(** ** One assignment *)
Definition same_array (s t : gslice) : bool := (g_array s =? g_array t).
Lemma array_gset m s i v t :
  array_of (gset m s i v) t = if same_array s t then set_nth (g_off s + i) v (array_of m s) else array_of m t.
Proof.
  unfold array_of, gset, same_array. destruct s as [a o n c], t as [a' o' n' c']. unfold array_of. cbn [g_array g_off].
  destruct (Nat.eqb_spec a a') as [->|Hne]; [|apply nth_set_other; exact Hne].
  destruct (Nat.lt_ge_cases a' (length m)) as [Hl|Hl]; [apply nth_set_same; exact Hl|].
  rewrite set_nth_beyond by exact Hl. rewrite (nth_overflow m) by exact Hl. destruct (o + i); reflexivity.
Qed.
Lemma contents_gset m s i v : contents (gset m s i v) s = set_nth i v (contents m s).
Proof.
  unfold contents. rewrite array_gset. unfold same_array. rewrite Nat.eqb_refl.
  rewrite skipn_set, firstn_set. reflexivity.
Qed.
Lemma same_apart s t : apart s t -> same_array s t = false.
Proof. unfold apart, same_array. intros H. apply Nat.eqb_neq. exact H. Qed.
Lemma contents_gset_apart m s i v t : apart s t -> contents (gset m s i v) t = contents m t.
Proof. intros H. unfold contents. rewrite array_gset, (same_apart s t H). reflexivity. Qed.
Lemma gget_contents m s i : i < g_len s -> gget m s i = nth i (contents m s) 0%Z.
Proof.
  intros H. unfold gget, contents. generalize (array_of m s) as l. generalize (g_off s) as o. revert H. generalize (g_len s) as n. clear.
  intros n H o l. revert o. revert n i H. assert (X : forall (l : list Z) n i, i < n -> nth i (firstn n l) 0%Z = nth i l 0%Z).
  { clear. induction l as [|x l IH]; intros [|n] [|i] H; cbn; try reflexivity; try lia. apply IH. lia. }
  intros n i H o. rewrite X by exact H. clear. revert l. induction o as [|o IH]; intros l; [reflexivity|]. destruct l as [|x l]; [destruct i; reflexivity|]. cbn. apply IH.
Qed.

(** ** What changed *)
(** Only arrays for which [P] holds changed, and arrays were added. *)
Definition ext (P : nat -> Prop) (m m' : mem) : Prop :=
  length m <= length m' /\ forall a, a < length m -> ~ P a -> nth a m' [] = nth a m [].
Definition nothing : nat -> Prop := fun _ => False.
Lemma ext_refl P m : ext P m m.
Proof. split; [lia|reflexivity]. Qed.
Lemma ext_trans P m1 m2 m3 : ext P m1 m2 -> ext P m2 m3 -> ext P m1 m3.
Proof.
  intros (B1 & C1) (B2 & C2). split; [lia|]. intros a Ha Hp. rewrite C2 by (lia || exact Hp). apply C1; assumption.
Qed.
Lemma ext_then (P Q : nat -> Prop) m1 m2 m3 : ext P m1 m2 -> ext Q m2 m3 -> (forall a, a < length m1 -> Q a -> P a) -> ext P m1 m3.
Proof.
  intros (B1 & C1) (B2 & C2) H. split; [lia|]. intros a Ha Hp. rewrite C2; [apply C1; assumption|lia|].
  intros Hq. apply Hp. apply H; assumption.
Qed.
Lemma ext_weaken (P Q : nat -> Prop) m m' : ext P m m' -> (forall a, a < length m -> P a -> Q a) -> ext Q m m'.
Proof. intros (B & C) H. split; [exact B|]. intros a Ha Hq. apply C; [exact Ha|]. intros Hp. apply Hq. apply H; assumption. Qed.
Lemma ext_untouched m m' : ext nothing m m' -> untouched m m'.
Proof.
  intros (B & C). exists (skipn (length m) m').
  revert m' B C. induction m as [|x l IH]; intros [|y l'] B C; cbn in *; try lia; try reflexivity. f_equal.
  - exact (C 0 ltac:(lia) (fun H => H)).
  - apply IH; [lia|]. intros a Ha _. apply (C (S a)); [lia|exact (fun H => H)].
Qed.
Lemma untouched_ext m m' : untouched m m' -> ext nothing m m'.
Proof.
  intros (new & E). rewrite E. split; [rewrite app_length; lia|]. intros a Ha _. apply app_nth1. exact Ha.
Qed.
Lemma ext_contents P m m' t : ext P m m' -> (g_array t < length m /\ ~ P (g_array t)) \/ g_len t = 0 ->
  contents m' t = contents m t.
Proof.
  intros (B & C) H. unfold contents, array_of. destruct H as [[H1 H2]|H].
  - rewrite (C _ H1 H2). reflexivity.
  - rewrite H. reflexivity.
Qed.
Lemma ext_array P m m' t : ext P m m' -> g_array t < length m -> ~ P (g_array t) -> array_of m' t = array_of m t.
Proof. intros (B & C) H1 H2. unfold array_of. apply (C _ H1 H2). Qed.
Lemma gset_ext m s i v : ext (fun a => a = g_array s) m (gset m s i v).
Proof.
  unfold gset. split; [rewrite set_nth_length; lia|].
  intros a _ Ha. apply nth_set_other. intros E. apply Ha. auto.
Qed.
Lemma gstores_ext s l : forall m i, ext (fun a => a = g_array s) m (gstores m s i l).
Proof.
  induction l as [|v l IH]; intros m i; cbn [gstores]; [apply ext_refl|]. eapply ext_trans; [apply gset_ext|apply IH].
Qed.
Lemma gset_arrays m s i v t : length (array_of (gset m s i v) t) = length (array_of m t).
Proof.
  rewrite array_gset. destruct (same_array s t) eqn:E; [|reflexivity]. rewrite set_nth_length. unfold same_array in E.
  apply Nat.eqb_eq in E. unfold array_of. rewrite E. reflexivity.
Qed.
Lemma gstores_arrays s l : forall m i t, length (array_of (gstores m s i l) t) = length (array_of m t).
Proof. induction l as [|v l IH]; intros m i t; cbn [gstores]; [reflexivity|]. rewrite IH. apply gset_arrays. Qed.
Lemma gstores_libs s l : forall m i, length (gstores m s i l) = length m.
Proof.
  induction l as [|v l IH]; intros m i; cbn [gstores]; [reflexivity|]. rewrite IH. unfold gset. apply set_nth_length.
Qed.

(** The elements a loop assigns. *)
Lemma gstores_contents s l : forall m pre mid post, contents m s = pre ++ mid ++ post -> length mid = length l ->
  contents (gstores m s (length pre) l) s = pre ++ l ++ post.
Proof.
  induction l as [|v l IH]; intros m pre mid post E H; cbn [gstores]; [destruct mid; [exact E|discriminate]|].
  destruct mid as [|x mid]; [discriminate|]. injection H as H.
  replace (S (length pre)) with (length (pre ++ [v])) by (rewrite app_length; cbn; lia).
  rewrite (IH _ (pre ++ [v]) mid post); [rewrite <- app_assoc; reflexivity| |exact H].
  rewrite contents_gset, E, <- app_assoc. cbn [app]. apply set_nth_middle.
Qed.
Lemma gstores_all s l m : length (contents m s) = length l -> contents (gstores m s 0 l) s = l.
Proof. intros H. pose proof (gstores_contents s l m [] (contents m s) []) as X. cbn [length app] in X. rewrite !app_nil_r in X. apply X; auto. Qed.

(** ** New arrays *)
Lemma gmake_ext m n c s m' : gmake m n c = (s, m') -> ext nothing m m' /\ s = mkG (length m) 0 n c
  /\ array_of m' s = repeat 0%Z c /\ length m' = S (length m).
Proof.
  unfold gmake. intros H. injection H as <- <-. split; [|split; [reflexivity|split]].
  - apply untouched_ext. exists [repeat 0%Z c]. reflexivity.
  - unfold array_of. cbn [g_array]. rewrite nth_middle. reflexivity.
  - rewrite app_length. cbn. lia.
Qed.

(** A slice inside its array, or without room. *)
Definition okslice (m : mem) (s : gslice) : Prop :=
  g_len s <= g_cap s /\ (g_cap s = 0 \/ (g_array s < length m /\ g_off s + g_cap s <= length (array_of m s))).
Lemma ok_length m s : okslice m s -> length (contents m s) = g_len s.
Proof.
  intros (H & [X|[_ X]]); unfold contents.
  - assert (E : g_len s = 0) by lia. rewrite E. reflexivity.
  - rewrite firstn_length, skipn_length. lia.
Qed.
Lemma ok_ext P m m' s : ext P m m' -> okslice m s -> (0 < g_cap s -> ~ P (g_array s)) -> okslice m' s /\ contents m' s = contents m s.
Proof.
  intros E (B & C) H. destruct C as [C|[C D]].
  - split; [split; [exact B|left; exact C]|]. eapply ext_contents; [exact E|]. right. lia.
  - destruct (Nat.eq_dec (g_cap s) 0) as [Z0|NZ].
    + split; [split; [exact B|left; exact Z0]|]. eapply ext_contents; [exact E|]. right. lia.
    + assert (N : ~ P (g_array s)) by (apply H; lia).
      split; [|eapply ext_contents; [exact E|]; left; auto]. split; [exact B|]. right. split; [destruct E as (E & _); lia|].
      rewrite (ext_array P m m' s E) by auto. exact D.
Qed.
Lemma gmake_ok m n c s m' : gmake m n c = (s, m') -> n <= c -> okslice m' s.
Proof.
  intros H Hn. destruct (gmake_ext m n c s m' H) as (_ & E & A & L). split; [rewrite E; exact Hn|]. right.
  rewrite A, L, repeat_length. rewrite E. cbn. lia.
Qed.
Lemma gstores_ok s l m i t : okslice m t -> okslice (gstores m s i l) t.
Proof. intros (B & C). split; [exact B|]. rewrite gstores_arrays, gstores_libs. exact C. Qed.
Lemma gfrom_ok m s k : okslice m s -> okslice m (gfrom s k) /\ contents m (gfrom s k) = skipn k (contents m s).
Proof.
  intros (B & C). split.
  - cbn [gfrom g_len g_cap g_off g_array]. split; [cbn [gfrom g_len g_cap]; lia|]. cbn [gfrom g_cap g_off g_array]. destruct (Nat.le_gt_cases (g_cap s) k); [left; lia|]. right.
    destruct C as [C|[C D]]; [lia|]. split; [exact C|]. unfold array_of, gfrom. cbn [g_array]. fold (array_of m s). lia.
  - unfold contents, gfrom. cbn [g_len g_off]. unfold array_of. cbn [g_array].
    rewrite skipn_firstn_comm. f_equal. clear. generalize (nth (g_array s) m []) as l. revert k. generalize (g_off s) as o.
    induction o as [|o IH]; intros k l; [reflexivity|]. destruct l as [|x l]; [destruct k; reflexivity|]. cbn. apply IH.
Qed.
Lemma proper_length m s : proper m s -> length (contents m s) = g_len s.
Proof. unfold proper, contents. intros H. rewrite firstn_length, skipn_length. lia. Qed.
Lemma ok_proper m s : okslice m s -> 0 < g_len s -> proper m s.
Proof. intros (B & [C|[_ C]]) H; [lia|]. unfold proper. lia. Qed.

(** A loop that fills a new slice. *)
Lemma fill_new m n s m' l : gmake m n n = (s, m') -> length l = n ->
  ext nothing m (gstores m' s 0 l) /\ okslice (gstores m' s 0 l) s /\ contents (gstores m' s 0 l) s = l
  /\ s = mkG (length m) 0 n n
  /\ length (gstores m' s 0 l) = S (length m).
Proof.
  intros H Hl. destruct (gmake_ext m n n s m' H) as (E & Es & _ & L). pose proof (gmake_ok m n n s m' H (le_n n)) as O.
  split; [|split; [apply gstores_ok; exact O|split; [|split; [exact Es|rewrite gstores_libs; exact L]]]].
  - eapply ext_then; [exact E|apply gstores_ext|]. intros a Ha. rewrite Es. cbn. intros ->. lia.
  - apply gstores_all. rewrite (ok_length _ _ O), Es, Hl. reflexivity.
Qed.

(** ** append *)
Lemma append_ok grow m s l s' m' : okslice m s -> gappend grow m s l = (s', m') ->
  okslice m' s' /\ contents m' s' = contents m s ++ l /\ ext (fun a => 0 < g_cap s /\ a = g_array s) m m'
  /\ ((g_array s' = g_array s /\ g_cap s' = g_cap s) \/ length m <= g_array s').
Proof.
  intros O H. pose proof O as (B & C). unfold gappend in H. destruct (Nat.leb_spec (g_len s + length l) (g_cap s)) as [Hc|Hc].
  - injection H as <- <-. set (s' := mkG _ _ _ _).
    assert (O' : okslice m s') by (split; [exact Hc|exact C]).
    split; [apply gstores_ok; exact O'|]. split.
    + assert (X : contents m s' = contents m s ++ skipn (g_len s) (contents m s')).
      { rewrite <- (firstn_skipn (g_len s) (contents m s')) at 1. f_equal. unfold contents, s'. cbn [g_len g_off]. unfold array_of. cbn [g_array].
        rewrite firstn_firstn. f_equal. lia. }
      rewrite <- (ok_length m s O). rewrite (gstores_contents s' l m (contents m s) (skipn (g_len s) (contents m s')) []); rewrite ?app_nil_r; [reflexivity|exact X|].
      rewrite skipn_length, (ok_length m s' O'). cbn [s' g_len]. lia.
    + split; [|left; split; reflexivity]. destruct l as [|v l]; [apply ext_refl|]. eapply ext_weaken; [apply gstores_ext|]. cbn. intros a _ ->.
      split; [cbn in Hc; lia|reflexivity].
  - destruct (gmake m _ _) as [s1 m1] eqn:EM. injection H as <- <-.
    destruct (gmake_ext _ _ _ _ _ EM) as (E & Es & _ & L). pose proof (gmake_ok _ _ _ _ _ EM ltac:(lia)) as O1.
    split; [apply gstores_ok; exact O1|]. split; [|split].
    + apply gstores_all. rewrite (ok_length _ _ O1), Es, app_length, (ok_length m s O). reflexivity.
    + eapply ext_then with (Q := fun a => a = g_array s1).
      * eapply ext_weaken; [exact E|]. intros a _ [].
      * apply gstores_ext.
      * intros a Ha. rewrite Es. cbn. intros ->. lia.
    + right. rewrite Es. cbn. lia.
Qed.

(** ** Encoders *)
Lemma delta_loop_ok w values result xs : apart result values -> forall n m pre junk i, contents m values = xs -> length xs = g_len values ->
  contents m result = pre ++ junk -> length pre = i -> length junk = n -> 1 <= i -> (i + n = length xs)%nat -> length xs = g_len result ->
  contents (delta_loop w m values result i n) result = pre ++ delta_from w (nth (i - 1) xs 0%Z) (skipn i xs)
  /\ ext (fun a => a = g_array result) m (delta_loop w m values result i n).
Proof.
  intros AP. induction n as [|n IH]; intros m pre junk i EV LV ER LP LJ Hi Hn HR; cbn [delta_loop].
  - rewrite skipn_all2 by lia. destruct junk; [|discriminate]. split; [exact ER|apply ext_refl].
  - destruct junk as [|j junk]; [discriminate|]. injection LJ as LJ. set (v := w _).
    assert (EV' : contents (gset m result i v) values = xs) by (rewrite contents_gset_apart by exact AP; exact EV).
    assert (ER' : contents (gset m result i v) result = (pre ++ [v]) ++ junk).
    { rewrite contents_gset, ER, <- LP, set_nth_middle, <- app_assoc. reflexivity. }
    destruct (IH (gset m result i v) (pre ++ [v]) junk (S i) EV' LV ER') as [X Y]; try lia.
    { rewrite app_length. cbn. lia. }
    split; [|eapply ext_trans; [apply gset_ext|exact Y]]. rewrite X, <- app_assoc. f_equal. cbn [app].
    assert (S1 : skipn i xs = nth i xs 0%Z :: skipn (S i) xs).
    { clear - Hn. assert (H : (i < length xs)%nat) by lia. clear Hn. revert i H. induction xs as [|x xs IH]; intros [|i] H; cbn in *; try lia; [reflexivity|]. apply IH. lia. }
    rewrite S1. cbn [delta_from]. replace (S i - 1)%nat with i by lia. f_equal. unfold v.
    rewrite !gget_contents by lia. rewrite EV. reflexivity.
Qed.
Lemma apart_fresh (m : mem) s t : length m <= g_array s -> g_array t < length m -> apart s t.
Proof. unfold apart. lia. Qed.
Lemma proper_existed m s : proper m s -> 0 < g_len s -> g_array s < length m.
Proof.
  intros H Hl. destruct (Nat.lt_ge_cases (g_array s) (length m)) as [X|X]; [exact X|].
  unfold proper, array_of in H. rewrite (nth_overflow m) in H by exact X. cbn in H. lia.
Qed.
Lemma deltaEncodeM_ok w m values e m' : proper m values -> deltaEncodeM w m values = (e, m') ->
  ext nothing m m' /\ okslice m' e /\ contents m' e = delta_encode_with w (contents m values) /\ length m <= g_array e.
Proof.
  intros HP H. pose proof (proper_length m values HP) as L. unfold deltaEncodeM in H. destruct (Nat.eqb_spec (g_len values) 0) as [Z0|NZ].
  - destruct (gmake_ext _ _ _ _ _ H) as (E & Es & _ & LL). split; [exact E|]. split; [apply (gmake_ok _ _ _ _ _ H); lia|].
    rewrite Z0 in L. destruct (contents m values); [|discriminate]. rewrite Es. split; [reflexivity|cbn; lia].
  - destruct (gmake m (g_len values) (g_len values)) as [result m1] eqn:EM. apply pair_equal_spec in H. destruct H as [<- <-].
    destruct (gmake_ext _ _ _ _ _ EM) as (E & Es & _ & LL). pose proof (gmake_ok _ _ _ _ _ EM (le_n _)) as O1.
    pose proof (proper_existed m values HP ltac:(lia)) as EX.
    assert (AP : apart result values) by (apply (apart_fresh m); [rewrite Es; cbn; lia|exact EX]).
    assert (EV1 : contents m1 values = contents m values).
    { eapply ext_contents; [exact E|]. left. split; [exact EX|exact (fun H => H)]. }
    set (m2 := gset m1 result 0 (gget m1 values 0)).
    assert (EV2 : contents m2 values = contents m values) by (unfold m2; rewrite contents_gset_apart by exact AP; exact EV1).
    assert (L1 : length (contents m1 result) = g_len values) by (rewrite (ok_length _ _ O1), Es; reflexivity).
    destruct (contents m values) as [|x xs] eqn:EX0; [cbn in L; lia|].
    destruct (contents m1 result) as [|j junk] eqn:EJ; [cbn in L1; lia|].
    assert (R2 : contents m2 result = [x] ++ junk).
    { unfold m2. rewrite contents_gset, EJ. cbn. f_equal. rewrite gget_contents by lia. rewrite EV1. reflexivity. }
    assert (RL : g_len result = g_len values) by (rewrite Es; reflexivity).
    cbn [length] in L, L1.
    destruct (delta_loop_ok w values result (x :: xs) AP (g_len values - 1) m2 [x] junk 1 EV2 L R2 eq_refl) as [X Y]; [lia|lia|cbn [length]; lia|cbn [length]; lia|].
    assert (E2 : ext nothing m m2).
    { eapply ext_then; [exact E|apply gset_ext|]. intros a Ha. rewrite Es. cbn. intros ->. lia. }
    split; [|split; [|split; [rewrite X; reflexivity|rewrite Es; cbn; lia]]].
    + eapply ext_then; [exact E2|exact Y|]. intros a Ha. rewrite Es. cbn. intros ->. lia.
    + destruct O1 as (B & C). split; [exact B|]. right. destruct C as [C|[C D]]; [rewrite Es in C; cbn in C; lia|].
      destruct Y as (Y1 & _). assert (M2 : length m2 = length m1) by (unfold m2, gset; apply set_nth_length).
      split; [lia|]. assert (G : forall n i mm, length (array_of (delta_loop w mm values result i n) result) = length (array_of mm result)).
      { induction n as [|n IH]; intros i mm; cbn [delta_loop]; [reflexivity|]. rewrite IH. apply gset_arrays. }
      rewrite G. unfold m2. rewrite gset_arrays. exact D.
Qed.
Lemma encodeDataM_ok w enc m data e m' : proper m data -> encodeDataM w enc m data = (e, m') ->
  ext nothing m m'
  /\ match usesDelta enc with
     | None => e = None
     | Some d => exists s, e = Some s /\ contents m' s = (if d then delta_encode_with w (contents m data) else contents m data) /\ length m <= g_array s
     end.
Proof.
  intros HP H. unfold encodeDataM in H. destruct (usesDelta enc) as [[|]|].
  - destruct (deltaEncodeM w m data) as [s m1] eqn:E. injection H as <- <-. destruct (deltaEncodeM_ok w m data s m1 HP E) as (A & _ & C & D).
    split; [exact A|]. exists s. auto.
  - destruct (gmake m (g_len data) (g_len data)) as [s m1] eqn:EM. injection H as <- <-.
    destruct (gmake_ext _ _ _ _ _ EM) as (E & Es & _ & _).
    assert (ED : contents m1 data = contents m data).
    { eapply ext_contents; [exact E|]. destruct (Nat.eq_dec (g_len data) 0); [right; assumption|].
      left. split; [apply (proper_existed m data HP); lia|exact (fun H => H)]. }
    unfold gcopy. rewrite ED. pose proof (proper_length m data HP) as L. rewrite firstn_all2 by (rewrite Es; cbn; lia).
    destruct (fill_new m _ s m1 (contents m data) EM L) as (A & _ & C & D & _). split; [exact A|]. exists s. split; [reflexivity|]. split; [exact C|].
    rewrite D. cbn. lia.
  - injection H as <- <-. split; [apply ext_refl|reflexivity].
Qed.

Lemma ext_proper P m m' s : ext P m m' -> proper m s -> (g_array s < length m -> ~ P (g_array s)) -> proper m' s.
Proof.
  intros E H N. unfold proper in *. destruct (Nat.lt_ge_cases (g_array s) (length m)) as [X|X].
  - rewrite (ext_array P m m' s E X (N X)). exact H.
  - unfold array_of in H at 1. rewrite (nth_overflow m) in H by exact X. cbn in H. lia.
Qed.
Lemma ext_proper0 m m' s : ext nothing m m' -> proper m s -> proper m' s.
Proof. intros E H. eapply ext_proper; [exact E|exact H|]. intros _ []. Qed.
Lemma ext_contents0 m m' s : ext nothing m m' -> proper m s -> contents m' s = contents m s.
Proof.
  intros E H. eapply ext_contents; [exact E|]. destruct (Nat.eq_dec (g_len s) 0) as [Z0|NZ]; [right; exact Z0|left].
  split; [apply (proper_existed m s H); lia|exact (fun X => X)].
Qed.
Lemma triple {A B C} (a a' : A) (b b' : B) (c c' : C) : (a, b, c) = (a', b', c') -> a = a' /\ b = b' /\ c = c'.
Proof. intros H. injection H as -> -> ->. auto. Qed.

Section Writers.
Context {Srr : Sroar}.
Lemma encode_proper w enc m s : proper m s -> ext nothing m (snd (encodeDataM w enc m s)).
Proof. intros P. destruct (encodeDataM w enc m s) as [e m1] eqn:E. apply (encodeDataM_ok w enc m s e m1 P E). Qed.
Lemma encode_both w1 w2 enc m ids values : proper m ids -> proper m values ->
  ext nothing m (snd (encodeDataM w2 enc (snd (encodeDataM w1 enc m ids)) values)).
Proof.
  intros H1 H2. pose proof (encode_proper w1 enc m ids H1) as A. eapply ext_trans; [exact A|]. apply encode_proper. eapply ext_proper0; eassumption.
Qed.
Lemma WriteBlockM_ok ids values m w x m' w' : proper m ids -> proper m values -> WriteBlockM ids values m w = (x, m', w') ->
  WriteBlock (contents m ids) (contents m values) w = (x, w') /\ ext nothing m m'.
Proof.
  intros H1 H2. unfold WriteBlockM. destruct (WriteBlock _ _ w) as [y w1]. intros H. apply triple in H. destruct H as (<- & <- & <-).
  split; [reflexivity|]. apply encode_both; assumption.
Qed.
Lemma EstimateM_ok ids values m w x m' w' : proper m ids -> proper m values -> EstimateM ids values m w = (x, m', w') ->
  EstimateBlockSize (contents m ids) (contents m values) w = (x, w') /\ ext nothing m m'.
Proof.
  intros H1 H2. unfold EstimateM. destruct (EstimateBlockSize _ _ w) as [y w1]. intros H. apply triple in H. destruct H as (<- & <- & <-).
  split; [reflexivity|]. apply encode_both; assumption.
Qed.

(** ** SimpleWriter *)
Definition inv (m : mem) (sw : swriterM) : Prop :=
  okslice m (swm_pendingIDs sw) /\ okslice m (swm_pendingValues sw)
  /\ (g_cap (swm_pendingIDs sw) = 0 \/ g_cap (swm_pendingValues sw) = 0 \/ g_array (swm_pendingIDs sw) <> g_array (swm_pendingValues sw)).
Lemma nil_ok m : okslice m gnil.
Proof. cbn. split; [cbn; lia|left; reflexivity]. Qed.
Lemma ok_ext0 m m' s : ext nothing m m' -> okslice m s -> okslice m' s /\ contents m' s = contents m s.
Proof. intros E O. eapply ok_ext; [exact E|exact O|]. intros _ []. Qed.
Lemma ext_inv m m' sw : ext nothing m m' -> inv m sw -> inv m' sw /\ as_values m' sw = as_values m sw.
Proof.
  intros E (A & B & C). destruct (ok_ext0 m m' _ E A) as [A1 A2]. destruct (ok_ext0 m m' _ E B) as [B1 B2].
  split; [split; [exact A1|split; [exact B1|exact C]]|]. unfold as_values. rewrite A2, B2. reflexivity.
Qed.
Lemma ok_proper' m s : okslice m s -> g_len s <> 0 -> proper m s.
Proof. intros O H. apply ok_proper; [exact O|lia]. Qed.

Lemma encode_empty w enc m s : g_len s = 0 -> ext nothing m (snd (encodeDataM w enc m s)).
Proof.
  intros H. unfold encodeDataM. destruct (usesDelta enc) as [[|]|].
  - unfold deltaEncodeM. rewrite H. cbn [Nat.eqb]. destruct (gmake m 0 0) as [e m1] eqn:E. apply (gmake_ext _ _ _ _ _ E).
  - rewrite H. destruct (gmake m 0 0) as [e m1] eqn:E. cbn [snd]. unfold gcopy, contents. rewrite H. destruct (g_len e); apply (gmake_ext _ _ _ _ _ E).
  - apply ext_refl.
Qed.
Lemma encode_ext w enc m s : okslice m s -> ext nothing m (snd (encodeDataM w enc m s)).
Proof.
  intros O. destruct (Nat.eq_dec (g_len s) 0) as [Z0|NZ]; [apply encode_empty; exact Z0|].
  destruct (encodeDataM w enc m s) as [e m1] eqn:E. apply (encodeDataM_ok w enc m s e m1 (ok_proper' m s O NZ) E).
Qed.
Lemma WriteBlockM_pending ids values m w x m' w' : okslice m ids -> okslice m values -> WriteBlockM ids values m w = (x, m', w') ->
  WriteBlock (contents m ids) (contents m values) w = (x, w') /\ ext nothing m m'.
Proof.
  intros H1 H2. unfold WriteBlockM. destruct (WriteBlock _ _ w) as [y w1]. intros H. apply pair_equal_spec in H. destruct H as [H <-]. apply pair_equal_spec in H. destruct H as [<- <-].
  split; [reflexivity|]. pose proof (encode_ext u64 (w_enc w) m ids H1) as A. eapply ext_trans; [exact A|]. apply encode_ext. apply (ok_ext0 _ _ _ A H2).
Qed.

(** The arrays a SimpleWriter may still store into. *)
Definition pend (sw : swriterM) (a : nat) : Prop :=
  (0 < g_cap (swm_pendingIDs sw) /\ a = g_array (swm_pendingIDs sw)) \/ (0 < g_cap (swm_pendingValues sw) /\ a = g_array (swm_pendingValues sw)).
Lemma flushM_ok : forall fuel force m sw x m' sw', inv m sw -> flushM fuel force m sw = (x, m', sw') ->
  flushIfNeeded fuel force (as_values m sw) = (x, as_values m' sw') /\ inv m' sw' /\ ext nothing m m' /\ (forall a, pend sw' a -> pend sw a).
Proof.
  induction fuel as [|fuel IH]; intros force m sw x m' sw' I H; cbn [flushM flushIfNeeded] in *.
  { apply pair_equal_spec in H. destruct H as [H <-]. apply pair_equal_spec in H. destruct H as [<- <-]. split; [reflexivity|]. split; [exact I|]. split; [apply ext_refl|auto]. }
  pose proof I as (A & B & C). pose proof (ok_length m _ A) as LA.
  assert (ZL : zlen (sw_pendingIDs (as_values m sw)) = Z.of_nat (g_len (swm_pendingIDs sw))) by (cbn [as_values sw_pendingIDs]; unfold zlen; rewrite LA; reflexivity).
  rewrite !ZL. destruct (Nat.eqb_spec (g_len (swm_pendingIDs sw)) 0) as [Z0|NZ].
  { rewrite Z0. cbn [Z.of_nat Z.eqb]. apply pair_equal_spec in H. destruct H as [H <-]. apply pair_equal_spec in H. destruct H as [<- <-]. split; [reflexivity|]. split; [exact I|]. split; [apply ext_refl|auto]. }
  replace (Z.of_nat (g_len (swm_pendingIDs sw)) =? 0)%Z with false by (symmetry; apply Z.eqb_neq; lia).
  destruct (if force then true else (Z.of_nat (g_len (swm_pendingIDs sw)) >=? 1000)%Z) eqn:ES.
  2:{ apply pair_equal_spec in H. destruct H as [H <-]. apply pair_equal_spec in H. destruct H as [<- <-]. split; [reflexivity|]. split; [exact I|]. split; [apply ext_refl|auto]. }
  destruct (WriteBlockM (swm_pendingIDs sw) (swm_pendingValues sw) m (swm_writer sw)) as [[y m1] w1] eqn:EW.
  destruct (WriteBlockM_pending _ _ _ _ _ _ _ A B EW) as [WB E1].
  cbn [as_values sw_pendingIDs sw_pendingValues sw_writer sw_targetBlockSize sw_closed sw_totalItems]. rewrite WB.
  destruct (ok_ext0 _ _ _ E1 A) as [A1 A2]. destruct (ok_ext0 _ _ _ E1 B) as [B1 B2].
  assert (INV1 : forall wr t c n, inv m1 (mkSWM wr (swm_pendingIDs sw) (swm_pendingValues sw) t c n)) by (intros; split; [exact A1|split; [exact B1|exact C]]).
  assert (SIMPLE : forall (z : res unit), (z, m1, mkSWM w1 (swm_pendingIDs sw) (swm_pendingValues sw) (swm_targetBlockSize sw) (swm_closed sw) (swm_totalItems sw)) = (x, m', sw') ->
    (z, mkSW w1 (contents m (swm_pendingIDs sw)) (contents m (swm_pendingValues sw)) (swm_targetBlockSize sw) (swm_closed sw) (swm_totalItems sw)) = (x, as_values m' sw') /\ inv m' sw' /\ ext nothing m m' /\ (forall a, pend sw' a -> pend sw a)).
  { intros z HZ. apply pair_equal_spec in HZ. destruct HZ as [HZ <-]. apply pair_equal_spec in HZ. destruct HZ as [<- <-].
    split; [unfold as_values; cbn [swm_writer swm_pendingIDs swm_pendingValues swm_targetBlockSize swm_closed swm_totalItems]; rewrite A2, B2; reflexivity|].
    split; [apply INV1|]. split; [exact E1|auto]. }
  destruct y as [u|e|].
  - apply pair_equal_spec in H. destruct H as [H <-]. apply pair_equal_spec in H. destruct H as [<- <-]. split; [|split; [|split; [exact E1|]]].
    + reflexivity.
    + split; [apply nil_ok|]. split; [apply nil_ok|]. left. reflexivity.
    + unfold pend. cbn. lia.
  - destruct e; try (apply SIMPLE; exact H). rename itemsWritten into k.
    destruct (gfrom_ok m1 _ (Z.to_nat k) A1) as [A3 A4]. destruct (gfrom_ok m1 _ (Z.to_nat k) B1) as [B3 B4].
    match type of H with flushM _ _ _ ?sw2 = _ => assert (I2 : inv m1 sw2) end.
    { split; [exact A3|]. split; [exact B3|]. cbn [swm_pendingIDs swm_pendingValues gfrom g_cap g_array]. clear - C. destruct C as [C|[C|C]]; [left; lia|right; left; lia|right; right; exact C]. }
    specialize (IH force m1 _ x m' sw' I2 H).
    destruct IH as (X & Y & Z & W). split; [|split; [exact Y|split; [eapply ext_trans; [exact E1|exact Z]|]]]; [|intros a Ha; apply W in Ha; revert Ha; unfold pend; cbn [swm_pendingIDs swm_pendingValues gfrom g_cap g_array]; lia].
    rewrite <- X. unfold as_values. cbn [swm_writer swm_pendingIDs swm_pendingValues swm_targetBlockSize swm_closed swm_totalItems]. rewrite A4, B4, A2, B2. reflexivity.
  - apply SIMPLE. exact H.
Qed.

Lemma SCloseM_ok now m sw x m' sw' : inv m sw -> SCloseM now m sw = (x, m', sw') ->
  SClose now (as_values m sw) = (x, as_values m' sw') /\ inv m' sw' /\ ext (pend sw) m m' /\ (forall a, pend sw' a -> pend sw a \/ length m <= a).
Proof.
  intros I H. unfold SCloseM in H. unfold SClose. cbn [as_values sw_closed]. destruct (swm_closed sw) eqn:EC.
  { apply triple in H. destruct H as (<- & <- & <-). split; [reflexivity|]. split; [exact I|]. split; [apply ext_refl|auto]. }
  destruct (flushM _ true m sw) as [[y m1] sw1] eqn:EF. destruct (flushM_ok _ _ _ _ _ _ _ I EF) as (F & I1 & X & PE). assert (X' : ext (pend sw) m m1) by (eapply ext_weaken; [exact X|intros a _ []]). unfold flush.
  assert (LL : length (sw_pendingIDs (as_values m sw)) = g_len (swm_pendingIDs sw)) by (apply ok_length; apply I).
  change (length (contents m (swm_pendingIDs sw))) with (length (sw_pendingIDs (as_values m sw))). 
  replace (mkSW (swm_writer sw) (contents m (swm_pendingIDs sw)) (contents m (swm_pendingValues sw)) (swm_targetBlockSize sw) false (swm_totalItems sw)) with (as_values m sw) by (unfold as_values; rewrite EC; reflexivity).
  rewrite LL, F. destruct y as [u|e|]; [|apply triple in H; destruct H as (<- & <- & <-); split; [reflexivity|split; [exact I1|split; [exact X'|auto]]]|apply triple in H; destruct H as (<- & <- & <-); split; [reflexivity|split; [exact I1|split; [exact X'|auto]]]].
  cbn [as_values sw_writer sw_pendingIDs sw_pendingValues sw_targetBlockSize sw_closed sw_totalItems].
  destruct (FinalizeAndClose now (swm_writer sw1)) as [z w2]. apply triple in H. destruct H as (<- & <- & <-).
  split; [destruct z as [[]| |]; reflexivity|]. split; [exact I1|]. split; [exact X'|]. intros a Ha. left. apply PE. exact Ha.
Qed.

Lemma new_inv now options faults m sw m' : NewSimpleWriterM now options faults m = Ok (sw, m') ->
  NewSimpleWriter now options faults = Ok (as_values m' sw) /\ inv m' sw /\ ext nothing m m' /\ (forall a, ~ pend sw a).
Proof.
  unfold NewSimpleWriterM, NewSimpleWriter. destruct (fst (NewWriter now options faults)) as [w|e|]; cbn [rbind]; try discriminate.
  destruct (gmake m 0 0) as [p m1] eqn:E1. destruct (gmake m1 0 0) as [q m2] eqn:E2. intros H. injection H as <- <-.
  destruct (gmake_ext _ _ _ _ _ E1) as (X1 & S1 & _). destruct (gmake_ext _ _ _ _ _ E2) as (X2 & S2 & _). split; [|split; [|split]].
  - unfold as_values. cbn [swm_writer swm_pendingIDs swm_pendingValues swm_targetBlockSize swm_closed swm_totalItems]. rewrite S1, S2. reflexivity.
  - rewrite S1, S2. split; [|split; [|left; reflexivity]]; cbn; (split; [cbn; lia|left; reflexivity]).
  - eapply ext_trans; eassumption.
  - intros a. unfold pend. cbn [swm_pendingIDs swm_pendingValues]. rewrite S1, S2. cbn. lia.
Qed.
Variable grow : nat -> nat -> nat.
Variable srt : sorter.
Hypothesis Hsrt : sorts srt.

(** Two appends to slices of different arrays. *)
Lemma append_both m ps qs l1 m1 p1 l2 m2 q2 : okslice m ps -> okslice m qs ->
  (g_cap ps = 0 \/ g_cap qs = 0 \/ g_array ps <> g_array qs) ->
  gappend grow m ps l1 = (p1, m1) -> gappend grow m1 qs l2 = (q2, m2) ->
  okslice m2 p1 /\ okslice m2 q2 /\ contents m2 p1 = contents m ps ++ l1 /\ contents m2 q2 = contents m qs ++ l2
  /\ (g_cap p1 = 0 \/ g_cap q2 = 0 \/ g_array p1 <> g_array q2)
  /\ ext (fun a => (0 < g_cap ps /\ a = g_array ps) \/ (0 < g_cap qs /\ a = g_array qs)) m m2
  /\ ((g_array p1 = g_array ps /\ g_cap p1 = g_cap ps) \/ length m <= g_array p1)
  /\ ((g_array q2 = g_array qs /\ g_cap q2 = g_cap qs) \/ length m <= g_array q2).
Proof.
  intros OP OQ D E1 E2. destruct (append_ok grow m ps l1 p1 m1 OP E1) as (O1 & C1 & X1 & F1).
  assert (QQ : okslice m1 qs /\ contents m1 qs = contents m qs).
  { eapply ok_ext; [exact X1|exact OQ|]. intros Hc [H1 H2]. lia. }
  destruct QQ as [OQ1 CQ1]. destruct (append_ok grow m1 qs l2 q2 m2 OQ1 E2) as (O2 & C2 & X2 & F2).
  assert (QL : 0 < g_cap qs -> g_array qs < length m) by (destruct OQ as (_ & [Q|[Q _]]); [lia|auto]).
  assert (PL : 0 < g_cap p1 -> g_array p1 < length m1) by (destruct O1 as (_ & [Q|[Q _]]); [lia|auto]).
  assert (PP : okslice m2 p1 /\ contents m2 p1 = contents m1 p1).
  { eapply ok_ext; [exact X2|exact O1|]. intros Hc [H1 H2]. destruct F1 as [[F1 F1']|F1]; [lia|]. specialize (QL H1). lia. }
  destruct PP as [OP2 CP2]. split; [exact OP2|]. split; [exact O2|]. split; [rewrite CP2; exact C1|]. split; [rewrite C2, CQ1; reflexivity|]. split.
  - destruct F2 as [[F2 F2']|F2].
    + rewrite F2, F2'. destruct F1 as [[F1 F1']|F1]; [rewrite F1, F1'; exact D|]. destruct (Nat.eq_dec (g_cap qs) 0) as [Z0|NZ]; [right; left; exact Z0|]. right. right. specialize (QL ltac:(lia)). lia.
    + destruct (Nat.eq_dec (g_cap p1) 0) as [Z0|NZ]; [left; exact Z0|]. right. right. specialize (PL ltac:(lia)). lia.
  - assert (LE : length m <= length m1) by (destruct X1; assumption). split; [|split; [exact F1|destruct F2 as [F2|F2]; [left; exact F2|right; lia]]].
    eapply ext_then; [eapply ext_weaken; [exact X1|cbn beta; auto]|exact X2|]. cbn beta. auto.
Qed.

(** The copies that Write makes. *)
Lemma copies m ids values n v m1 m2 : proper m ids -> proper m values ->
  gmake m (g_len ids) (g_len ids) = (n, m1) -> gmake m1 (g_len values) (g_len values) = (v, m2) ->
  let m4 := gcopy (gcopy m2 n ids) v values in
  ext nothing m m4 /\ okslice m4 n /\ okslice m4 v /\ contents m4 n = contents m ids /\ contents m4 v = contents m values
  /\ apart n v /\ length m <= g_array n /\ length m <= g_array v.
Proof.
  intros Pi Pv E1 E2 m4. destruct (gmake_ext _ _ _ _ _ E1) as (X1 & S1 & _ & L1). destruct (gmake_ext _ _ _ _ _ E2) as (X2 & S2 & _ & L2).
  pose proof (gmake_ok _ _ _ _ _ E1 (le_n _)) as O1. pose proof (gmake_ok _ _ _ _ _ E2 (le_n _)) as O2. destruct (ok_ext0 _ _ _ X2 O1) as [O1' _].
  assert (X12 : ext nothing m m2) by (eapply ext_trans; eassumption).
  pose proof (proper_length m ids Pi) as Li. pose proof (proper_length m values Pv) as Lv.
  assert (M3 : gcopy m2 n ids = gstores m2 n 0 (contents m ids)).
  { unfold gcopy. rewrite (ext_contents0 _ _ _ X12 Pi), firstn_all2; [reflexivity|]. rewrite S1. cbn. lia. }
  assert (X3 : ext nothing m (gcopy m2 n ids)).
  { rewrite M3. eapply ext_then; [exact X12|apply gstores_ext|]. intros a Ha. rewrite S1. cbn. intros ->. lia. }
  assert (M4 : m4 = gstores (gcopy m2 n ids) v 0 (contents m values)).
  { unfold m4. unfold gcopy at 1. rewrite (ext_contents0 _ _ _ X3 Pv), firstn_all2; [reflexivity|]. rewrite S2. cbn. lia. }
  assert (X4 : ext nothing m m4).
  { rewrite M4. eapply ext_then; [exact X3|apply gstores_ext|]. intros a Ha. rewrite S2. cbn. intros ->. lia. }
  assert (AP : apart v n) by (unfold apart; rewrite S1, S2; cbn; lia).
  assert (GA : forall l m i, contents (gstores m v i l) n = contents m n).
  { induction l as [|z l IH]; intros mm i; cbn [gstores]; [reflexivity|]. rewrite IH. apply contents_gset_apart. exact AP. }
  assert (O3n : okslice (gcopy m2 n ids) n) by (rewrite M3; apply gstores_ok; exact O1').
  assert (O3v : okslice (gcopy m2 n ids) v) by (rewrite M3; apply gstores_ok; exact O2).
  split; [exact X4|]. split; [rewrite M4; apply gstores_ok; exact O3n|]. split; [rewrite M4; apply gstores_ok; exact O3v|]. split; [|split; [|split; [|split]]].
  - rewrite M4, GA, M3. apply gstores_all. rewrite (ok_length _ _ O1'), S1, Li. reflexivity.
  - rewrite M4. apply gstores_all. rewrite (ok_length _ _ O3v), S2, Lv. reflexivity.
  - unfold apart. rewrite S1, S2. cbn. lia.
  - rewrite S1. cbn. lia.
  - rewrite S2. cbn. lia.
Qed.
Lemma sort_in_place m n v : okslice m n -> okslice m v -> apart n v -> g_len n = g_len v ->
  let m' := sortByIDM srt m n v in
  okslice m' n /\ okslice m' v /\ (contents m' n, contents m' v) = sortByID srt (contents m n) (contents m v)
  /\ ext (fun a => a = g_array n \/ a = g_array v) m m' /\ length m' = length m.
Proof.
  intros O1 O2 AP EL m'. unfold m', sortByIDM, sortByID. set (pairs := srt _). rewrite split_maps.
  assert (LP : length pairs = g_len n).
  { unfold pairs. destruct (Hsrt (combine (contents m n) (contents m v))) as [P _]. apply Permutation_length in P. rewrite <- P, combine_length, (ok_length _ _ O1), (ok_length _ _ O2). lia. }
  set (m1 := gstores m n 0 (map fst pairs)).
  assert (O1' : okslice m1 n) by (apply gstores_ok; exact O1). assert (O2' : okslice m1 v) by (apply gstores_ok; exact O2).
  assert (C1 : contents m1 n = map fst pairs) by (apply gstores_all; rewrite (ok_length _ _ O1), map_length; lia).
  assert (AP' : apart v n) by (unfold apart in *; congruence).
  assert (GA : forall l mm i, contents (gstores mm v i l) n = contents mm n).
  { induction l as [|z l IH]; intros mm i; cbn [gstores]; [reflexivity|]. rewrite IH. apply contents_gset_apart. exact AP'. }
  split; [apply gstores_ok; exact O1'|]. split; [apply gstores_ok; exact O2'|]. split; [|split].
  - rewrite GA, C1, (gstores_all v); [reflexivity|]. rewrite (ok_length _ _ O2'), map_length. lia.
  - apply (ext_trans _ _ m1); [eapply ext_weaken; [apply gstores_ext|cbn beta; intros a _ ->; auto]|eapply ext_weaken; [apply gstores_ext|cbn beta; intros a _ ->; auto]].
  - rewrite gstores_libs. unfold m1. apply gstores_libs.
Qed.

Lemma SWriteM_ok ids values m sw x m' sw' : inv m sw -> proper m ids -> proper m values ->
  SWriteM grow srt ids values m sw = (x, m', sw') ->
  SWrite srt (contents m ids) (contents m values) (as_values m sw) = (x, as_values m' sw') /\ inv m' sw' /\ ext (pend sw) m m' /\ (forall a, pend sw' a -> pend sw a \/ length m <= a).
Proof using Hsrt.
  intros I Pi Pv H. unfold SWriteM in H. unfold SWrite. cbn [as_values sw_closed]. pose proof (proper_length m ids Pi) as Li. pose proof (proper_length m values Pv) as Lv.
  unfold zlen. rewrite Li, Lv. destruct (swm_closed sw) eqn:EC.
  { apply triple in H. destruct H as (<- & <- & <-). split; [reflexivity|]. split; [exact I|]. split; [apply ext_refl|auto]. }
  destruct (Nat.eqb_spec (g_len ids) (g_len values)) as [EL|NL].
  2:{ apply triple in H. destruct H as (<- & <- & <-). replace (Z.of_nat (g_len ids) =? Z.of_nat (g_len values))%Z with false by (symmetry; apply Z.eqb_neq; lia). split; [reflexivity|]. split; [exact I|]. split; [apply ext_refl|auto]. }
  cbn [negb] in H. replace (Z.of_nat (g_len ids) =? Z.of_nat (g_len values))%Z with true by (symmetry; apply Z.eqb_eq; lia). cbn [negb].
  destruct (Nat.eqb_spec (g_len ids) 0) as [Z0|NZ].
  { apply triple in H. destruct H as (<- & <- & <-). rewrite Z0. cbn [Z.of_nat Z.eqb]. split; [reflexivity|]. split; [exact I|]. split; [apply ext_refl|auto]. }
  replace (Z.of_nat (g_len ids) =? 0)%Z with false by (symmetry; apply Z.eqb_neq; lia).
  destruct (gmake m (g_len ids) (g_len ids)) as [n m1] eqn:E1. destruct (gmake m1 (g_len values) (g_len values)) as [v m2] eqn:E2.
  destruct (copies m ids values n v m1 m2 Pi Pv E1 E2) as (X4 & O1 & O2 & C1 & C2 & AP & F1 & F2). set (m4 := gcopy (gcopy m2 n ids) v values) in *.
  assert (LN : g_len n = g_len v) by (rewrite <- (ok_length _ _ O1), <- (ok_length _ _ O2), C1, C2; congruence).
  set (m5 := if negb (isSorted (contents m4 n)) then sortByIDM srt m4 n v else m4) in *.
  assert (K : okslice m5 n /\ okslice m5 v /\ (contents m5 n, contents m5 v) = (if negb (isSorted (contents m ids)) then sortByID srt (contents m ids) (contents m values) else (contents m ids, contents m values))
    /\ ext nothing m m5).
  { unfold m5. rewrite C1. destruct (negb (isSorted (contents m ids))).
    - destruct (sort_in_place m4 n v O1 O2 AP LN) as (Y1 & Y2 & Y3 & Y4 & _). rewrite <- C1, <- C2. split; [exact Y1|]. split; [exact Y2|]. split; [exact Y3|].
      eapply ext_then; [exact X4|exact Y4|]. cbn beta. intros a Ha [->| ->]; lia.
    - split; [exact O1|]. split; [exact O2|]. split; [rewrite C1, C2; reflexivity|exact X4]. }
  destruct K as (O5n & O5v & C5 & X5). rewrite <- C5. destruct I as (A & B & D).
  destruct (ok_ext0 _ _ _ X5 A) as [A5 CA]. destruct (ok_ext0 _ _ _ X5 B) as [B5 CB].
  destruct (gappend grow m5 (swm_pendingIDs sw) (contents m5 n)) as [p1 m6] eqn:G1. destruct (append_ok grow _ _ _ _ _ A5 G1) as (_ & _ & X6 & _).
  assert (CV6 : contents m6 v = contents m5 v).
  { eapply ext_contents; [exact X6|]. destruct (Nat.eq_dec (g_len v) 0) as [Zv|Nv]; [right; exact Zv|]. left.
    destruct O5v as (Q1 & [Q|[Q _]]); [lia|]. split; [exact Q|]. intros [Hc He].
    destruct A as (_ & [A|[A _]]); [lia|]. lia. }
  rewrite CV6 in H. destruct (gappend grow m6 (swm_pendingValues sw) (contents m5 v)) as [q2 m7] eqn:G2.
  destruct (append_both m5 _ _ _ m6 p1 _ m7 q2 A5 B5 D G1 G2) as (OP & OQ & CP & CQ & DD & CC & K1 & K2).
  match type of H with flushM _ _ _ ?s2 = _ => set (sw2 := s2) in * end.
  assert (I2 : inv m7 sw2) by (split; [exact OP|split; [exact OQ|exact DD]]).
  destruct (flushM_ok _ _ _ _ _ _ _ I2 H) as (F & I3 & X7 & PE). split; [|split; [exact I3|split]].
  - cbv beta iota zeta. unfold flush. unfold as_values at 1 2 3 4 5 6 7 8. cbn [sw_pendingIDs sw_writer sw_pendingValues sw_targetBlockSize sw_closed sw_totalItems]. rewrite <- F. unfold as_values, sw2.
    cbn [swm_writer swm_pendingIDs swm_pendingValues swm_targetBlockSize swm_closed swm_totalItems]. rewrite CP, CQ, CA, CB.
    assert (LL : length (contents m (swm_pendingIDs sw) ++ contents m5 n) = g_len p1) by (rewrite <- CA, <- CP; apply ok_length; exact OP). rewrite LL, EC. reflexivity.
  - eapply ext_then with (Q := pend sw); [eapply ext_weaken; [exact X5|intros a _ []]| |auto]. eapply ext_then with (Q := nothing); [exact CC|exact X7|intros a _ []].
  - destruct X5 as (X5 & _). intros a Ha. apply PE in Ha. revert Ha. unfold pend, sw2. cbn [swm_pendingIDs swm_pendingValues]. lia.
Qed.
End Writers.

(** ** Decoder *)
Lemma undelta_loop_ok w s : forall n m pre x rest i, contents m s = pre ++ x :: rest -> i = S (length pre) -> n = length rest ->
  length (contents m s) = g_len s ->
  contents (undelta_loop w m s i n) s = pre ++ x :: undelta_from w x rest
  /\ ext (fun a => a = g_array s) m (undelta_loop w m s i n)
  /\ (forall t, okslice m t -> okslice (undelta_loop w m s i n) t)
  /\ (forall t, apart s t -> contents (undelta_loop w m s i n) t = contents m t).
Proof.
  induction n as [|n IH]; intros m pre x rest i E Hi Hn HL; cbn [undelta_loop].
  - destruct rest; [|discriminate]. split; [exact E|]. split; [apply ext_refl|]. split; auto.
  - destruct rest as [|d rest]; [discriminate|]. injection Hn as Hn. set (v := w _).
    assert (LL : length (contents m s) = length pre + S (S (length rest))) by (rewrite E, app_length; reflexivity).
    assert (E' : contents (gset m s i v) s = (pre ++ [x]) ++ v :: rest).
    { rewrite contents_gset, E, Hi. replace (pre ++ x :: d :: rest) with ((pre ++ [x]) ++ d :: rest) by (rewrite <- app_assoc; reflexivity).
      replace (S (length pre)) with (length (pre ++ [x])) by (rewrite app_length; cbn; lia). apply set_nth_middle. }
    destruct (IH (gset m s i v) (pre ++ [x]) v rest (S i) E') as (X & Y & Z & W).
    { rewrite app_length. cbn. lia. }
    { exact Hn. }
    { rewrite contents_gset, set_nth_length. exact HL. }
    assert (VV : v = w (x + d)%Z).
    { unfold v. rewrite !gget_contents by lia. rewrite E, Hi. replace (S (length pre) - 1) with (length pre) by lia.
      replace (nth (S (length pre)) (pre ++ x :: d :: rest) 0%Z) with d; [rewrite nth_middle; f_equal; lia|].
      replace (pre ++ x :: d :: rest) with ((pre ++ [x]) ++ d :: rest) by (rewrite <- app_assoc; reflexivity).
      replace (S (length pre)) with (length (pre ++ [x])) by (rewrite app_length; cbn; lia). rewrite nth_middle. reflexivity. }
    split; [|split; [|split]].
    + rewrite X, <- app_assoc. cbn [app undelta_from]. rewrite <- VV. reflexivity.
    + eapply ext_trans; [apply gset_ext|exact Y].
    + intros t O. apply Z. exact (gstores_ok s [v] m i t O).
    + intros t A. rewrite (W t A). apply contents_gset_apart. exact A.
Qed.
Lemma undeltaM_ok w m s : okslice m s -> contents (undeltaM w m s) s = delta_decode_with w (contents m s)
  /\ ext (fun a => a = g_array s) m (undeltaM w m s)
  /\ (forall t, okslice m t -> okslice (undeltaM w m s) t)
  /\ (forall t, apart s t -> contents (undeltaM w m s) t = contents m t).
Proof.
  intros O. pose proof (ok_length m s O) as L. unfold undeltaM. destruct (contents m s) as [|x rest] eqn:E.
  - cbn in L. rewrite <- L. cbn [Nat.sub undelta_loop]. split; [exact E|]. split; [apply ext_refl|]. split; auto.
  - apply (undelta_loop_ok w s _ m [] x rest); [exact E|reflexivity|cbn in L; lia|rewrite E; exact L].
Qed.
(** Slices made by a call, in arrays that did not exist before. *)
Definition made (m m' : mem) (s : gslice) (l : list Z) : Prop :=
  okslice m' s /\ contents m' s = l /\ length m <= g_array s < length m' /\ g_off s = 0.
Lemma made_later m m1 m2 s l : made m m1 s l -> ext nothing m1 m2 -> made m m2 s l.
Proof.
  intros (A & B & C) E. destruct (ok_ext0 _ _ _ E A) as [A2 B2]. split; [exact A2|]. split; [congruence|]. destruct E as (E & _). lia.
Qed.
Lemma gfill_ok m l s m' : gfill m l = (s, m') -> made m m' s l /\ ext nothing m m' /\ g_len s = length l.
Proof.
  unfold gfill. destruct (gmake m (length l) (length l)) as [t m1] eqn:E. intros H. injection H as <- <-.
  destruct (fill_new m _ t m1 l E eq_refl) as (A & B & C & D & F). split; [|split; [exact A|rewrite D; reflexivity]].
  split; [exact B|]. split; [exact C|]. rewrite F, D. cbn. lia.
Qed.
Lemma gappends_ok grow l : forall m0 m s s' m' acc, made m0 m s acc -> ext nothing m0 m -> length acc + length l <= g_cap s ->
  gappends grow m s l = (s', m') -> made m0 m' s' (acc ++ l) /\ ext nothing m0 m' /\ g_cap s' = g_cap s.
Proof.
  induction l as [|v l IH]; intros m0 m s s' m' acc M E L H; cbn [gappends] in H.
  - injection H as <- <-. rewrite app_nil_r. auto.
  - destruct (gappend grow m s [v]) as [s1 m1] eqn:E1. destruct M as (O & C & R). destruct (append_ok grow m s [v] s1 m1 O E1) as (O1 & C1 & X1 & F1).
    pose proof (ok_length m s O) as LS. rewrite C in LS. cbn [length] in L.
    assert (IN : s1 = mkG (g_array s) (g_off s) (g_len s + 1) (g_cap s)).
    { unfold gappend in E1. cbn [length] in E1. destruct (Nat.leb_spec (g_len s + 1) (g_cap s)); [|lia]. injection E1 as <- _. reflexivity. }
    assert (E0 : ext nothing m0 m1) by (eapply ext_then; [exact E|exact X1|]; cbn beta; intros a Ha [_ Hx]; lia).
    assert (M1 : made m0 m1 s1 (acc ++ [v])).
    { split; [exact O1|]. split; [rewrite C1, C; reflexivity|]. destruct X1 as (X1 & _). rewrite IN. cbn [g_array g_off]. lia. }
    destruct (IH m0 m1 s1 s' m' (acc ++ [v]) M1 E0) as (A & B & D); [rewrite app_length, IN; cbn [length g_cap]; lia|exact H|].
    rewrite <- app_assoc in A. split; [exact A|]. split; [exact B|]. rewrite D, IN. reflexivity.
Qed.
Lemma loop_short : forall n first buf l st, decodeUVarInts_loop n first buf = Ok (l, st) -> length l <= n.
Proof.
  induction n as [|n IH]; intros first buf l st H; cbn [decodeUVarInts_loop] in H; [injection H as <- _; cbn; lia|].
  destruct buf as [|b buf]; [injection H as <- _; cbn; lia|]. destruct (uvarint (b :: buf)) as [v k]. destruct (k <=? 0)%Z.
  - destruct first; [discriminate|]. injection H as <- _. cbn. lia.
  - destruct (decodeUVarInts_loop n false _) as [[vals s2]| |] eqn:E; cbn [rbind] in H; try discriminate. injection H as <- _. apply IH in E. cbn. lia.
Qed.
Lemma decodeUVarIntsM_ok grow m buf count x m' : decodeUVarIntsM grow m buf count = (x, m') ->
  ext nothing m m' /\ match decodeUVarInts buf count with
                      | Ok l => exists s, x = Ok s /\ made m m' s l
                      | Err e => x = Err e
                      | Panic => x = Panic
                      end.
Proof.
  unfold decodeUVarIntsM, decodeUVarInts. destruct (gmake m 0 (Z.to_nat count)) as [s0 m0] eqn:E0. destruct (gmake_ext _ _ _ _ _ E0) as (X0 & S0 & _ & L0).
  assert (M0 : made m m0 s0 []) by (split; [apply (gmake_ok _ _ _ _ _ E0); lia|]; split; [rewrite S0; reflexivity|]; rewrite L0, S0; cbn; lia).
  destruct (decodeUVarInts_loop (Z.to_nat count) true buf) as [[l st]|e|] eqn:EL; cbn [rbind].
  2,3: intros H; injection H as <- <-; auto.
  pose proof (loop_short _ _ _ _ _ EL) as LS. destruct (gappends grow m0 s0 l) as [s1 m1] eqn:E1.
  destruct (gappends_ok grow l m m0 s0 s1 m1 [] M0 X0 ltac:(rewrite S0; cbn; lia) E1) as (A & B & D). cbn [app] in A. destruct st.
  - intros H. injection H as <- <-. split; [exact B|]. eauto.
  - set (l2 := map _ _). destruct (gappends grow m1 s1 l2) as [s2 m2] eqn:E2. intros H. injection H as <- <-.
    destruct (gappends_ok grow l2 m m1 s1 s2 m2 l A B) as (A2 & B2 & _); [|exact E2|split; [exact B2|eauto]].
    unfold l2. rewrite D, S0, map_length. cbn [g_cap]. unfold zdrop, zseq, zlen. rewrite skipn_length, map_length, seq_length, Nat2Z.id. lia.
Qed.
Lemma made_apart m m1 s l m2 t k : made m m1 s l -> made m1 m2 t k -> apart t s.
Proof. intros (_ & _ & A) (_ & _ & B). unfold apart. lia. Qed.
Lemma gto_made m m' s l k : made m m' s l -> k <= length l -> made m m' (gto s k) (firstn k l).
Proof.
  intros (O & C & R) H. pose proof (ok_length _ _ O) as L. rewrite C in L. destruct O as (O2 & O3). split; [|split; [|exact R]].
  - split; [cbn [gto g_len g_cap]; lia|]. exact O3.
  - rewrite <- C. unfold contents, gto. cbn [g_len g_off]. unfold array_of. cbn [g_array]. rewrite firstn_firstn. f_equal. lia.
Qed.
Lemma zlen_fixed bs count conv mock : length (decodeFixed bs count conv mock) = Z.to_nat count.
Proof. unfold decodeFixed, zseq. rewrite !map_length, seq_length. reflexivity. Qed.
(** Undoing differences in two slices made by the call. *)
Lemma undelta_made w m m1 s l t k : made m m1 s l -> made m m1 t k -> apart s t -> ext nothing m m1 ->
  let m2 := undeltaM w m1 s in made m m2 s (delta_decode_with w l) /\ made m m2 t k /\ ext nothing m m2.
Proof.
  intros (O & C & R) (O2 & C2 & R2) AP E m2. destruct (undeltaM_ok w m1 s O) as (A & B & D & F). fold m2 in A, B, D, F.
  assert (LE : length m1 <= length m2) by (destruct B as (B & _); exact B).
  split; [|split].
  - split; [apply D; exact O|]. split; [rewrite A, C; reflexivity|]. lia.
  - split; [apply D; exact O2|]. split; [rewrite (F t AP); exact C2|]. lia.
  - eapply ext_then; [exact E|exact B|]. cbn beta. intros a Ha ->. lia.
Qed.
Lemma apart_sym s t : apart s t -> apart t s.
Proof. unfold apart. congruence. Qed.
Lemma decodeBlockDataM_ok grow m idB valB count enc x m' : decodeBlockDataM grow m idB valB count enc = (x, m') ->
  ext nothing m m' /\ match decodeBlockData idB valB count enc with
                      | Ok (l1, l2) => exists s t, x = Ok (s, t) /\ made m m' s l1 /\ made m m' t l2 /\ apart s t
                      | Err e => x = Err e
                      | Panic => x = Panic
                      end.
Proof.
  unfold decodeBlockDataM, decodeBlockData.
  set (first := if isVarInt enc then _ else _ : res (gslice * gslice) * mem). set (first0 := if isVarInt enc then _ else _ : res (list Z * list Z)).
  assert (K : ext nothing m (snd first) /\ match first0 with
                      | Ok (l1, l2) => exists s t, fst first = Ok (s, t) /\ made m (snd first) s l1 /\ made m (snd first) t l2 /\ apart s t
                      | Err e => fst first = Err e
                      | Panic => fst first = Panic
                      end).
  { unfold first, first0. destruct (isVarInt enc).
    - destruct (decodeUVarIntsM grow m idB count) as [y m1] eqn:E1. destruct (decodeUVarIntsM_ok grow m idB count y m1 E1) as [X1 Y1].
      destruct (decodeUVarInts idB count) as [l|e|]; cbn [rbind]; [destruct Y1 as (s & -> & M1)|subst y; split; [exact X1|reflexivity]|subst y; split; [exact X1|reflexivity]].
      destruct (gfill m1 _) as [t m2] eqn:E2. destruct (gfill_ok _ _ _ _ E2) as (M2 & X2 & _). cbn [fst snd]. split; [eapply ext_trans; eassumption|].
      exists s, t. split; [reflexivity|]. split; [eapply made_later; eassumption|]. split; [|apply apart_sym; eapply made_apart; eassumption].
      destruct M2 as (A & B & C). split; [exact A|]. split; [exact B|]. destruct M1 as (_ & _ & M1), X1 as (X1 & _). lia.
    - cbv zeta. set (c0 := if (count >? zlen idB / 8)%Z then _ else _). set (l1 := decodeFixed idB c0 _ _).
      destruct (gfill m l1) as [s m1] eqn:E1. destruct (gfill_ok _ _ _ _ E1) as (M1 & X1 & L1).
      assert (J : exists c1 s1 k1, (if (c0 >? zlen valB / 8)%Z then (zlen valB / 8, if (Z.of_nat (g_len s) >? zlen valB / 8)%Z then gto s (Z.to_nat (zlen valB / 8)) else s)%Z else (c0, s)) = (c1, s1)
        /\ (if (c0 >? zlen valB / 8)%Z then (zlen valB / 8, if (zlen l1 >? zlen valB / 8)%Z then ztake (zlen valB / 8) l1 else l1)%Z else (c0, l1)) = (c1, k1)
        /\ made m m1 s1 k1).
      { destruct (c0 >? zlen valB / 8)%Z; [|exists c0, s, l1; auto]. rewrite L1. change (zlen l1) with (Z.of_nat (length l1)). destruct (Z.gtb_spec (Z.of_nat (length l1)) (zlen valB / 8)) as [G|G]; [|eexists _, s, l1; auto].
        eexists _, _, _. split; [reflexivity|]. split; [reflexivity|]. unfold ztake. apply gto_made; [exact M1|]. lia. }
      destruct J as (c1 & s1 & k1 & -> & -> & M1'). destruct (gfill m1 _) as [t m2] eqn:E2. destruct (gfill_ok _ _ _ _ E2) as (M2 & X2 & _). cbn [fst snd].
      split; [eapply ext_trans; eassumption|]. exists s1, t. split; [reflexivity|]. split; [eapply made_later; eassumption|]. split; [|apply apart_sym; eapply made_apart; eassumption].
      destruct M2 as (A & B & C). split; [exact A|]. split; [exact B|]. destruct M1 as (_ & _ & M1), X1 as (X1 & _). lia. }
  clearbody first first0. destruct first as [y m1]. cbn [fst snd] in K. destruct K as [X K].
  destruct first0 as [[l1 l2]|e|]; cbn [rbind]; [|subst y; intros H; injection H as <- <-; auto|subst y; intros H; injection H as <- <-; auto].
  destruct K as (s & t & -> & M1 & M2 & AP).
  destruct ((enc =? EncodingDeltaBoth) || (enc =? EncodingVarIntBoth))%Z.
  { intros H. injection H as <- <-. destruct (undelta_made u64 m m1 s l1 t l2 M1 M2 AP X) as (A & B & C).
    destruct (undelta_made i64 m _ t l2 s _ B A (apart_sym _ _ AP) C) as (D & F & G). split; [exact G|]. exists s, t. auto. }
  destruct ((enc =? EncodingDeltaID) || (enc =? EncodingVarIntID))%Z.
  { intros H. injection H as <- <-. destruct (undelta_made u64 m m1 s l1 t l2 M1 M2 AP X) as (A & B & C). split; [exact C|]. exists s, t. auto. }
  destruct ((enc =? EncodingDeltaValue) || (enc =? EncodingVarIntValue))%Z.
  { intros H. injection H as <- <-. destruct (undelta_made i64 m m1 t l2 s l1 M2 M1 (apart_sym _ _ AP) X) as (A & B & C). split; [exact C|]. exists s, t. auto. }
  intros H. injection H as <- <-. split; [exact X|]. exists s, t. auto.
Qed.

Lemma readBlockM_ok {Srr : Sroar} grow m r i x m' : readBlockM grow m r i = (x, m') ->
  ext nothing m m' /\ match readBlock r i with
                      | Ok (l1, l2) => exists s t, x = Ok (s, t) /\ made m m' s l1 /\ made m m' t l2 /\ apart s t
                      | Err e => x = Err e
                      | Panic => x = Panic
                      end.
Proof.
  unfold readBlockM, readBlock. destruct ((i <? 0)%Z || (i >=? zlen (r_index r))%Z); [intros H; injection H as <- <-; split; [apply ext_refl|reflexivity]|].
  destruct (nth_error (r_index r) (Z.to_nat i)) as [e|]; [|intros H; injection H as <- <-; split; [apply ext_refl|reflexivity]]. cbv zeta.
  destruct (readBytesAt _ _ _ _) as [bd| |]; cbn [rbind]; [|intros H; injection H as <- <-; split; [apply ext_refl|reflexivity]..].
  destruct (layoutField bd 0) as [f0| |]; cbn [rbind]; [|intros H; injection H as <- <-; split; [apply ext_refl|reflexivity]..].
  destruct (layoutField bd 4) as [f1| |]; cbn [rbind]; [|intros H; injection H as <- <-; split; [apply ext_refl|reflexivity]..].
  destruct (layoutField bd 8) as [f2| |]; cbn [rbind]; [|intros H; injection H as <- <-; split; [apply ext_refl|reflexivity]..].
  destruct (layoutField bd 12) as [f3| |]; cbn [rbind]; [|intros H; injection H as <- <-; split; [apply ext_refl|reflexivity]..].
  destruct (f1 =? 0)%Z; [intros H; injection H as <- <-; split; [apply ext_refl|reflexivity]|].
  destruct (f3 =? 0)%Z; [intros H; injection H as <- <-; split; [apply ext_refl|reflexivity]|].
  destruct (_ || _)%bool; [intros H; injection H as <- <-; split; [apply ext_refl|reflexivity]|]. apply decodeBlockDataM_ok.
Qed.

(** ** Programs *)
Lemma skipn_add {A} : forall o k (l : list A), skipn k (skipn o l) = skipn (o + k) l.
Proof. induction o as [|o IH]; intros k l; [reflexivity|]. destruct l as [|x l]; [destruct k; reflexivity|]. cbn. apply IH. Qed.
Lemma passed_contents m held w : contents m (passed held w) = seen (map (contents m) held) w.
Proof.
  destruct w as [[v o] n]. unfold passed, seen. change (@nil Z) with (contents m gnil) at 1. rewrite map_nth. generalize (nth v held gnil) as x. intros x.
  unfold contents, array_of. cbn [g_len g_off g_array]. rewrite skipn_firstn_comm, firstn_firstn, skipn_add.
  destruct (Nat.le_ge_cases o (g_len x)) as [H|H]; [rewrite (Nat.min_l o) by exact H; reflexivity|]. rewrite (Nat.min_r o) by exact H.
  replace (Nat.min n (g_len x - g_len x)) with 0 by lia. replace (Nat.min n (g_len x - o)) with 0 by lia. reflexivity.
Qed.
Lemma made_proper m m' s l : made m m' s l -> proper m' s.
Proof. intros ((L & [C|[_ C]]) & _ & _ & O); unfold proper; lia. Qed.

Section Program.
Context {Srr : Sroar}.
(** The slices held by the caller: in arrays of their own. *)
Definition holds (m : mem) (sw : swriterM) (held : list gslice) : Prop :=
  NoDup (map g_array held) /\ Forall (fun s => g_array s < length m /\ proper m s /\ ~ pend sw (g_array s)) held.
Lemma holds_nth m sw held v : holds m sw held -> proper m (nth v held gnil).
Proof.
  intros (_ & F). destruct (Nat.lt_ge_cases v (length held)) as [H|H]; [|rewrite nth_overflow by exact H; unfold proper; cbn; lia].
  rewrite Forall_forall in F. apply (F _ (nth_In held gnil H)).
Qed.
Lemma passed_proper m sw held w : holds m sw held -> proper m (passed held w).
Proof.
  intros H. destruct w as [[v o] n]. pose proof (holds_nth m sw held v H) as P. unfold passed. revert P. generalize (nth v held gnil) as x. intros x P.
  unfold proper, array_of in *. cbn [g_len g_off g_array]. lia.
Qed.
Lemma holds_ext m sw m' sw' held : holds m sw held -> ext (pend sw) m m' -> (forall a, pend sw' a -> pend sw a \/ length m <= a) ->
  holds m' sw' held /\ map (contents m') held = map (contents m) held.
Proof.
  intros (N & F) E P. split; [split; [exact N|]|].
  - eapply Forall_impl; [|exact F]. cbn beta. intros s (A & B & C). split; [destruct E; lia|]. split; [eapply ext_proper; [exact E|exact B|auto]|].
    intros X. apply P in X. destruct X as [X|X]; [exact (C X)|lia].
  - apply map_ext_in. intros s Hs. rewrite Forall_forall in F. destruct (F s Hs) as (A & B & C). eapply ext_contents; [exact E|]. left. auto.
Qed.
Lemma pend_exists m sw a : inv m sw -> pend sw a -> a < length m.
Proof. intros ((_ & A) & (_ & B) & _) [[H ->]|[H ->]]; [destruct A as [A|[A _]]; lia|destruct B as [B|[B _]]; lia]. Qed.
Lemma NoDup_join (l l' : list nat) n : NoDup l -> NoDup l' -> Forall (fun a => a < n) l -> Forall (fun a => n <= a) l' -> NoDup (l ++ l').
Proof.
  intros H H' F F'. induction H as [|x l N H IH]; [exact H'|]. inversion F; subst. cbn. constructor; [|auto].
  intros X. apply in_app_or in X. destruct X as [X|X]; [exact (N X)|]. rewrite Forall_forall in F'. apply F' in X. lia.
Qed.
Lemma holds_add m sw m1 held news ls : holds m sw held -> inv m sw -> ext nothing m m1 -> Forall2 (made m m1) news ls -> NoDup (map g_array news) ->
  holds m1 sw (held ++ news) /\ map (contents m1) (held ++ news) = map (contents m) held ++ ls.
Proof.
  intros H I E M N. destruct (holds_ext m sw m1 sw held H) as [(H1 & H2) C]; [eapply ext_weaken; [exact E|intros a _ []]|auto|].
  assert (R : Forall (fun s => length m <= g_array s < length m1) news).
  { clear - M. induction M as [|s l news ls A M IH]; constructor; [apply A|exact IH]. }
  split; [split|].
  - rewrite map_app. apply (NoDup_join _ _ (length m)); [exact H1|exact N| |].
    + destruct H as (_ & F). rewrite Forall_map. eapply Forall_impl; [|exact F]. cbn beta. intros s (A & _). exact A.
    + rewrite Forall_map. eapply Forall_impl; [|exact R]. cbn beta. intros s A. lia.
  - apply Forall_app. split; [exact H2|]. clear - M I R. induction M as [|s l news ls A M IH]; [constructor|]. inversion R; subst. constructor; [|auto].
    split; [lia|]. split; [eapply made_proper; exact A|]. intros X. apply (pend_exists m) in X; [lia|exact I].
  - rewrite map_app, C. f_equal. clear - M. induction M as [|s l news ls A M IH]; [reflexivity|]. cbn. rewrite IH. f_equal. apply A.
Qed.
Lemma set_nth_same {A} (d : A) : forall l v, set_nth v (nth v l d) l = l.
Proof. induction l as [|x l IH]; intros [|v]; cbn; try reflexivity. rewrite IH. reflexivity. Qed.
Lemma holds_change m sw held v i x : holds m sw held -> inv m sw ->
  let m' := if (i <? g_len (nth v held gnil)) then gset m (nth v held gnil) i x else m in
  holds m' sw held /\ inv m' sw /\ as_values m' sw = as_values m sw /\ map (contents m') held = changed (map (contents m) held) v i x.
Proof.
  intros H I m'. assert (NV : nth v (map (contents m) held) [] = contents m (nth v held gnil)) by (change (@nil Z) with (contents m gnil); apply map_nth).
  unfold changed. rewrite NV. subst m'. destruct (Nat.ltb_spec i (g_len (nth v held gnil))) as [L|L].
  2:{ split; [exact H|]. split; [exact I|]. split; [reflexivity|]. rewrite (set_nth_beyond (contents m (nth v held gnil)) i x).
      - rewrite <- NV. symmetry. apply set_nth_same.
      - rewrite (proper_length m _ (holds_nth m sw held v H)). exact L. }
  assert (V : v < length held).
  { destruct (Nat.lt_ge_cases v (length held)) as [V|V]; [exact V|]. rewrite nth_overflow in L by exact V. cbn in L. lia. }
  pose proof (nth_In held gnil V) as HI. destruct H as (N & F). pose proof F as F0. rewrite Forall_forall in F0. destruct (F0 _ HI) as (A & B & C).
  set (s := nth v held gnil) in *. pose proof (gset_ext m s i x) as E. destruct I as (I1 & I2 & I3).
  destruct (ok_ext _ _ _ _ E I1) as [J1 K1]; [cbn beta; intros Hc Ha; apply C; left; auto|].
  destruct (ok_ext _ _ _ _ E I2) as [J2 K2]; [cbn beta; intros Hc Ha; apply C; right; auto|].
  split; [split; [exact N|]|split; [split; [exact J1|split; [exact J2|exact I3]]|split; [unfold as_values; rewrite K1, K2; reflexivity|]]].
  - eapply Forall_impl; [|exact F]. cbn beta. intros t (A1 & B1 & C1). split; [destruct E; lia|]. split; [|exact C1]. unfold proper in *. rewrite gset_arrays. exact B1.
  - clear - V N. subst s. revert V N. revert v. set (go := fun v => map (contents (gset m (nth v held gnil) i x)) held = set_nth v (set_nth i x (contents m (nth v held gnil))) (map (contents m) held)).
    cut (forall v, v < length held -> NoDup (map g_array held) -> go v); [auto|]. unfold go. clear go. intros v V N.
    assert (G : forall (l : list gslice) k t, nth k l gnil = t -> k < length l -> NoDup (map g_array l) -> map (contents (gset m t i x)) l = set_nth k (set_nth i x (contents m t)) (map (contents m) l)).
    { clear. induction l as [|s l IH]; intros [|k] t Ht Hk Nd; cbn [nth length map set_nth] in *; try lia.
      - subst t. rewrite contents_gset. f_equal. inversion Nd; subst. apply map_ext_in. intros u Hu. apply contents_gset_apart. intros X. apply H1. rewrite X. apply in_map. exact Hu.
      - inversion Nd; subst. f_equal.
        + apply contents_gset_apart. intros X. apply H1. rewrite <- X. apply in_map. apply nth_In. lia.
        + apply IH; [reflexivity|lia|assumption]. }
    apply G; auto.
Qed.
Lemma wrun_ok q held m sw w x m' w' : holds m sw held -> wrun_request q held m w = (x, m', w') ->
  run_call (wvalue (map (contents m) held) q) w = (x, w') /\ ext nothing m m'.
Proof.
  intros HH H. destruct q as [ids values|ids values|now|now|]; cbn [wrun_request wvalue run_call] in *.
  - destruct (WriteBlockM _ _ m w) as [[y m1] w1] eqn:E. apply WriteBlockM_ok in E; [|eapply passed_proper; exact HH..]. destruct E as [E X].
    rewrite !passed_contents in E. unfold mbind. rewrite E. apply triple in H. destruct H as (<- & <- & <-). split; [destruct y; reflexivity|exact X].
  - apply EstimateM_ok in H; [|eapply passed_proper; exact HH..]. rewrite !passed_contents in H. exact H.
  - match type of H with (let '(_, _) := ?t in _) = _ => destruct t as [y w1] end. apply triple in H. destruct H as (<- & <- & <-). split; [reflexivity|apply ext_refl].
  - match type of H with (let '(_, _) := ?t in _) = _ => destruct t as [y w1] end. apply triple in H. destruct H as (<- & <- & <-). split; [reflexivity|apply ext_refl].
  - match type of H with (let '(_, _) := ?t in _) = _ => destruct t as [y w1] end. apply triple in H. destruct H as (<- & <- & <-). split; [reflexivity|apply ext_refl].
Qed.

Variable grow : nat -> nat -> nat.
Variable srt : sorter.
Hypothesis Hsrt : sorts srt.
Lemma srun_ok q held m sw x m' sw' : inv m sw -> holds m sw held -> srun_request grow srt q held m sw = (x, m', sw') ->
  run_scall srt (svalue (map (contents m) held) q) (as_values m sw) = (x, as_values m' sw') /\ inv m' sw' /\ ext (pend sw) m m' /\ (forall a, pend sw' a -> pend sw a \/ length m <= a).
Proof using Hsrt.
  intros I HH H. destruct q as [ids values|size|now]; cbn [srun_request svalue run_scall] in *.
  - rewrite <- !passed_contents. apply (SWriteM_ok grow srt Hsrt); try (eapply passed_proper; exact HH); assumption.
  - unfold SetTargetM in H. unfold SetTargetBlockSize. cbn [as_values sw_closed]. destruct (swm_closed sw) eqn:E; apply triple in H; destruct H as (<- & <- & <-).
    + split; [reflexivity|]. split; [exact I|]. split; [apply ext_refl|auto].
    + split; [unfold as_values; rewrite E; reflexivity|]. split; [exact I|]. split; [apply ext_refl|auto].
  - apply SCloseM_ok; assumption.
Qed.
Lemma five {A B C D E} (a a' : A) (b b' : B) (c c' : C) (d d' : D) (e e' : E) : (a, b, c, d, e) = (a', b', c', d', e') ->
  a = a' /\ b = b' /\ c = c' /\ d = d' /\ e = e'.
Proof using. intros H. injection H as -> -> -> -> ->. auto. Qed.
Lemma acts_ok acts : forall held m sw w ts held' m' sw' w', inv m sw -> holds m sw held ->
  run_slices grow srt acts held m sw w = (ts, held', m', sw', w') ->
  run_values srt acts (map (contents m) held) (as_values m sw) w = (ts, map (contents m') held', as_values m' sw', w').
Proof using Hsrt.
  induction acts as [|[l|v i x|r block|q|q] acts IH]; intros held m sw w ts held' m' sw' w' I HH H; cbn [run_slices run_values] in *.
  - apply five in H. destruct H as (<- & <- & <- & <- & <-). reflexivity.
  - destruct (gfill m l) as [s m1] eqn:E. destruct (gfill_ok _ _ _ _ E) as (M & X & _). destruct (ext_inv _ _ _ X I) as [I1 V1].
    destruct (holds_add m sw m1 held [s] [l] HH I X) as [H1 C1]; [constructor; [exact M|constructor]|constructor; [intros []|constructor]|].
    apply IH in H; [|exact I1|exact H1]. rewrite C1, V1 in H. exact H.
  - destruct (holds_change m sw held v i x HH I) as (H1 & I1 & V1 & C1). apply IH in H; [|exact I1|exact H1]. rewrite C1, V1 in H. exact H.
  - destruct (GetPairsM grow m r block) as [y m1] eqn:E. unfold GetPairsM in E. destruct (readBlockM_ok grow m r _ y m1 E) as [X K]. destruct (ext_inv _ _ _ X I) as [I1 V1].
    unfold GetPairs. 
    assert (J : exists t held1 vars1, match y with Ok (ids, values) => (Ok tt, held ++ [ids; values]) | Err e => (Err e, held) | Panic => (Panic, held) end = (t, held1)
      /\ match readBlock r (i64 block) with Ok (ids, values) => (Ok tt, map (contents m) held ++ [ids; values]) | Err e => (Err e, map (contents m) held) | Panic => (Panic, map (contents m) held) end = (t, vars1)
      /\ holds m1 sw held1 /\ map (contents m1) held1 = vars1).
    { destruct (readBlock r (i64 block)) as [[l1 l2]|e|].
      - destruct K as (s & t & -> & M1 & M2 & AP). eexists _, _, _. split; [reflexivity|]. split; [reflexivity|].
        apply (holds_add m sw m1 held [s; t] [l1; l2] HH I X); [constructor; [exact M1|constructor; [exact M2|constructor]]|].
        constructor; [intros [Y|[]]; apply AP; congruence|]. constructor; [intros []|constructor].
      - subst y. eexists _, _, _. split; [reflexivity|]. split; [reflexivity|]. apply (holds_ext m sw m1 sw held HH); [eapply ext_weaken; [exact X|intros a _ []]|auto].
      - subst y. eexists _, _, _. split; [reflexivity|]. split; [reflexivity|]. apply (holds_ext m sw m1 sw held HH); [eapply ext_weaken; [exact X|intros a _ []]|auto]. }
    destruct J as (t & held1 & vars1 & J1 & J2 & H1 & C1). rewrite J1 in H. rewrite J2.
    destruct (run_slices grow srt acts held1 m1 sw w) as [[[[ts2 held2] m2] sw2] w2] eqn:E2. apply five in H. destruct H as (<- & <- & <- & <- & <-).
    apply IH in E2; [|exact I1|exact H1]. rewrite C1, V1 in E2. rewrite E2. reflexivity.
  - destruct (srun_request grow srt q held m sw) as [[x m1] sw1] eqn:E1. destruct (srun_ok q held m sw x m1 sw1 I HH E1) as (R & I1 & X & P).
    destruct (holds_ext m sw m1 sw1 held HH X P) as [H1 C1]. rewrite R.
    destruct (run_slices grow srt acts held m1 sw1 w) as [[[[ts2 held2] m2] sw2] w2] eqn:E2. apply five in H. destruct H as (<- & <- & <- & <- & <-).
    apply IH in E2; [|exact I1|exact H1]. rewrite C1 in E2. rewrite E2. reflexivity.
  - destruct (wrun_request q held m w) as [[x m1] w1] eqn:E1. destruct (wrun_ok q held m sw w x m1 w1 HH E1) as (R & X).
    destruct (ext_inv _ _ _ X I) as [I1 V1]. destruct (holds_ext m sw m1 sw held HH) as [H1 C1]; [eapply ext_weaken; [exact X|intros a _ []]|auto|]. rewrite R.
    destruct (run_slices grow srt acts held m1 sw w1) as [[[[ts2 held2] m2] sw2] w2] eqn:E2. apply five in H. destruct H as (<- & <- & <- & <- & <-).
    apply IH in E2; [|exact I1|exact H1]. rewrite C1, V1 in E2. rewrite E2. reflexivity.
Qed.
End Program.

(** The calls each writer got. *)
Section Calls.
Context {Srr : Sroar}.
Lemma values_simple srt acts : forall vars sw w ts vars' sw' w', run_values srt acts vars sw w = (ts, vars', sw', w') ->
  run_scalls srt (simple_calls acts vars) sw = (simple_answers ts, sw').
Proof.
  induction acts as [|[l|v i x|r block|q|q] acts IH]; intros vars sw w ts vars' sw' w' H; cbn [run_values simple_calls run_scalls] in *.
  - injection H as <- <- <- <-. reflexivity.
  - apply IH in H. exact H.
  - apply IH in H. exact H.
  - destruct (GetPairs r block) as [[l1 l2]|e|]; destruct (run_values srt acts _ sw w) as [[[ts2 v2] sw2] w2] eqn:E; apply IH in E; injection H as <- <- <- <-; exact E.
  - destruct (run_scall srt (svalue vars q) sw) as [x sw1]. destruct (run_values srt acts vars sw1 w) as [[[ts2 v2] sw2] w2] eqn:E. apply IH in E. injection H as <- <- <- <-.
    rewrite E. reflexivity.
  - destruct (run_call (wvalue vars q) w) as [x w1]. destruct (run_values srt acts vars sw w1) as [[[ts2 v2] sw2] w2] eqn:E. apply IH in E. injection H as <- <- <- <-. exact E.
Qed.
Lemma values_writer srt acts : forall vars sw w ts vars' sw' w', run_values srt acts vars sw w = (ts, vars', sw', w') ->
  run_calls (writer_calls acts vars) w = (writer_answers ts, w').
Proof.
  induction acts as [|[l|v i x|r block|q|q] acts IH]; intros vars sw w ts vars' sw' w' H; cbn [run_values writer_calls run_calls] in *.
  - injection H as <- <- <- <-. reflexivity.
  - apply IH in H. exact H.
  - apply IH in H. exact H.
  - destruct (GetPairs r block) as [[l1 l2]|e|]; destruct (run_values srt acts _ sw w) as [[[ts2 v2] sw2] w2] eqn:E; apply IH in E; injection H as <- <- <- <-; exact E.
  - destruct (run_scall srt (svalue vars q) sw) as [x sw1]. destruct (run_values srt acts vars sw1 w) as [[[ts2 v2] sw2] w2] eqn:E. apply IH in E. injection H as <- <- <- <-. exact E.
  - destruct (run_call (wvalue vars q) w) as [x w1]. destruct (run_values srt acts vars sw w1) as [[[ts2 v2] sw2] w2] eqn:E. apply IH in E. injection H as <- <- <- <-.
    rewrite E. reflexivity.
Qed.
End Calls.
