(** Who closed a Reader: ownership (C82). *)
From Verif Require Import Machine MachineFacts Encoding Sroar Writer Reader Aggregate Multi Shared SharedSpec SharedMulti SharedMultiSpec ArbFacts SharedFacts SharedMultiFacts ClosingSpec.
From Coq Require Import Lia.

Section Closing.
Context {Srr : Sroar}.
Variable rs : list reader.

(** ** The programs: [own] are the readers this call closed itself, [gone] those it knows
    to be closed. *)
Definition add (j : nat) (f : nat -> bool) : nat -> bool := fun i => if Nat.eqb i j then true else f i.
Fixpoint okq (c : mop) (j : nat) (K : (nat -> bool) -> (nat -> bool) -> answer -> Prop) (q : prog) (own gone : nat -> bool) {struct q} : Prop :=
  match q with
  | Ret a => K own gone a
  | DoRead k => forall o, okq c j K (k o) own gone
  | GetFlag k => forall o, okq c j K (k o) own gone
  | SetFlag _ p => okq c j K p own gone
  | GetPtr k => forall o, okq c j K (k o) own gone
  | SetPtr _ p => okq c j K p own gone
  | NewBitmap _ k => forall o, okq c j K (k o) own gone
  | DoClose k => covers j c /\ okq c j K (k true) (add j own) (add j gone) /\ okq c j K (k false) own (add j gone)
  end.
Fixpoint okc (c : mop) (p : mprog) (own gone : nat -> bool) {struct p} : Prop :=
  match p with
  | MRet a =>
      (forall i, (i < length rs)%nat -> covers i c -> gone i = true)
      /\ (forall i, (i < length rs)%nat -> covers i c -> succeeded a -> own i = true)
      /\ (proper_close rs c -> ~ succeeded a -> exists i, (i < length rs)%nat /\ covers i c /\ own i = false)
  | MCall j q k => (j < length rs)%nat /\ okq c j (fun own gone a => okc c (k a) own gone) q own gone
  | MRead _ k => ~ closes c /\ forall b, okc c (k b) own gone
  end.

Definition same (f g : nat -> bool) : Prop := forall i, f i = g i.
Lemma same_add j f g : same f g -> same (add j f) (add j g).
Proof. intros H i. unfold add. rewrite H. reflexivity. Qed.
Lemma okq_ext c j (K K' : (nat -> bool) -> (nat -> bool) -> answer -> Prop) :
  (forall own own' gone a, same own own' -> K own gone a -> K' own' gone a) ->
  forall q own own' gone, same own own' -> okq c j K q own gone -> okq c j K' q own' gone.
Proof.
  intros HK q. induction q as [a|k IH|k IH|b p IH|k IH|q p IH|b k IH|k IH]; intros own own' gone E H; cbn [okq] in *; eauto.
  destruct H as (H1 & H2 & H3). split; [exact H1|]. split; [eapply IH; [apply same_add; exact E|exact H2]|eapply IH; [exact E|exact H3]].
Qed.
Lemma okc_ext c p : forall own own' gone, same own own' -> okc c p own gone -> okc c p own' gone.
Proof.
  induction p as [a|j q k IH|p k IH]; intros own own' gone E H; cbn [okc] in *.
  - destruct H as (H1 & H2 & H3). split; [exact H1|]. split.
    + intros i Hi Hc Ha. rewrite <- E. auto.
    + intros Hp Ha. destruct (H3 Hp Ha) as (i & Hi & Hc & Ho). exists i. rewrite <- E. auto.
  - destruct H as [H1 H2]. split; [exact H1|]. eapply okq_ext; [|exact E|exact H2]. intros o o' g a. apply IH.
  - destruct H as [H1 H2]. split; [exact H1|]. intros b. eapply IH; eauto.
Qed.

(** ** The calls. *)
Definition silent (q : prog) : Prop := forall c j (K : (nat -> bool) -> (nat -> bool) -> answer -> Prop) own gone, (forall a, K own gone a) -> okq c j K q own gone.
Lemma scan_silent get idx : forall a, silent (scan_prog get idx a).
Proof.
  induction idx as [|i idx IH]; intros a c j K own gone H; cbn [scan_prog okq]; [auto|]. intros o.
  destruct (add_block a (get o i)); cbn [okq]; auto. apply IH. exact H.
Qed.
Lemma aggregate_silent r opts : silent (aggregate_prog r opts).
Proof.
  unfold aggregate_prog. destruct (has_filter opts).
  - destruct (FilteredBlockIterator r (o_filter opts) (o_deny opts)) as [l|e|]; try (intros c j K own gone H; apply H).
    destruct (zlen l =? 0); [intros c j K own gone H; apply H|apply scan_silent].
  - destruct (_ && _); [intros c j K own gone H; apply H|apply scan_silent].
Qed.
Lemma keep_silent b : silent (keep_prog b).
Proof. intros c j K own gone H. cbn [keep_prog okq]. intros p [|]; cbn [okq]; apply H. Qed.
Lemma load_silent r : silent (load_prog r).
Proof.
  unfold load_prog. destruct (_ || _); [apply keep_silent|]. cbv zeta. intros c j K own gone H. cbn [okq]. intros o1.
  match goal with |- okq _ _ _ (match ?x with _ => _ end) _ _ => destruct x end; cbn [okq]; try apply H. intros o2.
  match goal with |- okq _ _ _ (match ?x with _ => _ end) _ _ => destruct x end; cbn [okq]; try apply H. apply keep_silent. exact H.
Qed.
Lemma bitmap_silent r : silent (bitmap_prog r).
Proof.
  intros c j K own gone H. cbn [bitmap_prog okq]. intros [p|]; [|apply load_silent; exact H]. cbn [okq]. intros [|]; [|apply load_silent; exact H].
  cbn [okq]. intros o. apply H.
Qed.
Lemma ret_ok c a own gone : ~ closes c -> okc c (MRet a) own gone.
Proof.
  intros N. assert (C : forall i, ~ covers i c) by (intros i H; apply N; destruct c as [? []|? ?|?]; cbn in *; auto).
  cbn [okc]. split; [intros i _ H; destruct (C i H)|]. split; [intros i _ H; destruct (C i H)|].
  intros P. destruct N. destruct c as [? []|? ?|?]; cbn in *; auto.
Qed.
Definition fully (order : list (nat * reader)) : Prop := Forall (fun x => (fst x < length rs)%nat) order.
Lemma multi_silent c opts : ~ closes c -> forall order deny result own gone, fully order -> okc c (multi_prog opts order deny result) own gone.
Proof.
  intros N. induction order as [|[i r] order IH]; intros deny result own gone F; cbn [multi_prog]; [apply ret_ok; exact N|].
  apply Forall_cons_iff in F. destruct F as [F1 F2]. cbn [okc]. split; [exact F1|]. apply aggregate_silent. intros a.
  destruct a as [a|[a|e|]|a| |a]; try (apply ret_ok; exact N). cbn [okc]. split; [exact F1|]. apply bitmap_silent. intros b.
  destruct b as [b|b|[[b|]|e|]| |b]; try (apply ret_ok; exact N). cbn [okc]. split; [exact N|]. intros gl. apply IH. exact F2.
Qed.
Lemma close_owned which : forall order e own gone,
  fully order ->
  (forall i, In i which -> (i < length rs)%nat -> In i (map fst order) \/ gone i = true) ->
  (forall i, In i which -> (i < length rs)%nat -> e = None -> In i (map fst order) \/ own i = true) ->
  (forall i, In i (map fst order) -> In i which) ->
  (NoDup which -> NoDup (map fst order) /\ (forall i, In i (map fst order) -> own i = false) /\
     (e <> None -> exists i, (i < length rs)%nat /\ In i which /\ own i = false /\ ~ In i (map fst order))) ->
  okc (MCloseAll which) (close_prog order e) own gone.
Proof.
  induction order as [|[j r] order IH]; intros e own gone F H1 H2 H3 H4; cbn [close_prog].
  - cbn [okc covers]. split; [intros i Hi Hc; destruct (H1 i Hc Hi) as [[]|G]; exact G|].
    split.
    + intros i Hi Hc [A|A]; [discriminate|]. injection A as ->. destruct (H2 i Hc Hi eq_refl) as [[]|G]; exact G.
    + intros [ND _] A. destruct (H4 ND) as (_ & _ & X). destruct X as (i & Hi & X1 & X2 & _); [intros ->; apply A; right; reflexivity|].
      exists i. auto.
  - apply Forall_cons_iff in F. destruct F as [F1 F2]. cbn [fst] in F1. cbn [okc prog_of okq covers]. split; [exact F1|].
    split; [apply H3; left; reflexivity|]. split.
    + apply IH; [exact F2| | | |].
      * intros i Hi Hv. unfold add. destruct (Nat.eqb_spec i j); [auto|]. destruct (H1 i Hi Hv) as [[E|E]|E]; [cbn in E; congruence|auto|auto].
      * intros i Hi Hv E. unfold add. destruct (Nat.eqb_spec i j); [auto|]. destruct (H2 i Hi Hv E) as [[X|X]|X]; [cbn in X; congruence|auto|auto].
      * intros i Hi. apply H3. right. exact Hi.
      * intros ND. destruct (H4 ND) as (N1 & N2 & N3). cbn [map fst] in N1. inversion N1 as [|? ? NI N4]; subst. split; [exact N4|]. split.
        -- intros i Hi. unfold add. destruct (Nat.eqb_spec i j) as [->|]; [contradiction|]. apply N2. right. exact Hi.
        -- intros E. destruct (N3 E) as (i & X1 & X2 & X3 & X4). exists i. split; [exact X1|]. split; [exact X2|].
           split; [unfold add; destruct (Nat.eqb_spec i j) as [->|]; [destruct X4; left; reflexivity|exact X3]|]. intros Hi. apply X4. right. exact Hi.
    + apply IH; [exact F2| | | |].
      * intros i Hi Hv. unfold add. destruct (Nat.eqb_spec i j); [auto|]. destruct (H1 i Hi Hv) as [[E|E]|E]; [cbn in E; congruence|auto|auto].
      * discriminate.
      * intros i Hi. apply H3. right. exact Hi.
      * intros ND. destruct (H4 ND) as (N1 & N2 & N3). cbn [map fst] in N1. inversion N1 as [|? ? NI N4]; subst. split; [exact N4|].
        split; [intros i Hi; apply N2; right; exact Hi|]. intros _. exists j. split; [exact F1|]. split; [apply H3; left; reflexivity|].
        split; [apply N2; left; reflexivity|exact NI].
Qed.
Lemma numbered_fst which : forall i, In i (map fst (numbered rs which)) <-> In i which /\ (i < length rs)%nat.
Proof.
  intros i. unfold numbered. induction which as [|j which IH]; cbn [flat_map map]; [cbn; tauto|]. rewrite map_app, in_app_iff, IH.
  destruct (nth_error rs j) as [r|] eqn:E; cbn [map fst In].
  - assert (j < length rs)%nat by (apply nth_error_Some; congruence). split; [intros [[->|[]]|[? ?]]; auto|intros [[->|?] ?]; auto].
  - apply nth_error_None in E. split; [intros [[]|[? ?]]; auto|intros [[->|?] ?]; [lia|auto]].
Qed.
Lemma numbered_nodup which : NoDup which -> NoDup (map fst (numbered rs which)).
Proof.
  induction 1 as [|j which NI ND IH]; [constructor|]. unfold numbered in *. cbn [flat_map]. rewrite map_app. destruct (nth_error rs j) as [r|]; cbn [map fst app]; [|exact IH].
  constructor; [|exact IH]. intros Hin. apply (numbered_fst which j) in Hin. tauto.
Qed.
Lemma numbered_fully which : fully (numbered rs which).
Proof.
  apply Forall_forall. intros [i r] Hin. cbn [fst]. apply (numbered_fst which i). apply in_map_iff. exists (i, r). auto.
Qed.
Definition none : nat -> bool := fun _ => false.
Lemma begin_owned c : okc c (mprog_of rs c) none none.
Proof.
  destruct c as [i c|which opts|which]; cbn [mprog_of].
  - destruct (nth_error rs i) as [r|] eqn:E.
    + assert (V : (i < length rs)%nat) by (apply nth_error_Some; congruence). cbn [okc]. split; [exact V|].
      destruct c as [n|opts| | | |]; cbn [prog_of].
      * cbn [okq]. intros o. apply ret_ok. cbn. auto.
      * apply aggregate_silent. intros a. apply ret_ok. cbn. auto.
      * apply bitmap_silent. intros a. apply ret_ok. cbn. auto.
      * cbn [okq]. apply ret_ok. cbn. auto.
      * cbn [okq]. apply ret_ok. cbn. auto.
      * cbn [okq covers okc]. split; [reflexivity|]. split; (split; [|split]).
        -- intros k _ <-. unfold add. rewrite Nat.eqb_refl. reflexivity.
        -- intros k _ <- _. unfold add. rewrite Nat.eqb_refl. reflexivity.
        -- intros _ A. destruct A. left. reflexivity.
        -- intros k _ <-. unfold add. rewrite Nat.eqb_refl. reflexivity.
        -- intros k _ <- [A|A]; discriminate.
        -- intros _ _. exists i. auto.
    + assert (V : ~ (i < length rs)%nat) by (intros V; apply nth_error_Some in V; congruence).
      cbn [okc]. split; [|split].
      * intros k Hk Hc. destruct c; cbn [covers] in Hc; try contradiction. subst. contradiction.
      * intros k Hk Hc. destruct c; cbn [covers] in Hc; try contradiction. subst. contradiction.
      * intros P. destruct c; cbn [proper_close] in P; contradiction.
  - apply multi_silent; [cbn; auto|]. apply Forall_rev. apply numbered_fully.
  - apply close_owned; [apply numbered_fully| | | |].
    + intros i Hi Hv. left. apply numbered_fst. auto.
    + intros i Hi Hv _. left. apply numbered_fst. auto.
    + intros i Hi. apply numbered_fst in Hi. tauto.
    + intros ND. split; [apply numbered_nodup; exact ND|]. split; [reflexivity|]. congruence.
Qed.

(** ** The invariant. *)
Definition is_open (i : nat) (w : world) : Prop := exists x, nth_error (w_cells w) i = Some x /\ c_open x = true.
Definition owner := nat -> option (nat * nat).
Definition mine (o : owner) (n k : nat) : nat -> bool :=
  fun i => match o i with Some (n', k') => Nat.eqb n n' && Nat.eqb k k' | None => false end.
Definition settled_call (o : owner) (w : world) (n k : nat) (c : mop) (a : manswer) : Prop :=
  (forall i, (i < length rs)%nat -> covers i c -> closed i w)
  /\ (forall i, (i < length rs)%nat -> covers i c -> succeeded a -> o i = Some (n, k))
  /\ (proper_close rs c -> ~ succeeded a -> exists i, (i < length rs)%nat /\ covers i c /\ exists x, o i = Some x /\ x <> (n, k)).
Definition thread_inv (o : owner) (w : world) (n : nat) (t : mthread) : Prop :=
  (forall k c a, nth_error (m_log t) k = Some (c, a) -> settled_call o w n k c a)
  /\ (forall i k, o i = Some (n, k) -> (k < length (map fst (m_log t) ++ mcurrent t))%nat /\ exists c, nth_error (mwhole t) k = Some c /\ covers i c)
  /\ (forall c p, m_now t = Some (c, p) -> exists gone, (forall i, gone i = true -> closed i w) /\ okc c p (mine o n (length (m_log t))) gone).
Definition inv (o : owner) (ts : list mthread) (w : world) : Prop :=
  length (w_cells w) = length rs
  /\ (forall i, (i < length rs)%nat -> (closed i w /\ o i <> None) \/ (is_open i w /\ o i = None))
  /\ (forall i x, o i = Some x -> (i < length rs)%nat /\ (fst x < length ts)%nat)
  /\ (forall n t, nth_error ts n = Some t -> thread_inv o w n t).

Lemma mine_spec o n k i : mine o n k i = true <-> o i = Some (n, k).
Proof.
  unfold mine. destruct (o i) as [[n' k']|]; [|split; discriminate]. rewrite andb_true_iff, !Nat.eqb_eq. split; [intros [-> ->]; reflexivity|intros [= -> ->]; auto].
Qed.
Lemma length_update {A} (l : list A) : forall n x, length (update n x l) = length l.
Proof. induction l as [|y l IH]; intros [|n] x; cbn [update length]; auto. Qed.

(** What changes for the other goroutines: readers get closed, open ones get an owner. *)
Definition later (o o' : owner) (w w' : world) : Prop :=
  (forall i, closed i w -> closed i w') /\ (forall i x, o i = Some x -> o' i = Some x).
Lemma settled_later o o' w w' n k c a : later o o' w w' -> settled_call o w n k c a -> settled_call o' w' n k c a.
Proof.
  intros [L1 L2] (S1 & S2 & S3). split; [auto|]. split; [auto|]. intros P A. destruct (S3 P A) as (i & V & C & x & X1 & X2). exists i. split; [exact V|]. split; [exact C|].
  exists x. auto.
Qed.
Lemma thread_later o o' w w' n m t : later o o' w w' -> n <> m -> (forall i k, o' i = Some (n, k) -> o i = Some (n, k)) ->
  thread_inv o w n t -> thread_inv o' w' n t.
Proof.
  intros L D E (T1 & T2 & T3). split; [intros k c a H; eapply settled_later; [exact L|apply T1; exact H]|].
  split; [intros i k H; apply T2; apply E; exact H|].
  intros c p H. destruct (T3 c p H) as (gone & G1 & G2). exists gone. split; [intros i Hi; apply L; apply G1; exact Hi|].
  eapply okc_ext; [|exact G2]. intros i. apply eq_true_iff_eq. rewrite !mine_spec. split; [apply L|apply E].
Qed.

Lemma closed_update i j s w h : (closed i w \/ (i = j /\ s_open s = false /\ (i < length (w_cells w))%nat)) -> (s_open s = true -> is_open j w) ->
  closed i (mkWorld (update j (cell_of s) (w_cells w)) h).
Proof.
  intros H S. unfold closed. cbn [w_cells]. rewrite nth_update. destruct (Nat.eqb_spec j i) as [->|N].
  - assert (exists x, nth_error (w_cells w) i = Some x) as [x X].
    { destruct H as [(x & X & _)|(_ & _ & V)]; [eauto|]. apply nth_error_Some in V. destruct (nth_error (w_cells w) i); [eauto|congruence]. }
    rewrite X. exists (cell_of s). split; [reflexivity|]. cbn [cell_of c_open]. destruct H as [(y & Y1 & Y2)|(_ & S' & _)]; [|exact S'].
    destruct (s_open s); [|reflexivity]. destruct (S eq_refl) as (z & Z1 & Z2). congruence.
  - destruct H as [H|(-> & _)]; [exact H|congruence].
Qed.
Lemma open_update i j s w h : is_open i w -> (i = j -> s_open s = true) -> is_open i (mkWorld (update j (cell_of s) (w_cells w)) h).
Proof.
  intros (x & X1 & X2) S. unfold is_open. cbn [w_cells]. rewrite nth_update. destruct (Nat.eqb_spec j i) as [->|N]; [|eauto].
  rewrite X1. exists (cell_of s). split; [reflexivity|apply S; reflexivity].
Qed.

(** One access. *)
Lemma access_owned o w n k c p gone :
  length (w_cells w) = length rs ->
  (forall i, (i < length rs)%nat -> (closed i w /\ o i <> None) \/ (is_open i w /\ o i = None)) ->
  (forall i, gone i = true -> closed i w) -> okc c p (mine o n k) gone -> (forall a, p <> MRet a) ->
  let '(p', w') := maccess p w in
  exists o' gone', length (w_cells w') = length rs
    /\ (forall i, (i < length rs)%nat -> (closed i w' /\ o' i <> None) \/ (is_open i w' /\ o' i = None))
    /\ (forall i, gone' i = true -> closed i w') /\ okc c p' (mine o' n k) gone'
    /\ later o o' w w' /\ (forall i x, o' i = Some x -> o i = Some x \/ (x = (n, k) /\ covers i c /\ (i < length rs)%nat)).
Proof.
  intros HL HO HG HP HN. destruct p as [a|j q kk|b kk]; [destruct (HN a eq_refl)| |].
  - cbn [okc] in HP. destruct HP as [V HP].
    assert (exists x, nth_error (w_cells w) j = Some x) as [x X].
    { rewrite <- HL in V. apply nth_error_Some in V. destruct (nth_error (w_cells w) j); [eauto|congruence]. }
    (* an access that leaves the file alone *)
    assert (Q : forall q' s, s_open s = c_open x -> okq c j (fun own gone a => okc c (kk a) own gone) q' (mine o n k) gone ->
      exists o' gone', length (w_cells (mkWorld (update j (cell_of s) (w_cells w)) (s_heap s))) = length rs
        /\ (forall i, (i < length rs)%nat -> (closed i (mkWorld (update j (cell_of s) (w_cells w)) (s_heap s)) /\ o' i <> None) \/ (is_open i (mkWorld (update j (cell_of s) (w_cells w)) (s_heap s)) /\ o' i = None))
        /\ (forall i, gone' i = true -> closed i (mkWorld (update j (cell_of s) (w_cells w)) (s_heap s))) /\ okc c (MCall j q' kk) (mine o' n k) gone'
        /\ later o o' w (mkWorld (update j (cell_of s) (w_cells w)) (s_heap s)) /\ (forall i x, o' i = Some x -> o i = Some x \/ (x = (n, k) /\ covers i c /\ (i < length rs)%nat))).
    { intros q' s Hs Hq. assert (S : s_open s = true -> is_open j w) by (intros E; exists x; split; [exact X|congruence]).
      assert (C : forall i, closed i w -> closed i (mkWorld (update j (cell_of s) (w_cells w)) (s_heap s))) by (intros i Hi; apply closed_update; auto).
      exists o, gone. split; [cbn [w_cells]; rewrite length_update; exact HL|]. split; [|split; [|split; [|split; [split|]]]]; auto.
      - intros i Hi. destruct (HO i Hi) as [[A B]|[A B]]; [left; auto|right]. split; [|exact B]. apply open_update; [exact A|]. intros ->.
        destruct A as (y & Y1 & Y2). congruence.
      - cbn [okc]. auto. }
    destruct q as [a|f|f|b q|f|b q|b f|f]; cbn [maccess okq] in *; try (rewrite X); cbn [access view_of s_open s_flag s_ptr s_heap];
      try (apply Q; [reflexivity|auto]; fail).
    + exists o, gone. split; [exact HL|]. split; [exact HO|]. split; [exact HG|]. split; [exact HP|]. split; [split; auto|auto].
    + destruct HP as (HC & HP1 & HP2). set (w' := mkWorld _ _).
      assert (C : forall i, closed i w \/ i = j -> closed i w').
      { intros i Hi. apply closed_update; [|discriminate]. destruct Hi as [Hi|Hi]; [auto|right]. subst. rewrite HL. auto. }
      destruct (c_open x) eqn:Ex.
      * assert (IO : is_open j w) by (exists x; auto).
        assert (ON : o j = None) by (destruct (HO j V) as [[(y & Y1 & Y2) _]|[_ B]]; [congruence|exact B]).
        exists (fun i => if Nat.eqb i j then Some (n, k) else o i), (add j gone). split; [unfold w'; cbn [w_cells]; rewrite length_update; exact HL|].
        split; [|split; [|split; [|split; [split|]]]].
        -- intros i Hi. destruct (Nat.eqb_spec i j) as [->|D]; [left; split; [apply C; auto|discriminate]|].
           destruct (HO i Hi) as [[A B]|[A B]]; [left; auto|right]. split; [apply open_update; [exact A|congruence]|exact B].
        -- intros i Hi. apply C. unfold add in Hi. destruct (Nat.eqb_spec i j); auto.
        -- cbn [okc]. split; [exact V|]. eapply okq_ext; [|  |exact HP1]; [intros ? ? ? ? E; apply okc_ext; exact E|].
           intros i. unfold add, mine. destruct (Nat.eqb_spec i j); [rewrite !Nat.eqb_refl; reflexivity|reflexivity].
        -- intros i Hi. apply C. auto.
        -- intros i y Hy. destruct (Nat.eqb_spec i j) as [->|]; [congruence|exact Hy].
        -- intros i y Hy. destruct (Nat.eqb_spec i j) as [->|]; [injection Hy as <-; auto|auto].
      * exists o, (add j gone). split; [unfold w'; cbn [w_cells]; rewrite length_update; exact HL|].
        split; [|split; [|split; [|split; [split|]]]]; auto.
        -- intros i Hi. destruct (HO i Hi) as [[A B]|[A B]]; [left; auto|right]. split; [|exact B]. apply open_update; [exact A|]. intros ->.
           destruct A as (y & Y1 & Y2). congruence.
        -- intros i Hi. apply C. unfold add in Hi. destruct (Nat.eqb_spec i j); auto.
        -- cbn [okc]. auto.
  - cbn [okc maccess] in *. destruct HP as [N HP]. destruct (nth_error (w_heap w) b) as [g|]; exists o, gone.
    + split; [exact HL|]. split; [exact HO|]. split; [exact HG|]. split; [apply HP|]. split; [split; auto|auto].
    + split; [exact HL|]. split; [exact HO|]. split; [exact HG|]. split; [apply ret_ok; exact N|]. split; [split; auto|auto].
Qed.

Lemma mstep_owned o ts w n t : inv o ts w -> nth_error ts n = Some t ->
  let '(t', w') := mstep rs t w in exists o', inv o' (update n t' ts) w'.
Proof.
  intros (I1 & I2 & I3 & I4) Hn. destruct (I4 n t Hn) as (T1 & T2 & T3).
  assert (Bn : (n < length ts)%nat) by (apply nth_error_Some; congruence).
  pose proof (mstep_whole rs t w) as W. destruct (mstep rs t w) as [t' w'] eqn:E. cbn [fst] in W.
  (* it is enough to look at goroutine [n] *)
  assert (G : forall o', length (w_cells w') = length rs ->
    (forall i, (i < length rs)%nat -> (closed i w' /\ o' i <> None) \/ (is_open i w' /\ o' i = None)) -> later o o' w w' ->
    (forall i x, o' i = Some x -> o i = Some x \/ (fst x = n /\ (i < length rs)%nat)) -> thread_inv o' w' n t' -> inv o' (update n t' ts) w').
  { intros o' G1 G2 G3 G4 G5. split; [exact G1|]. split; [exact G2|]. split.
    - intros i x Hx. rewrite length_update. destruct (G4 i x Hx) as [H|[<- V]]; [apply I3; exact H|auto].
    - intros m u Hu. rewrite nth_update in Hu. destruct (Nat.eqb_spec n m) as [<-|D]; [rewrite Hn in Hu; injection Hu as <-; exact G5|].
      eapply thread_later; [exact G3|exact (not_eq_sym D)| |apply I4; exact Hu]. intros i k Hk. destruct (G4 i _ Hk) as [H|[H _]]; [exact H|cbn in H; congruence]. }
  unfold mstep in E. destruct (m_now t) as [[c p]|] eqn:Em.
  - destruct (T3 c p eq_refl) as (gone & G1 & G2).
    assert (ST : (forall a, p <> MRet a) -> (let '(p', w') := maccess p w in (mkMThread (m_todo t) (Some (c, p')) (m_log t), w')) = (t', w') ->
      exists o', inv o' (update n t' ts) w').
    { intros NR ES. pose proof (access_owned o w n (length (m_log t)) c p gone I1 I2 G1 G2 NR) as A. destruct (maccess p w) as [p' w1]. injection ES as <- <-.
      destruct A as (o' & gone' & A1 & A2 & A3 & A4 & A5 & A6). exists o'. apply G; auto.
      - intros i x Hx. destruct (A6 i x Hx) as [H|(-> & _ & V)]; auto.
      - split; [cbn [m_log]; intros k c' a H; eapply settled_later; [exact A5|apply T1; exact H]|]. split.
        + intros i k Hk. rewrite W. cbn [m_log mcurrent m_now]. destruct (A6 i _ Hk) as [H|(H & HC & _)].
          * destruct (T2 i k H) as [X Y]. split; [|exact Y]. unfold mcurrent in X. rewrite Em in X. exact X.
          * injection H as ->. split; [rewrite app_length, map_length; cbn; lia|]. exists c. split; [|exact HC].
            unfold mwhole, mcurrent. rewrite Em. rewrite nth_error_app2; rewrite map_length; [|lia]. rewrite Nat.sub_diag. reflexivity.
        + cbn [m_now m_log]. intros c' p2 H. injection H as <- <-. exists gone'. auto. }
    destruct p as [a|j q kk|b kk]; [|apply ST; [discriminate|exact E]|apply ST; [discriminate|exact E]].
    injection E as <- <-. exists o. apply G; auto; [split; auto|].
    cbn [okc] in G2. destruct G2 as (F1 & F2 & F3). split; [|split].
    + cbn [m_log]. intros k c' a' H. destruct (Nat.eq_dec k (length (m_log t))) as [->|D].
      * rewrite nth_error_app2, Nat.sub_diag in H by lia. cbn in H. injection H as <- <-. split; [auto|]. split.
        -- intros i V HC A. apply mine_spec. apply F2; assumption.
        -- intros P A. destruct (F3 P A) as (i & V & HC & Ho). exists i. split; [exact V|]. split; [exact HC|].
           specialize (F1 i V HC). apply G1 in F1. destruct (I2 i V) as [[_ B]|[(y & Y1 & Y2) _]]; [|destruct F1 as (z & Z1 & Z2); congruence].
           destruct (o i) as [x|] eqn:Eo; [|congruence]. exists x. split; [reflexivity|]. intros ->. apply mine_spec in Eo. congruence.
      * rewrite nth_error_app1 in H; [apply T1; exact H|]. assert (k < length (m_log t ++ [(c, a)]))%nat by (apply nth_error_Some; congruence).
        rewrite app_length in *. cbn in *. lia.
    + intros i k Hk. rewrite W. destruct (T2 i k Hk) as [X Y]. split; [|exact Y]. unfold mcurrent in X. rewrite Em in X.
      cbn [m_log mcurrent m_now]. rewrite map_app, app_nil_r. exact X.
    + cbn [m_now]. discriminate.
  - destruct (m_todo t) as [|c todo] eqn:Et.
    + injection E as <- <-. exists o. apply G; auto. split; auto.
    + injection E as <- <-. exists o. apply G; auto; [split; auto|]. split; [exact T1|]. split.
      * intros i k Hk. rewrite W. destruct (T2 i k Hk) as [X Y]. split; [|exact Y]. unfold mcurrent in *. rewrite Em in X. cbn [m_log m_now].
        rewrite app_length in *. cbn [length] in *. lia.
      * cbn [m_now m_log]. intros c' p H. injection H as <- <-. exists none. split; [discriminate|].
        eapply okc_ext; [|apply begin_owned]. intros i. symmetry. destruct (mine o n (length (m_log t)) i) eqn:M; [|reflexivity].
        apply mine_spec in M. destruct (T2 i _ M) as [X _]. unfold mcurrent in X. rewrite Em, app_nil_r, map_length in X. lia.
Qed.

Lemma minterleave_owned sched : forall o ts w, inv o ts w -> let '(ts', w') := minterleave rs sched ts w in exists o', inv o' ts' w'.
Proof.
  induction sched as [|n sched IH]; intros o ts w I; cbn [minterleave]; [eauto|]. destruct (nth_error ts n) as [t|] eqn:E; [|eapply IH; exact I].
  pose proof (mstep_owned o ts w n t I E) as S. destruct (mstep rs t w) as [t' w']. destruct S as [o' S]. eapply IH. exact S.
Qed.
Lemma start_owned programs : Forall (fun r => r_open r = true) rs -> inv (fun _ => None) (mstart programs) (world_of rs).
Proof.
  intros F. split; [cbn; apply map_length|]. split.
  - intros i Hi. right. split; [|reflexivity]. destruct (nth_error rs i) as [r|] eqn:E; [|apply nth_error_None in E; lia].
    unfold is_open, world_of. cbn [w_cells]. erewrite map_nth_error by exact E. eexists. split; [reflexivity|]. cbn. rewrite Forall_forall in F. apply F. eapply nth_error_In. exact E.
  - split; [discriminate|]. intros n t Ht. unfold mstart in Ht. destruct (nth_error programs n) as [p|] eqn:E.
    + erewrite map_nth_error in Ht by exact E. injection Ht as <-. split; [intros [|k]; discriminate|]. split; discriminate.
    + exfalso. assert (n < length (map (fun p => mkMThread p None []) programs))%nat by (apply nth_error_Some; congruence). rewrite map_length in *.
      apply nth_error_None in E. lia.
Qed.
Theorem owned programs sched ts w : Forall (fun r => r_open r = true) rs -> all_together rs programs sched = (ts, w) -> exists o, inv o ts w.
Proof.
  intros F H. pose proof (minterleave_owned sched _ _ _ (start_owned programs F)) as I. unfold all_together in H. rewrite H in I. exact I.
Qed.

Theorem one_close_wins programs sched ts w : Forall (fun r => r_open r = true) rs -> all_together rs programs sched = (ts, w) ->
  forall i, (i < length rs)%nat -> forall n1 k1 c1 a1 n2 k2 c2 a2,
  call_of ts n1 k1 c1 a1 -> covers i c1 -> succeeded a1 -> call_of ts n2 k2 c2 a2 -> covers i c2 -> succeeded a2 -> n1 = n2 /\ k1 = k2.
Proof.
  intros F H i V n1 k1 c1 a1 n2 k2 c2 a2 (t1 & X1 & X2) C1 S1 (t2 & Y1 & Y2) C2 S2. destruct (owned _ _ _ _ F H) as (o & _ & _ & _ & I).
  destruct (I _ _ X1) as (T1 & _). destruct (I _ _ Y1) as (T2 & _). destruct (T1 _ _ _ X2) as (_ & A & _). destruct (T2 _ _ _ Y2) as (_ & B & _).
  specialize (A i V C1 S1). specialize (B i V C2 S2). rewrite A in B. injection B. auto.
Qed.
Theorem error_is_a_lost_race programs sched ts w : Forall (fun r => r_open r = true) rs -> all_together rs programs sched = (ts, w) ->
  forall n k c a, call_of ts n k c a -> proper_close rs c -> ~ succeeded a ->
  exists i n' k' p' c', covers i c /\ nth_error programs n' = Some p' /\ nth_error p' k' = Some c' /\ covers i c' /\ (n', k') <> (n, k).
Proof.
  intros F H n k c a (t & X1 & X2) P A. destruct (owned _ _ _ _ F H) as (o & _ & _ & I3 & I). destruct (I _ _ X1) as (T & _).
  destruct (T _ _ _ X2) as (_ & _ & B). destruct (B P A) as (i & V & C & [n' k'] & O & D). destruct (I3 _ _ O) as [_ L]. cbn [fst] in L.
  apply nth_error_Some in L. destruct (nth_error ts n') as [t'|] eqn:E'; [|congruence]. destruct (I _ _ E') as (_ & T2 & _). destruct (T2 _ _ O) as (_ & c' & W & C').
  assert (exists p', nth_error programs n' = Some p') as [p' Hp].
  { destruct (nth_error programs n') as [p|] eqn:E; [eauto|]. exfalso. apply nth_error_None in E.
    assert (LL : length ts = length programs).
    { clear - H. unfold all_together in H. assert (G : forall sched ts0 w0, length (fst (minterleave rs sched ts0 w0)) = length ts0).
      { induction sched0 as [|m s IH]; intros ts0 w0; cbn [minterleave]; [reflexivity|]. destruct (nth_error ts0 m); [|apply IH].
        destruct (mstep rs m0 w0). rewrite IH. apply length_update. }
      specialize (G sched (mstart programs) (world_of rs)). rewrite H in G. cbn [fst] in G. rewrite G. unfold mstart. apply map_length. }
    assert (n' < length ts)%nat by (apply nth_error_Some; congruence). lia. }
  exists i, n', k', p', c'. split; [exact C|]. split; [exact Hp|]. split; [|auto].
  destruct (minterleave_nth rs sched n' (mstart programs) (world_of rs) (mkMThread p' None [])) as (t2 & Z1 & Z2).
  { unfold mstart. erewrite map_nth_error by exact Hp. reflexivity. }
  unfold all_together in H. rewrite H in Z1. cbn [fst] in Z1. rewrite E' in Z1. injection Z1 as <-. rewrite Z2 in W. exact W.
Qed.

(** ** After Close. *)
Section After.
Variable i : nat.
Definition refused (c : mop) (a : manswer) : Prop :=
  (covers i c -> ~ succeeded a) /\ (forall m, c = OnReader i (OGetPairs m) -> forall p, a <> OneAnswer (APairs (Ok p))).
Fixpoint endq (j : nat) (K : answer -> Prop) (q : prog) {struct q} : Prop :=
  match q with
  | Ret a => K a
  | DoRead k => forall o, (j = i -> o = false) -> endq j K (k o)
  | GetFlag k => forall o, endq j K (k o)
  | SetFlag _ p => endq j K p
  | GetPtr k => forall o, endq j K (k o)
  | SetPtr _ p => endq j K p
  | NewBitmap _ k => forall o, endq j K (k o)
  | DoClose k => forall o, (j = i -> o = false) -> endq j K (k o)
  end.
Fixpoint endm (c : mop) (p : mprog) {struct p} : Prop :=
  match p with
  | MRet a => refused c a
  | MCall j q k => endq j (fun a => endm c (k a)) q
  | MRead _ k => forall b, endm c (k b)
  end.
Lemma endq_any j (K : answer -> Prop) : (forall a, K a) -> forall q, endq j K q.
Proof. intros H q. induction q; cbn [endq]; auto. Qed.
Lemma endm_any c : (forall a, refused c a) -> forall p, endm c p.
Proof. intros H p. induction p as [a|j q k IH|b k IH]; cbn [endm]; auto. apply endq_any. auto. Qed.
Lemma closed_pairs r m p : GetPairs (at_open r false) m <> Ok p.
Proof.
  unfold GetPairs. intros H. destruct (block_closed r (i64 m)) as [[e E]|[E _]]; congruence.
Qed.
Lemma close_refused which : forall order e, (In i (map fst order) \/ e <> None) -> endm (MCloseAll which) (close_prog order e).
Proof.
  induction order as [|[j r] order IH]; intros e H; cbn [close_prog].
  - destruct H as [[]|H]. cbn [endm]. split; [intros _ [A|A]; [discriminate|injection A as ->; congruence]|discriminate].
  - cbn [endm prog_of endq]. intros o Ho. apply IH. destruct H as [[H|H]|H].
    + cbn [fst] in H. rewrite (Ho H). right. discriminate.
    + left. exact H.
    + right. destruct o; [exact H|discriminate].
Qed.
Lemma begin_refused c : (i < length rs)%nat -> endm c (mprog_of rs c).
Proof.
  intros V. destruct c as [j c|which opts|which].
  - cbn [mprog_of]. destruct (nth_error rs j) as [r|] eqn:E.
    + destruct c as [m|opts| | | |]; try solve [apply endm_any; intros a; split; [intros []|discriminate]].
      * cbn [endm prog_of endq]. intros o Ho. split; [intros []|]. intros m' [= -> <-] p. rewrite (Ho eq_refl). intros [= A]. exact (closed_pairs _ _ _ A).
      * cbn [endm prog_of endq]. intros o Ho. split; [|discriminate]. cbn [covers]. intros C. rewrite (Ho C). intros [A|A]; discriminate.
    + cbn [endm]. split; [intros _ [A|A]; discriminate|discriminate].
  - apply endm_any. intros a. split; [intros []|discriminate].
  - cbn [mprog_of]. destruct (in_dec Nat.eq_dec i which) as [Y|N].
    + apply close_refused. left. apply numbered_fst. auto.
    + apply endm_any. intros a. split; [intros C; destruct (N C)|discriminate].
Qed.
Lemma access_closed c p w : closed i w -> endm c p -> let '(p', w') := maccess p w in closed i w' /\ endm c p'.
Proof.
  intros C H. assert (PA : refused c (MResult Panic)) by (split; [intros _ [A|A]; discriminate|discriminate]).
  destruct p as [a|j q k|b k]; cbn [maccess]; [auto| |].
  - cbn [endm] in H.
    assert (Q : forall q0 x s q', nth_error (w_cells w) j = Some x -> access q0 (view_of x (w_heap w)) = (q', s) -> endq j (fun a => endm c (k a)) q0 ->
      closed i (mkWorld (update j (cell_of s) (w_cells w)) (s_heap s)) /\ endm c (MCall j q' k)).
    { intros q0 x s q' X A HQ. assert (J : j = i -> c_open x = false) by (intros ->; destruct C as (y & Y1 & Y2); congruence). split.
      - assert (SO : s_open s = true -> c_open x = true).
        { destruct q0; cbn [access view_of s_open alloc] in A; injection A as <- <-; cbn [s_open]; try discriminate; auto. }
        apply closed_update; [left; exact C|]. intros S. exists x. auto.
      - cbn [endm]. destruct q0; cbn [access view_of s_open s_flag s_ptr s_heap alloc endq] in *; injection A as <- <-; auto. }
    destruct q as [a|f|f|b q|f|b q|b f|f]; try (exact (conj C H));
      (destruct (nth_error (w_cells w) j) as [x|] eqn:X; [|exact (conj C PA)]);
      match goal with |- context [access ?q0 ?v] => destruct (access q0 v) as [q' s] eqn:A; exact (Q q0 x s q' eq_refl A H) end.
  - cbn [endm] in H. destruct (nth_error (w_heap w) b) as [g|]; [split; [exact C|apply H]|exact (conj C PA)].
Qed.
Definition after (l : list (mop * manswer)) (t : mthread) : Prop :=
  (exists l2, m_log t = l ++ l2 /\ Forall (fun x => refused (fst x) (snd x)) l2) /\ (forall c p, m_now t = Some (c, p) -> endm c p).
Lemma mstep_after l t w : (i < length rs)%nat -> closed i w -> after l t -> let '(t', w') := mstep rs t w in closed i w' /\ after l t'.
Proof.
  intros V C ((l2 & E & F) & N). unfold mstep. destruct (m_now t) as [[c p]|] eqn:Em.
  - specialize (N c p eq_refl).
    assert (ST : let '(t', w') := (let '(p', w') := maccess p w in (mkMThread (m_todo t) (Some (c, p')) (m_log t), w')) in closed i w' /\ after l t').
    { pose proof (access_closed c p w C N) as A. destruct (maccess p w) as [p' w']. destruct A as [A1 A2]. split; [exact A1|]. split; [exists l2; auto|].
      cbn [m_now]. intros c' p2 H. injection H as <- <-. exact A2. }
    destruct p as [a|j q k|b k]; [|exact ST|exact ST]. split; [exact C|]. split; [|discriminate]. exists (l2 ++ [(c, a)]). cbn [m_log]. rewrite E, app_assoc.
    split; [reflexivity|]. apply Forall_app. split; [exact F|]. constructor; [exact N|constructor].
  - destruct (m_todo t) as [|c todo]; split; try exact C.
    + split; [exists l2; auto|]. intros c p H. congruence.
    + split; [exists l2; auto|]. cbn [m_now]. intros c' p H. injection H as <- <-. apply begin_refused. exact V.
Qed.
Lemma mstep_closed t w : (i < length rs)%nat -> closed i w -> closed i (snd (mstep rs t w)).
Proof.
  intros V C. unfold mstep. destruct (m_now t) as [[c p]|]; [|destruct (m_todo t); exact C].
  assert (ST : closed i (snd (let '(p', w') := maccess p w in (mkMThread (m_todo t) (Some (c, p')) (m_log t), w')))).
  { assert (N : endm (OnReader 0 OEnable) p) by (apply endm_any; intros a; split; [intros []|discriminate]).
    pose proof (access_closed _ p w C N) as A. destruct (maccess p w). apply A. }
  destruct p; [exact C|exact ST|exact ST].
Qed.
Lemma interleave_after sched n l : (i < length rs)%nat -> forall ts w t, closed i w -> nth_error ts n = Some t -> after l t ->
  exists t', nth_error (fst (minterleave rs sched ts w)) n = Some t' /\ after l t'.
Proof.
  intros V. induction sched as [|m sched IH]; intros ts w t C E A; cbn [minterleave]; [eauto|]. destruct (nth_error ts m) as [u|] eqn:Em; [|apply (IH ts w t); assumption].
  destruct (Nat.eqb_spec m n) as [->|D].
  - rewrite E in Em. injection Em as <-. pose proof (mstep_after l t w V C A) as S. destruct (mstep rs t w) as [t' w']. destruct S as [S1 S2].
    apply (IH _ _ t'); [exact S1|rewrite nth_update, Nat.eqb_refl, E; reflexivity|exact S2].
  - pose proof (mstep_closed u w V C) as S. destruct (mstep rs u w) as [u' w']. cbn [snd] in S. apply (IH _ _ t); [exact S| |exact A].
    rewrite nth_update. destruct (Nat.eqb_spec m n); [contradiction|exact E].
Qed.
End After.

Lemma minterleave_app s1 : forall s2 ts w, minterleave rs (s1 ++ s2) ts w = let '(ts', w') := minterleave rs s1 ts w in minterleave rs s2 ts' w'.
Proof.
  induction s1 as [|n s1 IH]; intros s2 ts w; cbn [app minterleave]; [reflexivity|]. destruct (nth_error ts n); [|apply IH]. destruct (mstep rs _ w). apply IH.
Qed.
Theorem closed_for_good programs s1 s2 ts1 w1 ts2 w2 : Forall (fun r => r_open r = true) rs ->
  all_together rs programs s1 = (ts1, w1) -> all_together rs programs (s1 ++ s2) = (ts2, w2) ->
  forall i, (i < length rs)%nat -> forall n k c a, call_of ts1 n k c a -> covers i c ->
  forall n2 t1, nth_error ts1 n2 = Some t1 -> m_now t1 = None ->
  forall k2 c2 a2, call_of ts2 n2 k2 c2 a2 -> (length (m_log t1) <= k2)%nat -> refused i c2 a2.
Proof.
  intros F H1 H2 i V n k c a (t & X1 & X2) C n2 t1 Y1 Y2 k2 c2 a2 (t2 & Z1 & Z2) L.
  destruct (owned _ _ _ _ F H1) as (o & _ & _ & _ & I). destruct (I _ _ X1) as (T & _). destruct (T _ _ _ X2) as (CL & _). specialize (CL i V C).
  unfold all_together in *. rewrite minterleave_app, H1 in H2.
  destruct (interleave_after i s2 n2 (m_log t1) V ts1 w1 t1 CL Y1) as (t' & W1 & (l2 & W2 & W3) & _).
  { split; [exists []; rewrite app_nil_r; auto|]. intros c' p' E. congruence. }
  rewrite H2 in W1. cbn [fst] in W1. rewrite Z1 in W1. injection W1 as <-. rewrite W2, nth_error_app2 in Z2 by exact L.
  rewrite Forall_forall in W3. exact (W3 _ (nth_error_In _ _ Z2)).
Qed.
End Closing.
