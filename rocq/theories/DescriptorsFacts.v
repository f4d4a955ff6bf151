(** Descriptors: the table holds exactly what is open. *)
From Coq Require Import Lia Setoid.
From Verif Require Import Machine MachineFacts Encoding Sroar SroarFacts FileIO Writer Reader Aggregate Parallel Multi ReadFault ReadFaultFacts ArbFacts
  RunFacts PanicFacts StuckFacts Descriptors DescriptorsSpec.
Local Open Scope list_scope.
Local Open Scope nat_scope.

Section Facts.
Context {Srr : Sroar}.

Definition live (h : handle) : bool := match h with NoHandle => false | ReaderHandle r => r_open r | WriterHandle w => f_open (w_file w) end.
Definition lv (p : process) (d : nat) : bool := match nth_error (p_handles p) d with Some h => live h | None => false end.
Definition kindH (h : handle) : nat := match h with NoHandle => 0 | ReaderHandle _ => 1 | WriterHandle _ => 2 end.
Definition kd (p : process) (d : nat) : nat := match nth_error (p_handles p) d with Some h => kindH h | None => 0 end.
Definition kindC (c : pcall) : nat := match c with POpen _ _ _ _ => 1 | _ => 2 end.
Definition matching (p : process) : Prop := forall d, In d (p_table p) <-> lv p d = true.

Lemma in_release d x t : In x (release d t) <-> In x t /\ x <> d.
Proof. unfold release. rewrite filter_In. destruct (Nat.eqb_spec x d); cbn; split; intros [H1 H2]; split; auto; congruence. Qed.
Lemma put_length i h : forall hs, length (put_handle i h hs) = length hs.
Proof. induction i as [|i IH]; intros [|x hs]; cbn; auto. Qed.
Lemma put_nth i h : forall hs d, nth_error (put_handle i h hs) d = if Nat.eqb d i then match nth_error hs d with Some _ => Some h | None => None end else nth_error hs d.
Proof. induction i as [|i IH]; intros [|x hs] [|d]; cbn; auto. destruct (Nat.eqb d i); reflexivity. Qed.

(** What a call that opens nothing may do. *)
Record calm (p p' : process) (gone may : nat -> nat -> Prop) : Prop := {
  c_length : length (p_handles p') = length (p_handles p);
  c_kind : forall d, kd p' d = kd p d;
  c_back : forall d, lv p' d = true -> lv p d = true;
  c_gone : forall d, gone (kd p d) d -> lv p' d = false;
  c_kept : forall d, lv p d = true -> ~ may (kd p d) d -> lv p' d = true;
  c_match : matching p -> matching p'
}.
Lemma calm_refl p (may : nat -> nat -> Prop) : calm p p (fun _ _ => False) may.
Proof. split; auto. intros d []. Qed.
Lemma calm_weaken p p' (g1 g2 m1 m2 : nat -> nat -> Prop) : calm p p' g1 m1 -> (forall d, g2 (kd p d) d -> g1 (kd p d) d) -> (forall d, m1 (kd p d) d -> m2 (kd p d) d) -> calm p p' g2 m2.
Proof. intros [] G M. split; auto. Qed.
Lemma calm_trans p p1 p2 (g1 g2 m1 m2 : nat -> nat -> Prop) : calm p p1 g1 m1 -> calm p1 p2 g2 m2 -> calm p p2 (fun k d => g1 k d \/ g2 k d) (fun k d => m1 k d \/ m2 k d).
Proof.
  intros [A1 A2 A3 A4 A5 A6] [B1 B2 B3 B4 B5 B6]. split; try congruence; auto; try (intros d; rewrite B2; auto).
  - intros d [G|G]; [|apply B4; rewrite A2; exact G]. destruct (lv p2 d) eqn:E; [|reflexivity]. apply B3 in E. rewrite (A4 _ G) in E. discriminate.
  - intros d L N. apply B5; [apply A5; tauto|rewrite A2; tauto].
Qed.

(** A call on handle [i] that replaces it. *)
Lemma calm_put p i h h' table' (gone may : nat -> nat -> Prop) :
  nth_error (p_handles p) i = Some h -> kindH h' = kindH h -> (live h' = true -> live h = true) ->
  table' = (if live h && negb (live h') then release i (p_table p) else p_table p) ->
  (forall d, gone (kd p d) d -> d = i /\ live h' = false) -> (live h = true -> ~ may (kindH h) i -> live h' = true) ->
  calm p (mkProcess (put_handle i h' (p_handles p)) table') gone may.
Proof.
  intros Hi Hk Hb -> Hg Hm.
  assert (L : forall d, lv (mkProcess (put_handle i h' (p_handles p)) (if live h && negb (live h') then release i (p_table p) else p_table p)) d
                        = if Nat.eqb d i then live h' else lv p d).
  { intros d. unfold lv. cbn [p_handles]. rewrite put_nth. destruct (Nat.eqb_spec d i) as [->|]; [rewrite Hi|]; reflexivity. }
  assert (Li : lv p i = live h) by (unfold lv; rewrite Hi; reflexivity).
  split.
  - apply put_length.
  - intros d. unfold kd. cbn [p_handles]. rewrite put_nth. destruct (Nat.eqb_spec d i) as [->|]; [rewrite Hi; exact Hk|reflexivity].
  - intros d. rewrite L. destruct (Nat.eqb_spec d i) as [->|]; [rewrite Li; exact Hb|auto].
  - intros d G. destruct (Hg _ G) as [-> G']. rewrite L, Nat.eqb_refl. exact G'.
  - intros d Hd N. rewrite L. destruct (Nat.eqb_spec d i) as [->|]; [|exact Hd]. apply Hm; [rewrite <- Li; exact Hd|].
    unfold kd in N. rewrite Hi in N. exact N.
  - intros M d. rewrite L. cbn [p_table]. destruct (live h) eqn:E1; cbn [andb].
    + destruct (live h') eqn:E2; cbn [negb].
      * rewrite (M d). destruct (Nat.eqb_spec d i) as [->|]; [rewrite Li|]; tauto.
      * rewrite in_release, (M d). destruct (Nat.eqb_spec d i) as [->|]; [split; [intros [_ []]; reflexivity|discriminate]|tauto].
    + rewrite (M d). destruct (Nat.eqb_spec d i) as [->|]; [|tauto]. rewrite Li. destruct (live h') eqn:E2; [specialize (Hb eq_refl); discriminate|tauto].
Qed.

Lemma close_calm i p e p' : closeFD i p = (e, p') -> calm p p' (fun k d => k = 1 /\ d = i) (fun k d => k = 1 /\ d = i).
Proof.
  unfold closeFD. destruct (nth_error (p_handles p) i) as [[|r|w]|] eqn:E; intros H.
  2: injection H as <- <-; eapply calm_put; [exact E|reflexivity|discriminate|cbn [live r_open]; destruct (r_open r); reflexivity|intros d [_ ->]; auto|intros _ N; exfalso; apply N; auto].
  all: injection H as <- <-; (eapply calm_weaken; [apply (calm_refl p (fun _ _ => False))|intros d [K ->]; unfold kd in K; rewrite E in K; discriminate K|intros d []]).
Qed.
Lemma closeAll_calm which : forall e p e' p', closeAllFD which e p = (e', p') -> calm p p' (fun k d => k = 1 /\ In d which) (fun k d => k = 1 /\ In d which).
Proof.
  induction which as [|i which IH]; intros e p e' p' H; cbn [closeAllFD] in H.
  - injection H as _ <-. eapply calm_weaken; [apply (calm_refl p (fun _ _ => False))|intros d [_ []]|intros d []].
  - destruct (closeFD i p) as [x p1] eqn:E. eapply calm_weaken; [eapply calm_trans; [exact (close_calm _ _ _ _ E)|exact (IH _ _ _ _ H)]|..]; cbv beta; cbn [In]; intros d; intuition auto.
Qed.

Definition wgone (c : wcall) (a : res Z) : Prop := c = CClose \/ exists now, c = CFinalizeAndClose now /\ a = Ok 0%Z.
Definition wmay (c : wcall) (a : res Z) : Prop := wgone c a \/ exists now, c = CFinalizeAndClose now /\ a = Err ErrIO.
Lemma call_open c w a w' : run_call c w = (a, w') ->
  (f_open (w_file w') = true -> f_open (w_file w) = true) /\ (wgone c a -> f_open (w_file w') = false) /\ (f_open (w_file w) = true -> ~ wmay c a -> f_open (w_file w') = true).
Proof.
  intros H.
  assert (ST : forall m : M Z, steady m -> run_call c = m -> (c <> CClose /\ forall now, c <> CFinalizeAndClose now) -> (f_open (w_file w') = true -> f_open (w_file w) = true) /\ (wgone c a -> f_open (w_file w') = false) /\ (f_open (w_file w) = true -> ~ wmay c a -> f_open (w_file w') = true)).
  { intros m S E (N1 & N2). destruct (S w) as [O _]. rewrite <- E, H in O. cbn [snd] in O. unfold is_open in O. rewrite O. split; [auto|]. split; [|auto].
    intros [->|(now & -> & _)]; [congruence|]. exfalso. eapply N2. reflexivity. }
  destruct c as [ids vals|ids vals|now|now|].
  - eapply ST; [|reflexivity|split; discriminate]. apply steady_bind; [apply steady_writeBlock|intros; apply steady_ret].
  - eapply ST; [|reflexivity|split; discriminate]. apply steady_estimate.
  - eapply ST; [|reflexivity|split; discriminate]. apply steady_bind; [apply steady_finalize|intros; apply steady_ret].
  - clear ST. cbn [run_call] in H. unfold mbind at 1 in H. destruct (FinalizeAndClose now w) as [r w1] eqn:F.
    assert (W : w1 = w' /\ (a = Ok 0%Z <-> r = Ok tt) /\ (a = Err ErrIO <-> r = Err ErrIO)).
    { destruct r as [[]|e|]; unfold mret in H; injection H as <- <-; (split; [reflexivity|]); split; split; congruence. }
    destruct W as (-> & Wa & We). destruct (f_open (w_file w)) eqn:O.
    + destruct (finalize_and_close now w r w' O F) as [A B]. split; [auto|]. split.
      * intros [X|(n & _ & X)]; [discriminate X|]. apply Wa in X. exact (A X).
      * intros _ N. destruct (f_open (w_file w')) eqn:O'; [reflexivity|]. destruct (B O') as [[X|X] _].
        { exfalso. apply N. left. right. exists now. split; [reflexivity|]. apply Wa. exact X. }
        { exfalso. apply N. right. exists now. split; [reflexivity|]. apply We. exact X. }
    + assert (O' : f_open (w_file w') = false).
      { unfold FinalizeAndClose, mbind in F. destruct (steady_finalize now w) as [S _]. unfold is_open in S. destruct (Finalize now w) as [[u|e|] w1]; cbn [snd] in S.
        - pose proof (close_releases w1) as R. change (Close w1) with (closeFile w1) in R. rewrite F in R. exact R.
        - injection F as _ <-. congruence.
        - injection F as _ <-. congruence. }
      rewrite O'. split; [discriminate|]. split; [auto|discriminate].
  - clear ST. cbn [run_call] in H. unfold mbind in H. pose proof (close_releases w) as R. unfold is_open in R. destruct (Close w) as [r w1].
    assert (W : w1 = w') by (destruct r; unfold mret in H; congruence). subst w1. cbn [snd] in R. rewrite R. split; [discriminate|]. split; [auto|].
    intros _ N. exfalso. apply N. left. left. reflexivity.
Qed.
Lemma writer_calm i c p a p' : writerFD i c p = (a, p') -> calm p p' (fun k d => k = 2 /\ d = i /\ wgone c a) (fun k d => k = 2 /\ d = i /\ wmay c a).
Proof.
  unfold writerFD. destruct (nth_error (p_handles p) i) as [[|r|w]|] eqn:E; intros H.
  3:{ destruct (run_call c w) as [x w'] eqn:R. injection H as <- <-. destruct (call_open c w x w' R) as (A & B & C).
      eapply calm_put; [exact E|reflexivity|exact A|reflexivity|intros d (_ & -> & G); auto|]. intros O N. apply C; [exact O|]. intros M. apply N. auto. }
  all: injection H as <- <-; (eapply calm_weaken; [apply (calm_refl p (fun _ _ => False))|intros d (K & -> & _); unfold kd in K; rewrite E in K; discriminate K|intros d []]).
Qed.

(** Any call that opens nothing. *)
Lemma other_calm c p a p' : is_opening c = false -> pstep c p = (a, p') ->
  calm p p' (fun k d => exists o, k = kindC o /\ is_opening o = true /\ closes o d (c, a)) (fun k d => exists o, k = kindC o /\ is_opening o = true /\ may_close o d (c, a)).
Proof.
  intros N H. destruct c as [| |i|which|i c]; try discriminate N; cbn [pstep] in H.
  - destruct (closeFD i p) as [e p1] eqn:E. injection H as _ <-. eapply calm_weaken; [exact (close_calm _ _ _ _ E)|..]; cbv beta.
    + intros d ([| | | |] & K & O & C); try discriminate O; cbn [closes kindC fst] in *; [|destruct C as [C|(? & C)]; discriminate C].
      destruct C as [C|(w & C & _)]; [|discriminate C]. injection C as ->. auto.
    + intros d [-> ->]. exists (POpen true true (fun _ _ => true) []). repeat split. left. left. reflexivity.
  - destruct (closeAllFD which None p) as [e p1] eqn:E. injection H as _ <-. eapply calm_weaken; [exact (closeAll_calm _ _ _ _ _ E)|..]; cbv beta.
    + intros d ([| | | |] & K & O & C); try discriminate O; cbn [closes kindC fst] in *; [|destruct C as [C|(? & C)]; discriminate C].
      destruct C as [C|(w & C & I)]; [discriminate C|]. injection C as ->. auto.
    + intros d [-> I]. exists (POpen true true (fun _ _ => true) []). repeat split. left. right. exists which. auto.
  - eapply calm_weaken; [exact (writer_calm _ _ _ _ _ H)|..]; cbv beta.
    + intros d ([| | | |] & K & O & C); try discriminate O; cbn [closes kindC fst] in *; [destruct C as [C|(? & C & _)]; discriminate C|].
      destruct C as [C|(t0 & C)]; [injection C as -> ->|injection C as -> -> ->]; (split; [exact K|]); split; try reflexivity; [left; reflexivity|]. right. exists t0. auto.
    + intros d (-> & -> & M). exists (PCreate true 0 [] []). repeat split. destruct M as [[->|(now & -> & ->)]|(now & -> & ->)].
      * left. left. reflexivity.
      * left. right. exists now. reflexivity.
      * right. exists now. reflexivity.
Qed.

(** A call that opens. *)
Lemma openFD_cases openOK statOK io data d t r t' : Forall is_byte data -> openFD openOK statOK io data d t = (r, t') ->
  (exists x, r = Ok x /\ r_open x = true /\ t' = d :: t) \/ (exists e, r = Err e /\ forall x, In x t' <-> In x t /\ (x = d -> openOK = false)).
Proof.
  intros HB. unfold openFD. destruct openOK; cbn [negb]; [|intros [= <- <-]; right; exists ErrIO; split; [reflexivity|]; tauto].
  assert (R : forall x, In x (release d (d :: t)) <-> In x t /\ (x = d -> true = false)).
  { intros x. rewrite in_release. cbn [In]. split; [intros [[->|H] N]; [congruence|]; split; [exact H|congruence]|intros [H N]; split; [auto|]; intros E; specialize (N E); discriminate]. }
  destruct statOK; cbn [negb]; [|intros [= <- <-]; right; eauto].
  pose proof (header_right io data) as HR. pose proof (readHeader_no_panic data) as HP.
  destruct (readHeaderIO io data) as [h|e|]; [|intros [= <- <-]; right; eauto|destruct HR as [X|X]; congruence].
  pose proof (footer_right io data h) as FR. pose proof (readFooter_no_panic data h HB) as FP.
  destruct (readFooterIO io data h) as [[[h' m] ix]|e|]; [|intros [= <- <-]; right; eauto|destruct FR as [X|X]; congruence].
  intros [= <- <-]. left. eexists. split; [reflexivity|]. split; reflexivity.
Qed.
Lemma createFD_cases createOK now options faults d t r t' : createFD createOK now options faults d t = (r, t') ->
  (exists x, r = Ok x /\ f_open (w_file x) = true /\ t' = d :: t) \/ (exists e, r = Err e /\ forall x, In x t' <-> In x t /\ (x = d -> createOK = false)).
Proof.
  unfold createFD. destruct createOK; cbn [negb]; [|intros [= <- <-]; right; exists ErrIO; split; [reflexivity|]; tauto].
  assert (R : forall x, In x (release d (d :: t)) <-> In x t /\ (x = d -> true = false)).
  { intros x. rewrite in_release. cbn [In]. split; [intros [[->|H] N]; [congruence|]; split; [exact H|congruence]|intros [H N]; split; [auto|]; intros E; specialize (N E); discriminate]. }
  pose proof (new_failure_releases now options faults) as FR. pose proof (proj1 (new_safe now options faults)) as NP.
  destruct (NewWriter now options faults) as [[w|e|] f] eqn:E; [|intros [= <- <-]; right; exists e|exfalso; apply NP; reflexivity].
  - destruct (new_facts now options faults w f E) as (_ & _ & _ & O). pose proof (new_file now options faults w f E) as ->. unfold is_open in O. rewrite O. intros [= <- <-]. left. eauto.
  - rewrite (FR e f eq_refl). split; [reflexivity|]. exact R.
Qed.
Lemma last_nth {A} (l : list A) x d : nth_error (l ++ [x]) d = if Nat.eqb d (length l) then Some x else nth_error l d.
Proof. destruct (Nat.eqb_spec d (length l)) as [->|N]; [rewrite nth_error_app2, Nat.sub_diag by lia; reflexivity|].
  destruct (Nat.lt_ge_cases d (length l)) as [H|H]; [apply nth_error_app1; exact H|].
  rewrite (proj2 (nth_error_None l d) H). apply nth_error_None. rewrite app_length. cbn [length]. lia.
Qed.
Lemma opening_step c p a p' : is_opening c = true -> match c with POpen _ _ _ data => Forall is_byte data | _ => True end -> matching p -> pstep c p = (a, p') ->
  length (p_handles p') = S (length (p_handles p))
  /\ (forall d, d <> length (p_handles p) -> kd p' d = kd p d /\ lv p' d = lv p d)
  /\ (a = Ok 0%Z -> kd p' (length (p_handles p)) = kindC c /\ lv p' (length (p_handles p)) = true)
  /\ (a <> Ok 0%Z -> kd p' (length (p_handles p)) = 0)
  /\ matching p'.
Proof.
  intros O HB M H. set (n := length (p_handles p)).
  assert (LN : lv p n = false). { unfold lv. rewrite (proj2 (nth_error_None (p_handles p) n)); [reflexivity|unfold n; lia]. }
  assert (G : forall h t', (forall x, In x t' <-> In x (p_table p) /\ x <> n \/ x = n /\ live h = true) -> forall p', p' = mkProcess (p_handles p ++ [h]) t' ->
    length (p_handles p') = S n /\ (forall d, d <> n -> kd p' d = kd p d /\ lv p' d = lv p d) /\ (kd p' n = kindH h /\ lv p' n = live h) /\ matching p').
  { intros h t' Ht q ->. cbn [p_handles]. split; [rewrite app_length; cbn [length]; unfold n; lia|]. unfold kd, lv, matching. cbn [p_handles p_table].
    split; [intros d N; rewrite last_nth; unfold n in N; apply Nat.eqb_neq in N; rewrite N; auto|].
    split; [rewrite last_nth; unfold n; rewrite Nat.eqb_refl; auto|].
    intros d. rewrite Ht, (M d). unfold lv. cbn [p_handles]. rewrite last_nth. fold n. destruct (Nat.eqb_spec d n) as [->|N]; [|tauto]. tauto. }
  destruct c as [openOK statOK io data|createOK now options faults| | |]; try discriminate O; cbn [pstep] in H; fold n in H.
  - destruct (openFD openOK statOK io data n (p_table p)) as [r t'] eqn:E. destruct (openFD_cases _ _ _ _ _ _ _ _ HB E) as [(x & -> & X & ->)|(e & -> & T)]; injection H as <- <-.
    + destruct (G (ReaderHandle x) (n :: p_table p)) with (p' := mkProcess (p_handles p ++ [ReaderHandle x]) (n :: p_table p)) as (A & B & (C & D) & F); [|reflexivity|].
      { intros y. cbn [In live]. rewrite X. destruct (Nat.eq_dec y n); intuition auto. }
      cbn [live] in D. rewrite X in D. split; [exact A|]. split; [exact B|]. split; [auto|]. split; [congruence|exact F].
    + destruct (G NoHandle t') with (p' := mkProcess (p_handles p ++ [NoHandle]) t') as (A & B & (C & D) & F); [|reflexivity|].
      { intros y. rewrite T. cbn [live]. pose proof (M n) as MN. rewrite LN in MN. split.
        - intros [I _]. left. split; [exact I|]. intros ->. apply MN in I. discriminate I.
        - intros [[I N]|[_ N]]; [|discriminate N]. split; [exact I|]. congruence. }
      split; [exact A|]. split; [exact B|]. split; [congruence|]. split; [auto|exact F].
  - destruct (createFD createOK now options faults n (p_table p)) as [r t'] eqn:E. destruct (createFD_cases _ _ _ _ _ _ _ _ E) as [(x & -> & X & ->)|(e & -> & T)]; injection H as <- <-.
    + destruct (G (WriterHandle x) (n :: p_table p)) with (p' := mkProcess (p_handles p ++ [WriterHandle x]) (n :: p_table p)) as (A & B & (C & D) & F); [|reflexivity|].
      { intros y. cbn [In live]. rewrite X. destruct (Nat.eq_dec y n); intuition auto. }
      cbn [live] in D. rewrite X in D. split; [exact A|]. split; [exact B|]. split; [auto|]. split; [congruence|exact F].
    + destruct (G NoHandle t') with (p' := mkProcess (p_handles p ++ [NoHandle]) t') as (A & B & (C & D) & F); [|reflexivity|].
      { intros y. rewrite T. cbn [live]. pose proof (M n) as MN. rewrite LN in MN. split.
        - intros [I _]. left. split; [exact I|]. intros ->. apply MN in I. discriminate I.
        - intros [[I N]|[_ N]]; [|discriminate N]. split; [exact I|]. congruence. }
      split; [exact A|]. split; [exact B|]. split; [congruence|]. split; [auto|exact F].
Qed.

(** ** Histories *)
Lemma openings_snoc log e : openings (log ++ [e]) = (openings log + if is_opening (fst e) then 1 else 0)%nat.
Proof. unfold openings. rewrite filter_app, app_length. cbn [filter]. destruct (is_opening (fst e)); reflexivity. Qed.
Lemma opening_snoc log e d c a post : opening (log ++ [e]) d c a post ->
  (exists post0, post = post0 ++ [e] /\ opening log d c a post0) \/ (post = [] /\ e = (c, a) /\ is_opening c = true /\ d = openings log).
Proof.
  intros (pre & E & O & N). destruct post as [|x post] using rev_ind.
  - right. change (pre ++ [(c, a)]) with (pre ++ [(c, a)]) in E. apply app_inj_tail in E. destruct E as [-> ->]. auto.
  - left. exists post. change ((c, a) :: post ++ [x]) with (((c, a) :: post) ++ [x]) in E. rewrite app_assoc in E. apply app_inj_tail in E. destruct E as [-> ->].
    split; [reflexivity|]. exists pre. auto.
Qed.
Lemma opening_more log e d c a post : opening log d c a post -> opening (log ++ [e]) d c a (post ++ [e]).
Proof. intros (pre & -> & O & N). exists pre. rewrite <- app_assoc. auto. Qed.
Lemma opening_few log d c a post : opening log d c a post -> (d < openings log)%nat.
Proof. intros (pre & -> & O & N). unfold openings in *. rewrite filter_app, app_length. cbn [filter fst]. rewrite O. cbn [length]. lia. Qed.

Theorem history log p : ran log p -> bytes_read log ->
  length (p_handles p) = openings log /\ matching p
  /\ (forall d c post, opening log d c (Ok 0%Z) post -> kd p d = kindC c /\ (lv p d = true -> Forall (fun e => ~ closes c d e) post) /\ (Forall (fun e => ~ may_close c d e) post -> lv p d = true))
  /\ (forall d c a post, opening log d c a post -> a <> Ok 0%Z -> kd p d = 0)
  /\ (forall d, (d < openings log)%nat -> exists c a post, opening log d c a post).
Proof.
  induction 1 as [|log p c a p' R IH S]; intros HB.
  - split; [reflexivity|]. split; [intros d; unfold lv; cbn; destruct d; split; [intros []|discriminate|intros []|discriminate]|].
    split; [intros d c post (pre & E & _); destruct pre; discriminate E|]. split; [intros d c a post (pre & E & _); destruct pre; discriminate E|]. cbn. intros; lia.
  - apply Forall_app in HB. destruct HB as [HB HB1]. specialize (IH HB). destruct IH as (L & M & K1 & K2 & K3). inversion HB1 as [|? ? HB2 _]; subst. cbn [fst] in HB2.
    destruct (is_opening c) eqn:O.
    + destruct (opening_step c p a p' O HB2 M S) as (A & B & C & D & F). rewrite openings_snoc. cbn [fst]. rewrite O. split; [lia|]. split; [exact F|]. split; [|split].
      * intros d c' post H. destruct (opening_snoc _ _ _ _ _ _ H) as [(post0 & -> & H0)|(-> & E & O' & ->)].
        { pose proof (opening_few _ _ _ _ _ H0). destruct (B d) as [B1 B2]; [lia|]. rewrite B1, B2. destruct (K1 _ _ _ H0) as (X & Y & Z). split; [exact X|]. split.
          - intros V. apply Forall_app. split; [exact (Y V)|]. constructor; [|constructor]. destruct c; try discriminate O; destruct c'; cbn [closes fst]; (intros [Q|(x & Q)]; [discriminate Q|first [discriminate Q|destruct Q as [Q _]; discriminate Q]]).
          - intros V. apply Forall_app in V. apply Z, V. }
        { injection E as -> ->. rewrite <- L. destruct (C eq_refl) as [C1 C2]. split; [exact C1|]. split; [constructor|intros _; exact C2]. }
      * intros d c' a' post H N. destruct (opening_snoc _ _ _ _ _ _ H) as [(post0 & -> & H0)|(-> & E & O' & ->)].
        { pose proof (opening_few _ _ _ _ _ H0). destruct (B d) as [B1 B2]; [lia|]. rewrite B1. eapply K2; eassumption. }
        { injection E as -> ->. rewrite <- L. exact (D N). }
      * intros d Hd. destruct (Nat.eq_dec d (openings log)) as [->|N].
        { exists c, a, []. exists log. auto. }
        { destruct (K3 d) as (c' & a' & post & H); [lia|]. exists c', a', (post ++ [(c, a)]). apply opening_more. exact H. }
    + destruct (other_calm c p a p' O S) as [A B Cb G Kp F]. rewrite openings_snoc. cbn [fst]. rewrite O, Nat.add_0_r. split; [congruence|]. split; [exact (F M)|].
      assert (Q : forall d c' a' post, opening (log ++ [(c, a)]) d c' a' post -> exists post0, post = post0 ++ [(c, a)] /\ opening log d c' a' post0).
      { intros d c' a' post H. destruct (opening_snoc _ _ _ _ _ _ H) as [X|(_ & E & O' & _)]; [exact X|]. injection E as -> ->. congruence. }
      split; [|split].
      * intros d c' post H. destruct (Q _ _ _ _ H) as (post0 & -> & H0). destruct (K1 _ _ _ H0) as (X & Y & Z). rewrite B. split; [exact X|].
        assert (O' : is_opening c' = true) by (destruct H0 as (? & _ & ? & _); assumption).
        assert (KO : forall o, is_opening o = true -> kindC c' = kindC o -> (closes o d (c, a) -> closes c' d (c, a)) /\ (may_close o d (c, a) -> may_close c' d (c, a))).
        { intros [] U1 U2; try discriminate U1; destruct c'; try discriminate O'; try discriminate U2; split; exact (fun z => z). }
        split.
        { intros V. apply Forall_app. split; [exact (Y (Cb _ V))|]. constructor; [|constructor]. intros U. rewrite (G d) in V; [discriminate V|]. exists c'. rewrite X. auto. }
        { intros V. apply Forall_app in V. destruct V as [V1 V2]. apply Kp; [exact (Z V1)|]. intros (o & U1 & U2 & U3). rewrite X in U1. inversion V2 as [|? ? V3 _]; subst. apply V3. exact (proj2 (KO o U2 U1) U3). }
      * intros d c' a' post H N. destruct (Q _ _ _ _ H) as (post0 & -> & H0). rewrite B. eapply K2; eassumption.
      * intros d Hd. destruct (K3 d Hd) as (c' & a' & post & H). exists c', a', (post ++ [(c, a)]). apply opening_more. exact H.
Qed.

Theorem only_live log p d : ran log p -> bytes_read log -> In d (p_table p) ->
  exists c post, opening log d c (Ok 0%Z) post /\ Forall (fun e => ~ closes c d e) post.
Proof.
  intros R HB I. destruct (history log p R HB) as (L & M & K1 & K2 & K3). apply M in I.
  assert (Hd : (d < openings log)%nat). { rewrite <- L. apply nth_error_Some. unfold lv in I. destruct (nth_error _ _); congruence. }
  destruct (K3 d Hd) as (c & a & post & H). exists c, post.
  assert (E : a = Ok 0%Z).
  { assert (Dec : a = Ok 0%Z \/ a <> Ok 0%Z). { destruct a as [z|e|]; try (right; discriminate). destruct (Z.eq_dec z 0) as [->|N]; [left; reflexivity|right; congruence]. }
    destruct Dec as [E|N]; [exact E|]. pose proof (K2 _ _ _ _ H N) as K. unfold kd in K. unfold lv in I. destruct (nth_error _ _) as [[]|]; cbn in *; discriminate. }
  subst a. split; [exact H|]. apply (K1 _ _ _ H). exact I.
Qed.
Theorem held log p d c post : ran log p -> bytes_read log -> opening log d c (Ok 0%Z) post -> Forall (fun e => ~ may_close c d e) post -> In d (p_table p).
Proof. intros R HB H V. destruct (history log p R HB) as (L & M & K1 & _). apply M. apply (K1 _ _ _ H). exact V. Qed.
Theorem nothing_left log p : ran log p -> bytes_read log ->
  (forall d c post, opening log d c (Ok 0%Z) post -> Exists (closes c d) post) -> p_table p = [].
Proof.
  intros R HB A. destruct (p_table p) as [|d t] eqn:E; [reflexivity|]. destruct (only_live log p d R HB) as (c & post & H & F); [rewrite E; left; reflexivity|].
  specialize (A _ _ _ H). apply Exists_exists in A as (e & I & C). rewrite Forall_forall in F. destruct (F e I C).
Qed.
Theorem close_twice log p d c post a p' : ran log p -> bytes_read log -> opening log d c (Ok 0%Z) post -> Exists (closes c d) post -> 
  (match c with POpen _ _ _ _ => pstep (PClose d) p | _ => pstep (PWriter d CClose) p end) = (a, p') -> a = Err ErrIO /\ p_table p' = p_table p.
Proof.
  intros R HB H X S. destruct (history log p R HB) as (L & M & K1 & _). destruct (K1 _ _ _ H) as (K & Y & _).
  assert (V : lv p d = false). { destruct (lv p d); [|reflexivity]. specialize (Y eq_refl). apply Exists_exists in X as (e & I & C). rewrite Forall_forall in Y. destruct (Y e I C). }
  assert (O : is_opening c = true) by (destruct H as (? & _ & ? & _); assumption).
  destruct c; try discriminate O; cbn [pstep] in S; unfold closeFD, writerFD in S; unfold kd in K; unfold lv in V; destruct (nth_error (p_handles p) d) as [[|r|w]|]; try discriminate K; cbn [live] in V.
  - unfold RClose in S. rewrite V in S. injection S as <- <-. auto.
  - destruct (run_call CClose w) as [x w'] eqn:E. cbn [run_call] in E. unfold mbind, Close, closeFile, mfile, file_close in E. rewrite V in E. rewrite V in S. cbn [andb] in S.
    injection E as <- <-. injection S as <- <-. auto.
Qed.
End Facts.
