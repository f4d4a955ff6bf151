(** Rely-guarantee argument for goroutines that share a Reader. *)
From Verif Require Import Machine MachineFacts Encoding Sroar Writer Reader Aggregate ArbFacts Shared SharedSpec.
From Coq Require Import Lia ZifyBool.
Local Open Scope Z_scope.

Section Shared.
Context {Srr : Sroar}.
Variable r : reader.
(** Somebody closes; somebody disables caching; somebody enables it. *)
Variables cl dis en : bool.

Definition the : reader := at_open r true.
Definition extends (h h' : heap) : Prop := exists t, h' = h ++ t.
Lemma extends_refl h : extends h h. Proof. exists []. rewrite app_nil_r. reflexivity. Qed.
Lemma extends_trans a b c : extends a b -> extends b c -> extends a c.
Proof. intros [x ->] [y ->]. exists (x ++ y). rewrite app_assoc. reflexivity. Qed.
Lemma extends_nth (h h' : heap) p b : extends h h' -> nth_error h p = Some b -> nth_error h' p = Some b.
Proof. intros [t ->] H. rewrite nth_error_app1; [exact H|]. apply nth_error_Some. congruence. Qed.
Lemma extends_push (h : heap) b : extends h (h ++ [b]). Proof. exists [b]. reflexivity. Qed.

Definition valid (h : heap) (q : option nat) : Prop :=
  match q with None => True | Some p => en = true /\ exists b, nth_error h p = Some b /\ loadGlobalIDBitmap the = Ok b end.
Lemma valid_mono h h' q : extends h h' -> valid h q -> valid h' q.
Proof. intros E. destruct q as [p|]; [|auto]. intros (N & b & H & L). split; [exact N|]. exists b. split; [eapply extends_nth; eassumption|exact L]. Qed.
Definition some (q : option nat) : bool := match q with Some _ => true | None => false end.

(** [sn]: the pointer has been seen set and stays so; [oc]: the file has been seen closed. *)
Fixpoint okp (fin : bool -> heap -> answer -> Prop) (p : prog) (sn oc : bool) (h : heap) {struct p} : Prop :=
  match p with
  | Ret a => fin oc h a
  | DoRead k => (oc = false -> okp fin (k true) sn false h) /\ (cl = true -> okp fin (k false) sn true h)
  | GetFlag k => forall b, (b = true -> en = true) -> okp fin (k b) sn oc h
  | SetFlag b p' => (b = true -> en = true) /\ okp fin p' sn oc h
  | GetPtr k => forall h' q, extends h h' -> valid h' q -> (sn = true -> q <> None) -> okp fin (k q) (negb dis && some q) oc h'
  | SetPtr q p' => match q with Some _ => valid h q /\ okp fin p' sn oc h | None => dis = true /\ okp fin p' false oc h end
  | NewBitmap b k => forall h', extends h h' -> okp fin (k (length h')) sn oc (h' ++ [b])
  | DoClose k => cl = true /\ forall o, okp fin (k o) sn true h
  end.

Definition mono (fin : bool -> heap -> answer -> Prop) : Prop := forall oc h h' a, extends h h' -> fin oc h a -> fin oc h' a.
Lemma okp_mono fin : mono fin -> forall p sn oc h h', extends h h' -> okp fin p sn oc h -> okp fin p sn oc h'.
Proof.
  intros M p. induction p as [a|k IH|k IH|b p IH|k IH|q p IH|b k IH|k IH]; intros sn oc h h' E H; cbn [okp] in *.
  - eapply M; eassumption.
  - destruct H as [H1 H2]. split; intros C; eapply IH; eauto.
  - intros b N. eapply IH; eauto.
  - destruct H as [H1 H2]. split; [exact H1|]. eapply IH; eauto.
  - intros h2 q E2 V N. apply H; [eapply extends_trans; eassumption|exact V|exact N].
  - destruct q as [q|]; destruct H as [H1 H2]; (split; [|eapply IH; eauto]); [eapply valid_mono; eassumption|exact H1].
  - intros h2 E2. apply H. eapply extends_trans; eassumption.
  - destruct H as [H1 H2]. split; [exact H1|]. intros o. eapply IH; eauto.
Qed.

Definition fine (s : shared) : Prop := valid (s_heap s) (s_ptr s) /\ (cl = false -> s_open s = true) /\ (s_flag s = true -> en = true).
Definition rely (s s' : shared) : Prop :=
  extends (s_heap s) (s_heap s') /\ (dis = false -> s_ptr s <> None -> s_ptr s' <> None) /\ (s_open s = false -> s_open s' = false).
Lemma rely_refl s : rely s s. Proof. repeat split; auto using extends_refl. Qed.
Definition linked (fin : bool -> heap -> answer -> Prop) (p : prog) (s : shared) : Prop :=
  exists sn oc, okp fin p sn oc (s_heap s) /\ (sn = true -> dis = false /\ s_ptr s <> None) /\ (oc = true -> s_open s = false).
Lemma linked_rely fin p s s' : mono fin -> rely s s' -> linked fin p s -> linked fin p s'.
Proof.
  intros M (R1 & R2 & R3) (sn & oc & H1 & H2 & H3). exists sn, oc. split; [eapply okp_mono; eassumption|]. split; [|auto].
  intros S. destruct (H2 S) as [D N]. split; [exact D|auto].
Qed.

Lemma access_linked fin p s : fine s -> linked fin p s ->
  let '(p', s') := access p s in fine s' /\ rely s s' /\ linked fin p' s'.
Proof.
  intros (F1 & F2 & F3) (sn & oc & H1 & H2 & H3). destruct p as [a|k|k|b p|k|q p|b k|k]; cbn [access okp] in *.
  - split; [repeat split; assumption|]. split; [apply rely_refl|]. exists sn, oc. auto.
  - split; [repeat split; assumption|]. split; [apply rely_refl|]. destruct H1 as [K1 K2]. destruct (s_open s) eqn:E.
    + destruct oc; [discriminate (H3 eq_refl)|]. exists sn, false. rewrite E. auto.
    + assert (C : cl = true) by (destruct cl; [reflexivity|discriminate (F2 eq_refl)]). exists sn, true. rewrite E. auto.
  - split; [repeat split; assumption|]. split; [apply rely_refl|]. exists sn, oc. auto.
  - destruct H1 as [N O]. split; [split; [exact F1|]; split; [exact F2|exact N]|]. split; [repeat split; auto using extends_refl|]. exists sn, oc. auto.
  - split; [repeat split; assumption|]. split; [apply rely_refl|]. exists (negb dis && some (s_ptr s)), oc.
    split; [apply H1; [apply extends_refl|exact F1|intros S; apply H2; exact S]|]. split; [|exact H3].
    intros S. apply andb_true_iff in S. destruct S as [S1 S2]. destruct dis; [discriminate|]. split; [reflexivity|]. destruct (s_ptr s); [discriminate|discriminate].
  - destruct q as [q|]; destruct H1 as [V O].
    + split; [split; [exact V|split; [exact F2|exact F3]]|]. split; [split; [apply extends_refl|split; [cbn; discriminate|auto]]|].
      exists sn, oc. cbn [s_heap s_ptr s_open]. split; [exact O|]. split; [|exact H3]. intros S. split; [apply H2; exact S|discriminate].
    + split; [split; [exact I|split; [exact F2|exact F3]]|]. split; [split; [apply extends_refl|split; [congruence|auto]]|].
      exists false, oc. split; [exact O|]. split; [discriminate|exact H3].
  - unfold alloc. split; [split; cbn [s_heap s_ptr s_open s_flag]; [eapply valid_mono; [apply extends_push|exact F1]|split; [exact F2|exact F3]]|].
    split; [split; [apply extends_push|split; auto]|]. exists sn, oc. cbn [s_heap s_ptr s_open].
    split; [apply H1, extends_refl|]. auto.
  - destruct H1 as [C O]. split; [split; cbn [s_heap s_ptr s_open s_flag]; [exact F1|split; [congruence|exact F3]]|].
    split; [split; [apply extends_refl|split; auto]|]. exists sn, true. cbn [s_heap s_ptr s_open]. auto.
Qed.

Variable fin : op -> bool -> heap -> answer -> Prop.
Hypothesis fin_mono : forall c, mono (fin c).
Hypothesis begin_ok : forall c, (c = OClose -> cl = true) -> (c = ODisable -> dis = true) -> (c = OEnable -> en = true) -> forall h, okp (fin c) (prog_of r c) false false h.
Definition may (c : op) : Prop := (c = OClose -> cl = true) /\ (c = ODisable -> dis = true) /\ (c = OEnable -> en = true).

Definition good_thread (s : shared) (t : thread) : Prop :=
  Forall may (t_todo t)
  /\ (forall c p, t_now t = Some (c, p) -> linked (fin c) p s)
  /\ Forall (fun '(c, a) => exists oc, fin c oc (s_heap s) a) (t_log t).
Lemma good_rely s s' t : rely s s' -> good_thread s t -> good_thread s' t.
Proof.
  intros R (G1 & G2 & G3). split; [exact G1|]. split.
  - intros c p E. eapply linked_rely; [apply fin_mono|exact R|]. apply G2. exact E.
  - eapply Forall_impl; [|exact G3]. intros [c a] [oc H]. exists oc. eapply fin_mono; [apply R|exact H].
Qed.
Lemma step_good t s : fine s -> good_thread s t ->
  let '(t', s') := step_thread r t s in fine s' /\ rely s s' /\ good_thread s' t'.
Proof.
  intros F (G1 & G2 & G3). unfold step_thread. destruct (t_now t) as [[c p]|] eqn:E.
  - specialize (G2 c p eq_refl). destruct p as [a|k|k|b p|k|q p|b k|k];
    try (match goal with |- context[access ?p s] => pose proof (access_linked (fin c) p s F G2) as A; destruct (access p s) as [p' s'] end;
      destruct A as (A1 & A2 & A3); split; [exact A1|]; split; [exact A2|]; split; [exact G1|]; split;
      [intros c' p'' X; cbn [t_now] in X; injection X as <- <-; exact A3|];
      cbn [t_log]; eapply Forall_impl; [|exact G3]; intros [c' a'] [oc H]; exists oc; eapply fin_mono; [apply A2|exact H]).
    split; [exact F|]. split; [apply rely_refl|]. split; [exact G1|]. split; [discriminate|]. cbn [t_log].
    apply Forall_app. split; [exact G3|]. constructor; [|constructor]. destruct G2 as (sn & oc & H & _). exists oc. exact H.
  - destruct (t_todo t) as [|c todo] eqn:T.
    + split; [exact F|]. split; [apply rely_refl|]. split; [rewrite T; constructor|]. rewrite E. split; [discriminate|exact G3].
    + inversion G1 as [|? ? M1 M2]; subst. split; [exact F|]. split; [apply rely_refl|]. split; [exact M2|]. cbn [t_now t_log]. split; [|exact G3].
      intros c' p' X. injection X as <- <-. exists false, false. split; [apply begin_ok; apply M1|]. split; discriminate.
Qed.

Lemma update_Forall {A} (P : A -> Prop) n x l : Forall P l -> P x -> Forall P (update n x l).
Proof.
  intros H. revert n. induction H as [|y l Hy Hl IH]; intros n Hx; [destruct n; constructor|].
  destruct n; cbn; constructor; auto.
Qed.
Lemma interleave_good sched : forall ts s, fine s -> Forall (good_thread s) ts ->
  let '(ts', s') := interleave r sched ts s in fine s' /\ Forall (good_thread s') ts'.
Proof.
  induction sched as [|n sched IH]; intros ts s F G; cbn [interleave]; [auto|].
  destruct (nth_error ts n) as [t|] eqn:E; [|apply IH; assumption].
  assert (Gt : good_thread s t) by (rewrite Forall_forall in G; apply G; eapply nth_error_In; exact E).
  pose proof (step_good t s F Gt) as S. destruct (step_thread r t s) as [t' s']. destruct S as (S1 & S2 & S3).
  apply IH; [exact S1|]. apply update_Forall; [|exact S3]. eapply Forall_impl; [|exact G]. intros u. apply good_rely. exact S2.
Qed.
Lemma together_good programs sched : r_open r = true -> r_globalIDs r = None -> r_cacheGlobalIDs r = false -> Forall may (concat programs) ->
  let '(ts, s) := together r programs sched in
  Forall (fun t => Forall (fun '(c, a) => exists oc, fin c oc (s_heap s) a) (t_log t)) ts.
Proof.
  intros Ho Hp Hf Hm. unfold together.
  assert (F : fine (shared_of r [])) by (split; cbn; [rewrite Hp; exact I|split; [auto|rewrite Hf; discriminate]]).
  assert (G : Forall (good_thread (shared_of r [])) (start programs)).
  { unfold start. clear - Hm. induction programs as [|p ps IH]; cbn in *; [constructor|]. apply Forall_app in Hm. destruct Hm as [H1 H2].
    constructor; [|apply IH; exact H2]. split; [exact H1|]. split; [discriminate|constructor]. }
  pose proof (interleave_good sched _ _ F G) as I1. destruct (interleave r sched _ _) as [ts s]. destruct I1 as [_ I1].
  eapply Forall_impl; [|exact I1]. intros t (_ & _ & L). exact L.
Qed.
End Shared.

(** ** The calls *)
Section Calls.
Context {Srr : Sroar}.
Variable r : reader.
Hypothesis r_is_open : r_open r = true.
Variables cl dis en : bool.

Definition outcome_of (c : op) (oc : bool) (h : heap) (a : answer) : Prop :=
  right_answer r h c a \/ (cl = true /\ oc = true /\ cut_short r c a) \/ (dis = true /\ c = OGetGlobalIDBitmap /\ a = ABitmap (Ok None)).

Lemma right_mono c : mono (fun _ h a => right_answer r h c a).
Proof.
  intros oc h h' a E. destruct c; cbn [right_answer]; auto. destruct (loadGlobalIDBitmap r); auto.
  intros (p & -> & H). exists p. split; [reflexivity|]. eapply extends_nth; eassumption.
Qed.
Lemma outcome_mono c : mono (outcome_of c).
Proof. intros oc h h' a E [H|H]; [left; eapply (right_mono c oc); eassumption|right; exact H]. Qed.

Lemma the_is : the r = r.
Proof. unfold the, at_open. destruct r; cbn in *. subst. reflexivity. Qed.
Lemma at_true : at_open r true = r. Proof. exact the_is. Qed.

Lemma bytes_closed data off n : readBytesAt data false off n = Panic \/ (exists e, readBytesAt data false off n = Err e)
  \/ (n = 0 /\ forall o, readBytesAt data o off n = Ok []).
Proof.
  unfold readBytesAt. destruct (n <? 0); [auto|]. destruct (off <? 0); [eauto|]. destruct (Z.eqb_spec n 0); [auto|]. cbn. eauto.
Qed.
Lemma bytes_panic data off n o o' : readBytesAt data o off n = Panic -> readBytesAt data o' off n = Panic.
Proof.
  unfold readBytesAt. destruct (n <? 0); [auto|]. destruct (off <? 0); [discriminate|]. destruct (n =? 0); [discriminate|].
  destruct (negb o); [discriminate|]. destruct (_ >? _); discriminate.
Qed.
Lemma block_closed i : (exists e, readBlock (at_open r false) i = Err e) \/ (readBlock (at_open r false) i = Panic /\ readBlock r i = Panic).
Proof.
  unfold readBlock. cbn [at_open r_index r_data r_open r_header]. destruct (_ || _); [eauto|].
  destruct (nth_error _ _) as [e|]; [|eauto]. cbv zeta.
  destruct (bytes_closed (r_data r) (i64 (i64 (e_offset e) + blockHeaderSize)) (e_size e - blockHeaderSize)) as [H|[[x H]|[H0 H]]].
  - right. rewrite H, (bytes_panic _ _ _ _ (r_open r) H). auto.
  - left. rewrite H. cbn [rbind]. eauto.
  - right. rewrite !H. cbn. auto.
Qed.

Lemma scan_app get xs ys : forall a, scan get (xs ++ ys) a = (let? b := scan get xs a in scan get ys b).
Proof.
  induction xs as [|x xs IH]; intros a; cbn [scan app rbind]; [reflexivity|]. destruct (add_block a (get x)); cbn [rbind]; auto.
Qed.
Lemma scan_not_err get xs : forall a e, scan get xs a <> Err e.
Proof.
  induction xs as [|x xs IH]; intros a e; cbn [scan]; [discriminate|]. destruct (get x) as [[? ?]|?|]; cbn [add_block rbind]; auto. discriminate.
Qed.
Lemma scan_panic get i post pre a : get i = Panic -> scan get (pre ++ i :: post) a = Panic.
Proof.
  intros H. rewrite scan_app. destruct (scan get pre a) as [b|e|] eqn:E; cbn [rbind scan]; [rewrite H; reflexivity|destruct (scan_not_err _ _ _ _ E)|reflexivity].
Qed.
Section Scan.
Variable get : bool -> Z -> res (list Z * list Z).
Variable all : list Z.
Variable f : bool -> heap -> answer -> Prop.
Hypothesis get_closed : forall i, (exists e, get false i = Err e) \/ (get false i = Panic /\ get true i = Panic).
Hypothesis full : forall oc h, f oc h (AAggregate (let? a := scan (get true) all acc0 in Ok (result_of a))).
Hypothesis part : cl = true -> forall h n, f true h (AAggregate (let? a := scan (get true) (firstn n all) acc0 in Ok (result_of a))).
Lemma part' pre post x h : cl = true -> all = pre ++ post -> x = (let? a := scan (get true) pre acc0 in Ok (result_of a)) -> f true h (AAggregate x).
Proof using part.
  intros C E ->. specialize (part C h (length pre)). rewrite E, firstn_app, firstn_all, Nat.sub_diag, firstn_O, app_nil_r in part. exact part.
Qed.
Lemma scan_prog_closed idx : cl = true -> forall pre mid a sn h, all = pre ++ mid ++ idx -> scan (get true) pre acc0 = Ok a ->
  okp r cl dis en f (scan_prog get idx a) sn true h.
Proof using get_closed part.
  intros C. induction idx as [|i idx IH]; intros pre mid a sn h E S; cbn [scan_prog okp].
  - eapply part'; [exact C|exact E|]. rewrite S. reflexivity.
  - split; [discriminate|]. intros _. destruct (get_closed i) as [[e H]|[H H']]; rewrite H; cbn [add_block okp].
    + apply (IH pre (mid ++ [i])); [rewrite E, <- !app_assoc; reflexivity|exact S].
    + apply (part' ((pre ++ mid) ++ [i]) idx); [exact C|rewrite E, <- !app_assoc; reflexivity|]. rewrite scan_panic by exact H'. reflexivity.
Qed.
Lemma scan_prog_ok idx : forall pre a sn h, all = pre ++ idx -> scan (get true) pre acc0 = Ok a ->
  okp r cl dis en f (scan_prog get idx a) sn false h.
Proof using get_closed full part.
  induction idx as [|i idx IH]; intros pre a sn h E S; cbn [scan_prog okp].
  - specialize (full false h). rewrite E, app_nil_r, S in full. exact full.
  - split; [intros _|intros C].
    + destruct (add_block a (get true i)) as [b|e|] eqn:B; cbn [okp].
      * apply (IH (pre ++ [i])); [rewrite E, <- app_assoc; reflexivity|]. rewrite scan_app, S. cbn [rbind scan]. rewrite B. reflexivity.
      * destruct (get true i) as [[? ?]|?|]; discriminate.
      * specialize (full false h). rewrite E, scan_panic in full; [exact full|]. destruct (get true i) as [[? ?]|?|]; [discriminate|discriminate|reflexivity].
    + destruct (get_closed i) as [[e H]|[H H']]; rewrite H; cbn [add_block okp].
      * apply (scan_prog_closed idx C pre [i]); [rewrite E; reflexivity|exact S].
      * specialize (full true h). rewrite E, scan_panic in full by exact H'. exact full.
Qed.
End Scan.

Lemma filtered_closed f d i : (exists e, readBlockFiltered (at_open r false) i f d = Err e)
  \/ (readBlockFiltered (at_open r false) i f d = Panic /\ readBlockFiltered r i f d = Panic).
Proof using. unfold readBlockFiltered. destruct (block_closed i) as [[e ->]|[-> ->]]; cbn [rbind]; eauto. Qed.

Lemma aggregate_ok opts h : okp r cl dis en (outcome_of (OAggregate opts)) (prog_of r (OAggregate opts)) false false h.
Proof.
  cbn [prog_of]. unfold aggregate_prog. destruct (has_filter opts) eqn:Ef.
  - destruct (FilteredBlockIterator r (o_filter opts) (o_deny opts)) as [mb|e|] eqn:EI.
    2,3: left; cbn [right_answer]; unfold aggregateSequential, aggregateWithFilter; rewrite Ef, EI; reflexivity.
    destruct (zlen mb =? 0) eqn:Ez.
    + left. cbn [right_answer]. unfold aggregateSequential, aggregateWithFilter. rewrite Ef, EI. cbn [rbind]. rewrite Ez. reflexivity.
    + eapply scan_prog_ok with (pre := []); [| | |reflexivity|reflexivity]; cbv beta.
      * intros i. rewrite at_true. apply filtered_closed.
      * intros oc h'. left. cbn [right_answer]. unfold aggregateSequential, aggregateWithFilter. rewrite Ef, EI. cbn [rbind]. rewrite Ez, at_true. reflexivity.
      * intros C h' n. right. left. split; [exact C|]. split; [reflexivity|]. exists n. unfold after_blocks. rewrite Ef, at_true.
        assert (Em : mb = matchingBlocks r (o_filter opts) (o_deny opts)).
        { unfold FilteredBlockIterator in EI. destruct (o_filter opts); [|destruct (make_panics _ _) in EI; [discriminate|]]; injection EI as <-; reflexivity. }
        rewrite Em. reflexivity.
  - destruct (_ && _) eqn:Eb.
    + left. cbn [right_answer]. unfold aggregateSequential. rewrite Ef, Eb. reflexivity.
    + eapply scan_prog_ok with (pre := []); [| | |reflexivity|reflexivity]; cbv beta.
      * intros i. rewrite at_true. apply block_closed.
      * intros oc h'. left. cbn [right_answer]. unfold aggregateSequential. rewrite Ef, Eb, at_true. reflexivity.
      * intros C h' n. right. left. split; [exact C|]. split; [reflexivity|]. exists n. unfold after_blocks. rewrite Ef, at_true. reflexivity.
Qed.

Lemma keep_ok b sn oc h : loadGlobalIDBitmap r = Ok b -> okp r cl dis en (outcome_of OGetGlobalIDBitmap) (keep_prog b) sn oc h.
Proof.
  intros L. unfold keep_prog. cbn [okp]. intros h' E on Hon.
  assert (N : nth_error (h' ++ [b]) (length h') = Some b) by (rewrite nth_error_app2, Nat.sub_diag by lia; reflexivity).
  assert (F : outcome_of OGetGlobalIDBitmap oc (h' ++ [b]) (ABitmap (Ok (Some (length h'))))).
  { left. cbn [right_answer]. rewrite L. eauto. }
  destruct on; cbn [okp valid]; [|exact F]. split; [|exact F]. split; [apply Hon; reflexivity|]. exists b. split; [exact N|]. rewrite the_is. exact L.
Qed.
Lemma load_ok sn h : okp r cl dis en (outcome_of OGetGlobalIDBitmap) (load_prog r) sn false h.
Proof.
  unfold load_prog. destruct (_ || _) eqn:E0; [apply keep_ok; unfold loadGlobalIDBitmap; rewrite E0; reflexivity|].
  pose proof (eq_refl (loadGlobalIDBitmap r)) as L. unfold loadGlobalIDBitmap at 2 in L. rewrite E0 in L. cbv zeta in *.
  set (off := i64 (h_bitmapOffset (r_header r))) in *. rewrite r_is_open in L.
  cbn [okp]. split.
  - intros _. destruct (readBytesAt (r_data r) true off 4) as [sb|e|]; cbn [rbind okp] in *;
      [|left; cbn [right_answer]; rewrite L; reflexivity|left; cbn [right_answer]; rewrite L; reflexivity].
    destruct (readBufferedUint32 sb 0) as [n|e|]; cbn [rbind okp] in *;
      [|left; cbn [right_answer]; rewrite L; reflexivity|left; cbn [right_answer]; rewrite L; reflexivity].
    split.
    + intros _. destruct (readBytesAt (r_data r) true (i64 (off + 4)) n) as [buf|e|]; cbn [rbind okp] in *;
        [|left; cbn [right_answer]; rewrite L; reflexivity|left; cbn [right_answer]; rewrite L; reflexivity].
      destruct (bm_deser buf) as [b|e|]; cbn [okp] in *;
        [apply keep_ok; exact L|left; cbn [right_answer]; rewrite L; reflexivity|left; cbn [right_answer]; rewrite L; reflexivity].
    + intros C. destruct (bytes_closed (r_data r) (i64 (off + 4)) n) as [H|[[e H]|[H0 H]]].
      * rewrite (bytes_panic _ _ _ _ true H) in L. rewrite H. cbn [rbind okp] in *. left. cbn [right_answer]. rewrite L. reflexivity.
      * rewrite H. cbn [rbind okp]. right. left. split; [exact C|]. split; [reflexivity|]. exists e. reflexivity.
      * rewrite H in L |- *. cbn [rbind] in *. destruct (bm_deser []) as [b|e|]; cbn [okp];
          [apply keep_ok; exact L|left; cbn [right_answer]; rewrite L; reflexivity|left; cbn [right_answer]; rewrite L; reflexivity].
  - intros C. destruct (bytes_closed (r_data r) off 4) as [H|[[e H]|[H0 H]]]; [| |discriminate].
    + rewrite (bytes_panic _ _ _ _ true H) in L. rewrite H. cbn [rbind okp] in *. left. cbn [right_answer]. rewrite L. reflexivity.
    + rewrite H. cbn [rbind okp]. right. left. split; [exact C|]. split; [reflexivity|]. exists e. reflexivity.
Qed.

Lemma begin_ok c : (c = OClose -> cl = true) -> (c = ODisable -> dis = true) -> (c = OEnable -> en = true) -> forall h, okp r cl dis en (outcome_of c) (prog_of r c) false false h.
Proof.
  intros HC HD HE h. destruct c as [i|opts| | | |].
  - cbn [prog_of okp]. split; [intros _; rewrite at_true; left; reflexivity|]. intros C.
    destruct (block_closed (i64 i)) as [[e H]|[H H']]; unfold GetPairs; rewrite H.
    + right. left. split; [exact C|]. split; [reflexivity|]. exists e. reflexivity.
    + left. cbn [right_answer]. unfold GetPairs. rewrite H'. reflexivity.
  - apply aggregate_ok.
  - cbn [prog_of]. unfold bitmap_prog. cbn [okp]. intros h1 q E1 V1 _. destruct q as [q|]; cbn [okp some]; [|rewrite andb_false_r; apply load_ok].
    intros on _. destruct on; cbn [okp]; [|apply load_ok]. intros h2 q2 E2 V2 N2. destruct q2 as [q2|]; cbn [okp].
    + left. cbn [right_answer]. destruct V2 as (_ & b & Hb & L). rewrite the_is in L. rewrite L. eauto.
    + right. right. split; [|auto]. destruct dis; [reflexivity|]. destruct (N2 eq_refl eq_refl).
  - cbn. split; [intros _; apply HE; reflexivity|]. left. reflexivity.
  - cbn. split; [discriminate|]. split; [apply HD; reflexivity|]. left. reflexivity.
  - cbn. split; [apply HC; reflexivity|]. intros o. left. eexists. reflexivity.
Qed.

Theorem together_answers programs sched : r_globalIDs r = None -> r_cacheGlobalIDs r = false -> en = true ->
  (cl = false -> no_close programs) -> (dis = false -> no_disable programs) ->
  let '(ts, s) := together r programs sched in
  Forall (fun t => Forall (fun '(c, a) => exists oc, outcome_of c oc (s_heap s) a) (t_log t)) ts.
Proof.
  intros Hp Hf He HC HD. apply (together_good r cl dis en outcome_of outcome_mono begin_ok); [exact r_is_open|exact Hp|exact Hf|].
  apply Forall_forall. intros c Hc. split; [|split; [|intros _; exact He]]; intros ->.
  - destruct cl; [reflexivity|]. destruct (HC eq_refl Hc).
  - destruct dis; [reflexivity|]. destruct (HD eq_refl Hc).
Qed.
End Calls.

(** ** Order and progress *)
Section Progress.
Context {Srr : Sroar}.
Variable r : reader.

Definition current (t : thread) : list op := match t_now t with Some (c, _) => [c] | None => [] end.
Definition whole (t : thread) : list op := calls_made t ++ current t ++ t_todo t.
Lemma step_whole t s : whole (fst (step_thread r t s)) = whole t.
Proof.
  unfold step_thread, whole, current, calls_made. destruct (t_now t) as [[c p]|] eqn:E.
  - destruct p; try (match goal with |- context[access ?p s] => destruct (access p s) end; cbn [fst t_now t_log t_todo]; reflexivity).
    cbn [fst t_now t_log t_todo]. rewrite map_app, <- app_assoc. reflexivity.
  - destruct (t_todo t) eqn:T; cbn [fst t_now t_log t_todo]; [rewrite E, T; reflexivity|reflexivity].
Qed.
Lemma nth_update {A} (l : list A) : forall n m x, nth_error (update n x l) m = if Nat.eqb n m then (match nth_error l m with Some _ => Some x | None => None end) else nth_error l m.
Proof.
  induction l as [|y l IH]; intros n m x; [destruct n, m; cbn; try destruct (Nat.eqb _ _); reflexivity|].
  destruct n, m; cbn [update nth_error Nat.eqb]; try reflexivity. apply IH.
Qed.
Lemma interleave_nth sched n : forall ts s t, nth_error ts n = Some t ->
  exists t', nth_error (fst (interleave r sched ts s)) n = Some t' /\ whole t' = whole t.
Proof.
  induction sched as [|m sched IH]; intros ts s t E; cbn [interleave]; [eauto|].
  destruct (nth_error ts m) as [u|] eqn:Em; [|apply IH; exact E].
  pose proof (step_whole u s) as W. destruct (step_thread r u s) as [u' s'] eqn:Es. cbn [fst] in W.
  destruct (Nat.eqb m n) eqn:Emn.
  - apply Nat.eqb_eq in Emn. subst m. rewrite E in Em. injection Em as <-.
    destruct (IH (update n u' ts) s' u') as (t' & H1 & H2); [rewrite nth_update, Nat.eqb_refl, E; reflexivity|]. exists t'. split; [exact H1|congruence].
  - destruct (IH (update m u' ts) s' t) as (t' & H1 & H2); [rewrite nth_update, Emn; exact E|]. eauto.
Qed.

Fixpoint within (n : nat) (p : prog) : Prop :=
  match p, n with
  | Ret _, _ => True
  | _, O => False
  | DoRead k, S m | GetFlag k, S m | DoClose k, S m => forall b, within m (k b)
  | SetFlag _ p', S m | SetPtr _ p', S m => within m p'
  | GetPtr k, S m => forall q, within m (k q)
  | NewBitmap _ k, S m => forall q, within m (k q)
  end.
Lemma within_mono p : forall n m, (n <= m)%nat -> within n p -> within m p.
Proof.
  induction p as [a|k IH|k IH|b p IH|k IH|q p IH|b k IH|k IH]; intros n m L H; [destruct m; exact I| | | | | | |];
  (destruct n as [|n]; [destruct H|]; destruct m as [|m]; [lia|]); cbn [within] in *; first [intros x; apply (IH x n); [lia|apply H] | apply (IH n); [lia|exact H]].
Qed.
Lemma access_within n p s : within (S n) p -> within n (fst (access p s)).
Proof.
  destruct p; unfold access, alloc; cbn [within fst]; auto; destruct n; exact (fun _ => I).
Qed.
Lemma w_ret n a : within n (Ret a). Proof. destruct n; exact I. Qed.
Lemma w_read n k : (forall b, within n (k b)) -> within (S n) (DoRead k). Proof. exact (fun H => H). Qed.
Lemma w_flag n k : (forall b, within n (k b)) -> within (S n) (GetFlag k). Proof. exact (fun H => H). Qed.
Lemma w_ptr n k : (forall b, within n (k b)) -> within (S n) (GetPtr k). Proof. exact (fun H => H). Qed.
Lemma scan_within get idx : forall a, within (length idx) (scan_prog get idx a).
Proof.
  induction idx as [|i idx IH]; intros a; cbn [scan_prog length]; [apply w_ret|]. apply w_read. intros o.
  destruct (add_block a (get o i)) as [b|e|]; [apply IH|apply w_ret|apply w_ret].
Qed.
Lemma keep_within n b : (3 <= n)%nat -> within n (keep_prog b).
Proof. intros L. apply (within_mono _ 3); [exact L|]. cbn. intros p [|]; exact I. Qed.
Lemma load_within n : (5 <= n)%nat -> within n (load_prog r).
Proof.
  intros L. apply (within_mono _ 5); [exact L|]. unfold load_prog. destruct (_ || _); [apply keep_within; lia|].
  cbv zeta. apply w_read. intros o1. destruct (rbind _ _) as [n1|e|]; [|apply w_ret|apply w_ret]. apply w_read. intros o2.
  destruct (rbind _ _) as [b|e|]; [|apply w_ret|apply w_ret]. apply keep_within. lia.
Qed.
Lemma prog_within c : exists n, within n (prog_of r c).
Proof.
  destruct c as [i|opts| | | |]; cbn [prog_of].
  - exists 1%nat. cbn. auto.
  - unfold aggregate_prog. destruct (has_filter opts).
    + destruct (FilteredBlockIterator _ _ _) as [mb|e|]; [|exists O; exact I|exists O; exact I].
      destruct (_ =? 0); [exists O; exact I|]. eexists. apply scan_within.
    + destruct (_ && _); [exists O; exact I|]. eexists. apply scan_within.
  - exists 7%nat. unfold bitmap_prog. apply w_ptr. intros [q|]; [|apply load_within; lia]. apply w_flag. intros [|]; [apply w_ptr; intros; apply w_ret|apply load_within; lia].
  - exists 1%nat. exact I.
  - exists 2%nat. exact I.
  - exists 1%nat. cbn. auto.
Qed.

(** [costs todo n]: the calls [todo] take at most [n] steps. *)
Inductive costs : list op -> nat -> Prop :=
| costs_nil n : costs [] n
| costs_cons c todo k n m : within k (prog_of r c) -> costs todo n -> (k + n + 2 <= m)%nat -> costs (c :: todo) m.
Lemma costs_exist todo : exists n, costs todo n.
Proof.
  induction todo as [|c todo [n IH]]; [exists O; constructor|]. destruct (prog_within c) as [k K].
  exists (k + n + 2)%nat. econstructor; [exact K|exact IH|lia].
Qed.
Lemma costs_mono todo n m : (n <= m)%nat -> costs todo n -> costs todo m.
Proof. intros L H. inversion H; subst; [constructor|]. econstructor; eauto. lia. Qed.
Definition remains (t : thread) (m : nat) : Prop :=
  match t_now t with
  | None => costs (t_todo t) m
  | Some (_, p) => exists k n, within k p /\ costs (t_todo t) n /\ (k + n + 1 <= m)%nat
  end.
Lemma step_remains t s m : remains t (S m) -> remains (fst (step_thread r t s)) m.
Proof.
  unfold remains, step_thread. destruct (t_now t) as [[c p]|] eqn:E.
  - intros (k & n & W & C & L).
    destruct p; try (match goal with |- context[access ?p s] => pose proof (fun j => access_within j p s) as A; destruct (access p s) end;
      cbn [fst t_now t_todo] in *; destruct k as [|k]; [destruct W|]; exists k, n; repeat split; auto; lia).
    cbn [fst t_now t_todo]. eapply costs_mono; [|exact C]. lia.
  - intros C. destruct (t_todo t) as [|c todo] eqn:T; cbn [fst t_now t_todo]; [rewrite E, T; constructor|].
    inversion C as [|? ? k n ? W C' L]; subst. exists k, n. repeat split; auto. lia.
Qed.
Lemma remains_none t : remains t 0 -> calls_made t = whole t.
Proof.
  unfold remains, whole, current. destruct (t_now t) as [[c p]|].
  - intros (k & n & _ & _ & L). lia.
  - intros C. inversion C as [|? ? ? ? ? ? ? L]; [|lia]. rewrite app_nil_r. reflexivity.
Qed.
Lemma interleave_remains sched n : forall m ts s t, nth_error ts n = Some t -> remains t m -> (m <= count_occ Nat.eq_dec sched n)%nat ->
  exists t', nth_error (fst (interleave r sched ts s)) n = Some t' /\ remains t' 0.
Proof.
  induction sched as [|x sched IH]; intros m ts s t E R L; cbn [interleave count_occ] in *.
  - exists t. split; [exact E|]. destruct m; [exact R|lia].
  - destruct (nth_error ts x) as [u|] eqn:Ex.
    + destruct (step_thread r u s) as [u' s'] eqn:Es. destruct (Nat.eq_dec x n) as [->|Ne].
      * rewrite E in Ex. injection Ex as <-.
        assert (R' : remains u' (Nat.pred m)).
        { pose proof (step_remains t s (Nat.pred m)) as S. rewrite Es in S. apply S. cbn [fst].
          destruct m; [|exact R]. cbn. unfold remains in *. destruct (t_now t) as [[c p]|].
          - destruct R as (k & q & W & C & L'). exists k, q. repeat split; auto; lia.
          - eapply costs_mono; [|exact R]. lia. }
        apply (IH (Nat.pred m) _ _ u'); [rewrite nth_update, Nat.eqb_refl, E; reflexivity|exact R'|lia].
      * apply (IH m _ _ t); [rewrite nth_update; apply Nat.eqb_neq in Ne; rewrite Ne; exact E|exact R|exact L].
    + destruct (Nat.eq_dec x n) as [->|Ne]; [congruence|]. apply (IH m _ _ t); assumption.
Qed.
Theorem wait_free programs n p : nth_error programs n = Some p ->
  exists bound, forall sched, (bound <= count_occ Nat.eq_dec sched n)%nat ->
  exists t, nth_error (fst (together r programs sched)) n = Some t /\ calls_made t = p.
Proof.
  intros H. destruct (costs_exist p) as [m C]. exists m. intros sched L. unfold together.
  assert (E : nth_error (start programs) n = Some (mkThread p None [])).
  { unfold start. rewrite nth_error_map, H. reflexivity. }
  destruct (interleave_remains sched n m _ (shared_of r []) _ E C L) as (t & T1 & T2).
  destruct (interleave_nth sched n _ (shared_of r []) _ E) as (t' & T1' & W). rewrite T1 in T1'. injection T1' as <-.
  exists t. split; [exact T1|]. rewrite (remains_none _ T2), W. reflexivity.
Qed.
Theorem in_order programs sched n p : nth_error programs n = Some p ->
  exists t rest, nth_error (fst (together r programs sched)) n = Some t /\ p = calls_made t ++ rest.
Proof.
  intros H. assert (E : nth_error (start programs) n = Some (mkThread p None [])).
  { unfold start. rewrite nth_error_map, H. reflexivity. }
  destruct (interleave_nth sched n _ (shared_of r []) _ E) as (t & T & W). exists t, (current t ++ t_todo t).
  split; [exact T|]. change p with (whole (mkThread p None [])). rewrite <- W. reflexivity.
Qed.
End Progress.
