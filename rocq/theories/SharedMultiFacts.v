(** Rely-guarantee argument for goroutines that share Readers and MultiReaders. *)
From Verif Require Import Machine MachineFacts Encoding Sroar Writer Reader Aggregate Multi Shared SharedSpec SharedMulti SharedMultiSpec ArbFacts MultiFacts SharedFacts.
From Coq Require Import Lia ZifyBool.
Local Open Scope Z_scope.

Section Multi.
Context {Srr : Sroar}.
Variable rs : list reader.
Variables cl dis en : bool.

Lemma okp_close r (fin : bool -> heap -> answer -> Prop) : (forall h a, fin false h a -> fin true h a) -> forall p sn h, okp r cl dis en fin p sn false h -> okp r cl dis en fin p sn true h.
Proof.
  intros M p. induction p as [a|k IH|k IH|b p IH|k IH|q p IH|b k IH|k IH]; intros sn h H; cbn [okp] in *; auto.
  - destruct H as [_ H]. split; [discriminate|exact H].
  - destruct H as [H1 H2]. split; auto.
  - destruct q as [q|]; destruct H as [H1 H2]; split; auto.
Qed.

Definition closed (j : nat) (w : world) : Prop := exists c, nth_error (w_cells w) j = Some c /\ c_open c = false.
Definition knows (known : nat -> bool) (w : world) : Prop := forall j, known j = true -> closed j w.
Definition learn (i : nat) (oc : bool) (known : nat -> bool) : nat -> bool := fun j => if Nat.eqb j i then oc else known j.

Fixpoint okm (fin : heap -> manswer -> Prop) (p : mprog) (known : nat -> bool) (h : heap) {struct p} : Prop :=
  match p with
  | MRet a => fin h a
  | MCall i q k => exists r post, nth_error rs i = Some r /\ mono post /\ okp r cl dis en post q false (known i) h
      /\ forall oc h' a, extends h h' -> post oc h' a -> okm fin (k a) (learn i oc known) h'
  | MRead p k => exists b, nth_error h p = Some b /\ okm fin (k b) known h
  end.
Definition mmono (fin : heap -> manswer -> Prop) : Prop := forall h h' a, extends h h' -> fin h a -> fin h' a.
Lemma okm_mono fin : mmono fin -> forall p known h h', extends h h' -> okm fin p known h -> okm fin p known h'.
Proof.
  intros M p. induction p as [a|i q k IH|p k IH]; intros known h h' E H; cbn [okm] in *.
  - eapply M; eassumption.
  - destruct H as (r & post & H1 & H2 & H3 & H4). exists r, post. split; [exact H1|]. split; [exact H2|].
    split; [eapply okp_mono; eassumption|]. intros oc h2 a E2. apply H4. eapply extends_trans; eassumption.
  - destruct H as (b & H1 & H2). exists b. split; [eapply extends_nth; eassumption|]. eapply IH; eassumption.
Qed.

Definition wfine (w : world) : Prop := Forall2 (fun r c => fine r cl en (view_of c (w_heap w))) rs (w_cells w).
Definition wrely (w w' : world) : Prop :=
  extends (w_heap w) (w_heap w')
  /\ forall j c, nth_error (w_cells w) j = Some c -> exists c', nth_error (w_cells w') j = Some c'
       /\ (dis = false -> c_ptr c <> None -> c_ptr c' <> None) /\ (c_open c = false -> c_open c' = false).
Lemma wrely_refl w : wrely w w.
Proof. split; [apply extends_refl|]. intros j c H. exists c. auto. Qed.
Lemma knows_rely known w w' : wrely w w' -> knows known w -> knows known w'.
Proof. intros [_ R] K j Hj. destruct (K j Hj) as (c & H1 & H2). destruct (R j c H1) as (c' & H3 & _ & H4). exists c'. auto. Qed.

Definition linkm (fin : heap -> manswer -> Prop) (p : mprog) (w : world) : Prop :=
  match p with
  | MCall i q k => exists r post c known, nth_error rs i = Some r /\ nth_error (w_cells w) i = Some c /\ mono post
      /\ linked r cl dis en post q (view_of c (w_heap w)) /\ knows known w
      /\ forall oc h' a, extends (w_heap w) h' -> post oc h' a -> okm fin (k a) (learn i oc known) h'
  | _ => exists known, knows known w /\ okm fin p known (w_heap w)
  end.
Lemma linkm_rely fin p w w' : mmono fin -> wrely w w' -> linkm fin p w -> linkm fin p w'.
Proof.
  intros M R L. destruct p as [a|i q k|p k]; cbn [linkm] in *.
  - destruct L as (known & K & L). exists known. split; [eapply knows_rely; eassumption|]. eapply okm_mono; [exact M|apply R|exact L].
  - destruct L as (r & post & c & known & H1 & H2 & H3 & H4 & H5 & H6). destruct R as [R1 R2].
    destruct (R2 i c H2) as (c' & H7 & H8 & H9). exists r, post, c', known. split; [exact H1|]. split; [exact H7|]. split; [exact H3|].
    split; [eapply linked_rely; [exact H3| |exact H4]; split; [exact R1|split; [exact H8|exact H9]]|].
    split; [eapply knows_rely; [split; eassumption|exact H5]|]. intros oc h' a E. apply H6. eapply extends_trans; eassumption.
  - destruct L as (known & K & L). exists known. split; [eapply knows_rely; eassumption|]. eapply okm_mono; [exact M|apply R|exact L].
Qed.
Lemma wfine_nth w i r : wfine w -> nth_error rs i = Some r -> exists c, nth_error (w_cells w) i = Some c /\ fine r cl en (view_of c (w_heap w)).
Proof.
  unfold wfine. intros F. revert i. induction F as [|r' c l l' H _ IH]; intros [|i] E; cbn in *; try discriminate; [injection E as <-; eauto|apply IH; exact E].
Qed.
Lemma okm_link fin p known w : wfine w -> knows known w -> okm fin p known (w_heap w) -> linkm fin p w.
Proof.
  intros F K O. destruct p as [a|i q k|p k]; cbn [linkm]; [eauto| |eauto]. cbn [okm] in O. destruct O as (r & post & H1 & H2 & H3 & H4).
  destruct (wfine_nth w i r F H1) as (c & H5 & _). exists r, post, c, known. split; [exact H1|]. split; [exact H5|]. split; [exact H2|].
  split; [|split; [exact K|exact H4]]. exists false, (known i). split; [exact H3|]. split; [discriminate|]. intros E.
  destruct (K i E) as (c' & H6 & H7). rewrite H5 in H6. injection H6 as <-. exact H7.
Qed.
Lemma wfine_update i s h' : forall rs' cells, Forall2 (fun r c => fine r cl en (view_of c h')) rs' cells ->
  (forall r, nth_error rs' i = Some r -> fine r cl en s) -> s_heap s = h' ->
  Forall2 (fun r c => fine r cl en (view_of c h')) rs' (update i (cell_of s) cells).
Proof.
  intros rs' cells F. revert i. induction F as [|r c l l' H F IH]; intros i Hi E; [destruct i; constructor|]. destruct i as [|i]; cbn [update].
  - constructor; [|exact F]. specialize (Hi r eq_refl). destruct s; cbn in *. subst. exact Hi.
  - constructor; [exact H|]. apply IH; [intros r' Hr; apply Hi; exact Hr|exact E].
Qed.
Lemma view_id s : view_of (cell_of s) (s_heap s) = s. Proof. destruct s; reflexivity. Qed.

Lemma maccess_linked fin p w : mmono fin -> wfine w -> linkm fin p w ->
  let '(p', w') := maccess p w in wfine w' /\ wrely w w' /\ linkm fin p' w'.
Proof.
  intros M F L. destruct p as [a|i q k|p k]; cbn [maccess].
  - split; [exact F|]. split; [apply wrely_refl|exact L].
  - cbn [linkm] in L. destruct L as (r & post & c & known & H1 & H2 & H3 & H4 & H5 & H6).
    assert (ST : forall q', q = q' -> (forall a, q' <> Ret a) ->
      let '(p', w') := (let '(q'', s) := access q' (view_of c (w_heap w)) in (MCall i q'' k, mkWorld (update i (cell_of s) (w_cells w)) (s_heap s))) in
      wfine w' /\ wrely w w' /\ linkm fin p' w').
    { intros q' <- _. destruct (wfine_nth w i r F H1) as (c' & H7 & H8). rewrite H2 in H7. injection H7 as <-.
      pose proof (access_linked r cl dis en post q (view_of c (w_heap w)) H8 H4) as A. destruct (access q (view_of c (w_heap w))) as [q'' s'].
      destruct A as (A1 & A2 & A3). destruct A2 as (A2 & A4 & A5). cbn [view_of s_heap s_ptr s_open] in A2, A4, A5.
      assert (R : wrely w (mkWorld (update i (cell_of s') (w_cells w)) (s_heap s'))).
      { split; [exact A2|]. cbn [w_cells]. intros j d Hj. rewrite nth_update. destruct (Nat.eqb_spec i j) as [->|_].
        - rewrite Hj. rewrite H2 in Hj. injection Hj as <-. exists (cell_of s'). split; [reflexivity|]. split; assumption.
        - exists d. auto. }
      split; [|split; [exact R|]].
      - unfold wfine. cbn [w_heap w_cells]. apply wfine_update; [|intros r' Hr; rewrite H1 in Hr; injection Hr as <-; exact A1|reflexivity].
        unfold wfine in F. clear - F A2. induction F as [|r0 c0 l l' H _ IH]; constructor; [|exact IH].
        destruct H as (V & O & N). split; [|split; [exact O|exact N]]. eapply valid_mono; [exact A2|exact V].
      - cbn [linkm w_cells w_heap]. exists r, post, (cell_of s'), known. split; [exact H1|]. split; [rewrite nth_update, Nat.eqb_refl, H2; reflexivity|].
        split; [exact H3|]. split; [rewrite view_id; exact A3|]. split; [eapply knows_rely; eassumption|].
        intros oc h' a E. apply H6. eapply extends_trans; eassumption. }
    destruct q as [a|k'|k'|b p|k'|q p|b k'|k']; try (rewrite H2; apply (ST _ eq_refl); discriminate).
    split; [exact F|]. split; [apply wrely_refl|]. destruct H4 as (sn & oc & O1 & _ & O3). cbn [okp view_of s_heap s_open] in O1, O3.
    apply (okm_link fin _ (learn i oc known)); [exact F| |apply H6; [apply extends_refl|exact O1]].
    intros j Hj. unfold learn in Hj. destruct (Nat.eqb j i) eqn:Eji; [apply Nat.eqb_eq in Eji; rewrite Eji; exists c; auto|apply H5; exact Hj].
  - cbn [linkm okm] in L. destruct L as (known & K & b & H1 & H2). rewrite H1. split; [exact F|]. split; [apply wrely_refl|].
    eapply okm_link; eassumption.
Qed.

Variable fin : mop -> heap -> manswer -> Prop.
Hypothesis fin_mono : forall c, mmono (fin c).
Definition mmay (c : mop) : Prop := (closes c -> cl = true) /\ (disables c -> dis = true) /\ (enables c -> en = true).
Hypothesis mbegin_ok : forall c, mmay c -> forall h, okm (fin c) (mprog_of rs c) (fun _ => false) h.

Definition good_mthread (w : world) (t : mthread) : Prop :=
  Forall mmay (m_todo t)
  /\ (forall c p, m_now t = Some (c, p) -> linkm (fin c) p w)
  /\ Forall (fun '(c, a) => fin c (w_heap w) a) (m_log t).
Lemma mgood_rely w w' t : wrely w w' -> good_mthread w t -> good_mthread w' t.
Proof.
  intros R (G1 & G2 & G3). split; [exact G1|]. split.
  - intros c p E. eapply linkm_rely; [apply fin_mono|exact R|]. apply G2. exact E.
  - eapply Forall_impl; [|exact G3]. intros [c a] H. eapply fin_mono; [apply R|exact H].
Qed.
Lemma mstep_good t w : wfine w -> good_mthread w t ->
  let '(t', w') := mstep rs t w in wfine w' /\ wrely w w' /\ good_mthread w' t'.
Proof.
  intros F (G1 & G2 & G3). unfold mstep. destruct (m_now t) as [[c p]|] eqn:E.
  - specialize (G2 c p eq_refl).
    assert (ST : let '(p', w') := maccess p w in
      wfine w' /\ wrely w w' /\ good_mthread w' (mkMThread (m_todo t) (Some (c, p')) (m_log t))).
    { pose proof (maccess_linked (fin c) p w (fin_mono c) F G2) as A. destruct (maccess p w) as [p' w']. destruct A as (A1 & A2 & A3).
      split; [exact A1|]. split; [exact A2|]. split; [exact G1|]. split; [intros c' p'' X; cbn [m_now] in X; injection X as <- <-; exact A3|].
      cbn [m_log]. eapply Forall_impl; [|exact G3]. intros [c' a'] H. eapply fin_mono; [apply A2|exact H]. }
    destruct p as [a|i q k|p k]; [|destruct (maccess (MCall i q k) w); exact ST|destruct (maccess (MRead p k) w); exact ST].
    split; [exact F|]. split; [apply wrely_refl|]. split; [exact G1|]. split; [discriminate|]. cbn [m_log].
    apply Forall_app. split; [exact G3|]. constructor; [|constructor]. destruct G2 as (known & _ & H). exact H.
  - destruct (m_todo t) as [|c todo] eqn:T.
    + split; [exact F|]. split; [apply wrely_refl|]. split; [rewrite T; constructor|]. rewrite E. split; [discriminate|exact G3].
    + inversion G1 as [|? ? M1 M2]; subst. split; [exact F|]. split; [apply wrely_refl|]. split; [exact M2|]. cbn [m_now m_log]. split; [|exact G3].
      intros c' p' X. injection X as <- <-. apply (okm_link _ _ (fun _ => false)); [exact F|discriminate|]. apply mbegin_ok. exact M1.
Qed.
Lemma minterleave_good sched : forall ts w, wfine w -> Forall (good_mthread w) ts ->
  let '(ts', w') := minterleave rs sched ts w in wfine w' /\ Forall (good_mthread w') ts'.
Proof.
  induction sched as [|n sched IH]; intros ts w F G; cbn [minterleave]; [auto|].
  destruct (nth_error ts n) as [t|] eqn:E; [|apply IH; assumption].
  assert (Gt : good_mthread w t) by (rewrite Forall_forall in G; apply G; eapply nth_error_In; exact E).
  pose proof (mstep_good t w F Gt) as S. destruct (mstep rs t w) as [t' w']. destruct S as (S1 & S2 & S3).
  apply IH; [exact S1|]. apply update_Forall; [|exact S3]. eapply Forall_impl; [|exact G]. intros u. apply mgood_rely. exact S2.
Qed.
Lemma all_together_good programs sched : Forall (fun r => r_open r = true) rs -> Forall fresh rs -> Forall mmay (concat programs) ->
  let '(ts, w) := all_together rs programs sched in
  Forall (fun t => Forall (fun '(c, a) => fin c (w_heap w) a) (m_log t)) ts.
Proof.
  intros Ho Hf Hm. unfold all_together.
  assert (F : wfine (world_of rs)).
  { unfold wfine, world_of. cbn [w_heap w_cells]. clear - Ho Hf. induction rs as [|r l IH]; cbn [map]; [constructor|].
    inversion Ho; subst. inversion Hf as [|? ? [F1 F2] F3]; subst. constructor; [|apply IH; assumption].
    split; cbn; [rewrite F1; exact I|split; [auto|rewrite F2; discriminate]]. }
  assert (G : Forall (good_mthread (world_of rs)) (mstart programs)).
  { unfold mstart. clear - Hm. induction programs as [|p ps IH]; cbn in *; [constructor|]. apply Forall_app in Hm. destruct Hm as [H1 H2].
    constructor; [|apply IH; exact H2]. split; [exact H1|]. split; [discriminate|constructor]. }
  pose proof (minterleave_good sched _ _ F G) as I1. destruct (minterleave rs sched _ _) as [ts w]. destruct I1 as [_ I1].
  eapply Forall_impl; [|exact I1]. intros t (_ & _ & L). exact L.
Qed.
End Multi.

(** ** The calls *)
Section Calls.
Context {Srr : Sroar}.
Variable rs : list reader.
Hypothesis rs_open : Forall (fun r => r_open r = true) rs.
Hypothesis rs_fresh : Forall fresh rs.
Variables cl dis en : bool.

Fixpoint multi_pure (opts : multiOptions) (order : list reader) (deny : bm) (result : aggResult) : res aggResult :=
  match order with
  | [] => Ok result
  | r :: older =>
      match aggregateSequential r (mkOpts (mo_skip opts) (mo_filter opts) (Some deny) 0) with
      | Ok one =>
          match loadGlobalIDBitmap r with
          | Ok b => multi_pure opts older (bm_or deny b) (if a_count result =? 0 then one else mergeAggregateResults result one)
          | Err e => Err e
          | Panic => Panic
          end
      | Err e => Err e
      | Panic => Panic
      end
  end.
Lemma loop_pure opts : forall order deny result h, Forall fresh order -> fst (fst (multiLoop opts order deny result h)) = multi_pure opts order deny result.
Proof using.
  induction order as [|r order IH]; intros deny result h HF; cbn [multiLoop multi_pure]; [reflexivity|]. inversion HF as [|? ? [F1 F2] HF']; subst.
  destruct (aggregateSequential r _) as [one|e|]; [|reflexivity|reflexivity]. unfold GetGlobalIDBitmap. rewrite F1.
  destruct (loadGlobalIDBitmap r) as [b|e|]; [|reflexivity|reflexivity]. cbn [alloc]. rewrite nth_error_app2, Nat.sub_diag by lia. cbn [nth_error].
  specialize (IH (bm_or deny b) (if a_count result =? 0 then one else mergeAggregateResults result one) (h ++ [b]) HF').
  destruct (multiLoop opts order _ _ _) as [[x y] z]. exact IH.
Qed.
Lemma multi_is_pure opts order : Forall fresh order -> fst (fst (MultiAggregate opts order [])) = multi_pure opts (rev order) bm_new zeroResult.
Proof using.
  intros HF. unfold MultiAggregate. destruct (zlen order =? 0) eqn:E.
  - apply Z.eqb_eq in E. apply zlen_zero in E. subst. reflexivity.
  - pose proof (loop_pure opts (rev order) bm_new zeroResult [] (Forall_rev HF)) as L. destruct (multiLoop opts (rev order) _ _ _) as [[x y] z]. exact L.
Qed.
Lemma numbered_readers which : map snd (numbered rs which) = chosen_readers rs which.
Proof using. unfold numbered, chosen_readers. induction which as [|i l IH]; [reflexivity|]. cbn [flat_map]. rewrite map_app, IH. destruct (nth_error rs i); reflexivity. Qed.
Definition named (x : nat * reader) : Prop := nth_error rs (fst x) = Some (snd x).
Lemma numbered_named which : Forall named (numbered rs which).
Proof using.
  unfold numbered. induction which as [|i l IH]; cbn [flat_map]; [constructor|]. apply Forall_app. split; [|exact IH].
  destruct (nth_error rs i) eqn:E; [|constructor]. constructor; [exact E|constructor].
Qed.
Lemma named_open x : named x -> r_open (snd x) = true.
Proof using rs_open. intros H. rewrite Forall_forall in rs_open. apply rs_open. eapply nth_error_In. exact H. Qed.
Lemma chosen_fresh which : Forall fresh (chosen_readers rs which).
Proof using rs_fresh.
  rewrite <- numbered_readers. apply Forall_forall. intros r Hr. apply in_map_iff in Hr. destruct Hr as (x & <- & Hx).
  pose proof (numbered_named which) as N. rewrite Forall_forall in N, rs_fresh. apply rs_fresh. eapply nth_error_In. apply N. exact Hx.
Qed.

Lemma outcome_close r c h a : outcome_of r cl dis c false h a -> outcome_of r cl dis c true h a.
Proof using. intros [H|[(_ & H & _)|H]]; [left; exact H|discriminate|right; right; exact H]. Qed.
Lemma begin_any r c known h : r_open r = true -> (c = OClose -> cl = true) -> (c = ODisable -> dis = true) -> (c = OEnable -> en = true) ->
  okp r cl dis en (outcome_of r cl dis c) (prog_of r c) false known h.
Proof using.
  intros Ho H1 H2 H3. destruct known; [|apply begin_ok; assumption]. apply okp_close; [apply outcome_close|]. apply begin_ok; assumption.
Qed.
Lemma after_not_err r opts n e : after_blocks r opts n <> Err e.
Proof using.
  unfold after_blocks. destruct (has_filter opts); destruct (scan _ _ _) as [x|x|] eqn:E; cbn; try discriminate; destruct (scan_not_err _ _ _ _ E).
Qed.
Lemma after_panic r opts n : has_filter opts = true -> after_blocks r opts n = Panic -> aggregateSequential r opts = Panic.
Proof using.
  intros Hf. unfold after_blocks, aggregateSequential, aggregateWithFilter. rewrite Hf. intros H.
  set (get := fun i => readBlockFiltered r (i64 i) (o_filter opts) (o_deny opts)) in *.
  assert (S : scan get (matchingBlocks r (o_filter opts) (o_deny opts)) acc0 = Panic).
  { rewrite <- (firstn_skipn n (matchingBlocks r (o_filter opts) (o_deny opts))). rewrite scan_app.
    destruct (scan get (firstn n _) acc0) as [x|x|]; [discriminate|discriminate|reflexivity]. }
  unfold FilteredBlockIterator. destruct (o_filter opts) as [f|] eqn:Ef.
  - cbn [rbind]. destruct (zlen _ =? 0) eqn:E0; [|rewrite S; reflexivity]. apply Z.eqb_eq in E0. apply zlen_zero in E0. rewrite E0 in S. discriminate.
  - destruct (make_panics _ _); [reflexivity|]. cbn [rbind]. destruct (zlen _ =? 0) eqn:E0; [|rewrite S; reflexivity].
    apply Z.eqb_eq in E0. apply zlen_zero in E0. rewrite E0 in S. discriminate.
Qed.
Definition no_bitmap_read (oc : bool) (h : heap) (a : answer) : Prop := exists e, a = ABitmap (Err e).
Lemma closed_bitmap r sn h : en = false -> has_bitmap r -> okp r cl dis en no_bitmap_read (bitmap_prog r) sn true h.
Proof using.
  intros He [B1 B2]. unfold bitmap_prog. cbn [okp]. intros h' q E V _. destruct q as [q|]; [destruct V as [V _]; congruence|]. unfold load_prog.
  replace ((h_bitmapOffset (r_header r) =? 0) || (h_bitmapSize (r_header r) =? 0)) with false.
  2: { symmetry. apply orb_false_iff. split; apply Z.eqb_neq; assumption. }
  cbn [okp]. split; [discriminate|]. intros _.
  assert (X : exists e, readBytesAt (r_data r) false (i64 (h_bitmapOffset (r_header r))) 4 = Err e).
  { unfold readBytesAt. cbn [Z.ltb Z.compare Z.eqb negb]. destruct (_ <? 0); eauto. }
  destruct X as [e ->]. cbn [rbind okp]. exists e. reflexivity.
Qed.

Lemma multi_any (fin : heap -> manswer -> Prop) opts : (forall h a, fin h (MResult a)) -> forall order deny result known h, Forall named order ->
  okm rs cl dis en fin (multi_prog opts order deny result) known h.
Proof using rs_open.
  intros A. induction order as [|[i r] order IH]; intros deny result known h N; cbn [multi_prog okm]; [apply A|].
  inversion N as [|? ? N1 N2]; subst. pose proof (named_open _ N1) as Ho. cbn [snd] in Ho.
  exists r, (outcome_of r cl dis (OAggregate (mkOpts (mo_skip opts) (mo_filter opts) (Some deny) 0))).
  split; [exact N1|]. split; [apply outcome_mono|]. split; [apply (begin_any r (OAggregate _)); [exact Ho|discriminate|discriminate|discriminate]|].
  intros oc h' a E _. destruct a as [x|[one|e|]|x| |x]; cbn [okm]; try apply A.
  exists r, (outcome_of r cl dis OGetGlobalIDBitmap). split; [exact N1|]. split; [apply outcome_mono|].
  split; [apply (begin_any r OGetGlobalIDBitmap); [exact Ho|discriminate|discriminate|discriminate]|].
  intros oc2 h2 a2 E2 P2. destruct a2 as [x|x|[[p|]|e|]| |x]; cbn [okm]; try apply A.
  assert (X : exists b, nth_error h2 p = Some b).
  { destruct P2 as [P2|[(_ & _ & e & P2)|(_ & _ & P2)]]; [|discriminate|discriminate]. cbn [right_answer] in P2.
    destruct (loadGlobalIDBitmap r) as [b|e|]; [|discriminate|discriminate]. destruct P2 as (p' & P3 & P4). injection P3 as <-. eauto. }
  destruct X as [b X]. exists b. split; [exact X|]. apply IH. exact N2.
Qed.
Lemma multi_main (fin : heap -> manswer -> Prop) opts : dis = false -> (forall h e, cl = true -> fin h (MResult (Err e))) ->
  forall order deny result known h, Forall named order -> (cl = true -> en = false /\ Forall has_bitmap (map snd order)) ->
  (forall h, fin h (MResult (multi_pure opts (map snd order) deny result))) ->
  okm rs cl dis en fin (multi_prog opts order deny result) known h.
Proof using rs_open.
  intros Hd Ae. induction order as [|[i r] order IH]; intros deny result known h N S full; cbn [multi_prog okm map snd multi_pure] in *; [apply full|].
  apply Forall_cons_iff in N; destruct N as [N1 N2]. pose proof (named_open _ N1) as Ho. cbn [snd] in Ho.
  assert (S1 : cl = true -> en = false /\ has_bitmap r) by (intros C; destruct (S C) as [S1 S2]; inversion S2; auto).
  assert (S2 : cl = true -> en = false /\ Forall has_bitmap (map snd order)) by (intros C; destruct (S C) as [S2 S3]; inversion S3; auto).
  set (ro := mkOpts (mo_skip opts) (mo_filter opts) (Some deny) 0) in *.
  exists r, (outcome_of r cl dis (OAggregate ro)).
  split; [exact N1|]. split; [apply outcome_mono|]. split; [apply (begin_any r (OAggregate _)); [exact Ho|discriminate|discriminate|discriminate]|].
  assert (PB : forall oc h', okp r cl dis en (outcome_of r cl dis OGetGlobalIDBitmap) (bitmap_prog r) false oc h')
    by (intros oc h'; apply (begin_any r OGetGlobalIDBitmap); [exact Ho|discriminate|discriminate|discriminate]).
  intros oc h' a E [P|[(C & -> & n & P)|(D & _)]]; [| |congruence].
  - cbn [right_answer] in P. subst a. destruct (aggregateSequential r ro) as [one|e|]; cbn [okm]; [|apply full|apply full].
    exists r, (outcome_of r cl dis OGetGlobalIDBitmap). split; [exact N1|]. split; [apply outcome_mono|]. split; [apply PB|].
    intros oc2 h2 a2 E2 [P2|[(C & _ & e & P2)|(D & _)]]; [| |congruence].
    + cbn [right_answer] in P2. destruct (loadGlobalIDBitmap r) as [b|e|]; [destruct P2 as (p & -> & P2)|subst a2; apply full|subst a2; apply full].
      cbn [okm]. exists b. split; [exact P2|]. apply IH; assumption.
    + subst a2. cbn [okm]. apply Ae. exact C.
  - subst a. destruct (S1 C) as [Hen Hbm]. destruct (after_blocks r ro n) as [one|e|] eqn:Ea; cbn [okm].
    + exists r, no_bitmap_read. split; [exact N1|]. split; [intros ? ? ? ? _ X; exact X|]. split; [unfold learn; rewrite Nat.eqb_refl; apply closed_bitmap; assumption|].
      intros oc2 h2 a2 E2 [e ->]. cbn [okm]. apply Ae. exact C.
    + destruct (after_not_err _ _ _ _ Ea).
    + apply after_panic in Ea; [|unfold ro, has_filter; cbn; destruct (mo_filter opts); reflexivity]. specialize (full h'). rewrite Ea in full. exact full.
Qed.
Lemma close_ok (fin : heap -> manswer -> Prop) : cl = true -> (forall h e, fin h (MClosed e)) -> forall order e known h, Forall named order -> okm rs cl dis en fin (close_prog order e) known h.
Proof using rs_open.
  intros C A. induction order as [|[i r] order IH]; intros e known h N; cbn [close_prog okm]; [apply A|]. apply Forall_cons_iff in N; destruct N as [N1 N2].
  pose proof (named_open _ N1) as Ho. cbn [snd] in Ho.
  exists r, (outcome_of r cl dis OClose). split; [exact N1|]. split; [apply outcome_mono|].
  split; [apply (begin_any r OClose); [exact Ho|auto|discriminate|discriminate]|]. intros oc h' a E _. apply IH. exact N2.
Qed.

(** What may happen to a call instead of the right answer. *)
Definition disturbed (c : mop) (a : manswer) : Prop :=
  match c with
  | OnReader i c' => exists r x, nth_error rs i = Some r /\ a = OneAnswer x
      /\ (cl = true /\ cut_short r c' x \/ dis = true /\ c' = OGetGlobalIDBitmap /\ x = ABitmap (Ok None))
  | MAggregate which _ => exists x, a = MResult x
      /\ (dis = true \/ cl = true /\ (en = false -> Forall has_bitmap (chosen_readers rs which) -> exists e, x = Err e))
  | MCloseAll _ => False
  end.
Definition moutcome (c : mop) (h : heap) (a : manswer) : Prop := right_manswer rs h c a \/ disturbed c a.
Lemma moutcome_mono c : mmono (moutcome c).
Proof using.
  intros h h' a E [H|H]; [left|right; exact H]. destruct c as [i c|which opts|which]; cbn [right_manswer] in *; auto.
  destruct (nth_error rs i) as [r|]; [|exact I]. destruct H as (x & -> & H). exists x. split; [reflexivity|].
  apply (right_mono r c false h h' x E). exact H.
Qed.
Lemma mbegin_ok c : mmay cl dis en c -> forall h, okm rs cl dis en (moutcome c) (mprog_of rs c) (fun _ => false) h.
Proof using rs_open rs_fresh.
  intros (M1 & M2 & M3) h. destruct c as [i c|which opts|which]; cbn [mprog_of].
  - destruct (nth_error rs i) as [r|] eqn:E; cbn [okm].
    + exists r, (outcome_of r cl dis c). split; [exact E|]. split; [apply outcome_mono|]. pose proof (named_open (i, r) E) as Ho. cbn [snd] in Ho.
      split; [apply begin_any; [exact Ho| | |]; intros ->; [apply M1|apply M2|apply M3]; exact I|].
      intros oc h' a _ P. cbn [okm]. destruct P as [P|[(C & _ & P)|(D & P)]].
      * left. cbn [right_manswer]. rewrite E. eauto.
      * right. exists r, a. split; [exact E|]. split; [reflexivity|]. left. auto.
      * right. exists r, a. split; [exact E|]. split; [reflexivity|]. right. auto.
    + left. cbn [right_manswer]. rewrite E. exact I.
  - assert (N : Forall named (rev (numbered rs which))) by (apply Forall_rev, numbered_named).
    assert (TOT : dis = true \/ (cl = true /\ ~ (en = false /\ Forall has_bitmap (chosen_readers rs which))) -> forall h a, moutcome (MAggregate which opts) h (MResult a)).
    { intros H h' a. right. exists a. split; [reflexivity|]. destruct H as [H|[H1 H2]]; [left; exact H|right]. split; [exact H1|]. intros H3 H4. destruct H2. auto. }
    destruct (bool_dec dis true) as [Ed|Ed]; [apply multi_any; [apply TOT; left; exact Ed|exact N]|]. apply not_true_is_false in Ed.
    assert (DEC : {en = false /\ Forall has_bitmap (chosen_readers rs which)} + {~ (en = false /\ Forall has_bitmap (chosen_readers rs which))}).
    { destruct (bool_dec en false) as [H|H]; [|right; intros [X _]; contradiction].
      destruct (Forall_dec has_bitmap) with (l := chosen_readers rs which) as [H2|H2]; [|left; auto|right; intros [_ X]; contradiction].
      intros r. unfold has_bitmap. destruct (Z.eq_dec (h_bitmapOffset (r_header r)) 0), (Z.eq_dec (h_bitmapSize (r_header r)) 0);
        solve [left; split; assumption | right; intros [X Y]; contradiction]. }
    destruct (bool_dec cl true) as [Ec|Ec].
    + destruct DEC as [[D1 D2]|D]; [|apply multi_any; [apply TOT; right; auto|exact N]].
      apply multi_main; [exact Ed| |exact N| |].
      * intros h' e C. right. exists (Err e). split; [reflexivity|]. right. split; [exact C|]. eauto.
      * intros _. split; [exact D1|]. rewrite map_rev, numbered_readers. apply Forall_rev. exact D2.
      * intros h'. left. cbn [right_manswer]. rewrite (multi_is_pure opts _ (chosen_fresh which)), map_rev, numbered_readers. reflexivity.
    + apply multi_main; [exact Ed|intros h' e C; contradiction|exact N|intros C; contradiction|].
      intros h'. left. cbn [right_manswer]. rewrite (multi_is_pure opts _ (chosen_fresh which)), map_rev, numbered_readers. reflexivity.
  - apply close_ok; [apply M1; exact I|intros h' e; left; cbn; eauto|apply numbered_named].
Qed.
Theorem all_answers programs sched : Forall (mmay cl dis en) (concat programs) ->
  let '(ts, w) := all_together rs programs sched in
  Forall (fun t => Forall (fun '(c, a) => moutcome c (w_heap w) a) (m_log t)) ts.
Proof using rs_open rs_fresh. intros H. apply (all_together_good rs cl dis en moutcome moutcome_mono mbegin_ok); assumption. Qed.
End Calls.

(** ** Order and progress *)
Section Progress.
Context {Srr : Sroar}.
Variable rs : list reader.

Definition mcurrent (t : mthread) : list mop := match m_now t with Some (c, _) => [c] | None => [] end.
Definition mwhole (t : mthread) : list mop := map fst (m_log t) ++ mcurrent t ++ m_todo t.
Lemma mstep_whole t w : mwhole (fst (mstep rs t w)) = mwhole t.
Proof.
  unfold mstep, mwhole, mcurrent. destruct (m_now t) as [[c p]|] eqn:E.
  - destruct p; try (match goal with |- context[maccess ?p w] => destruct (maccess p w) end; cbn [fst m_now m_log m_todo]; reflexivity).
    cbn [fst m_now m_log m_todo]. rewrite map_app, <- app_assoc. reflexivity.
  - destruct (m_todo t) eqn:T; cbn [fst m_now m_log m_todo]; [rewrite E, T; reflexivity|reflexivity].
Qed.
Lemma minterleave_nth sched n : forall ts w t, nth_error ts n = Some t ->
  exists t', nth_error (fst (minterleave rs sched ts w)) n = Some t' /\ mwhole t' = mwhole t.
Proof.
  induction sched as [|m sched IH]; intros ts w t E; cbn [minterleave]; [eauto|].
  destruct (nth_error ts m) as [u|] eqn:Em; [|apply IH; exact E].
  pose proof (mstep_whole u w) as W. destruct (mstep rs u w) as [u' w'] eqn:Es. cbn [fst] in W.
  destruct (Nat.eqb m n) eqn:Emn.
  - apply Nat.eqb_eq in Emn. subst m. rewrite E in Em. injection Em as <-.
    destruct (IH (update n u' ts) w' u') as (t' & H1 & H2); [rewrite nth_update, Nat.eqb_refl, E; reflexivity|]. exists t'. split; [exact H1|congruence].
  - destruct (IH (update m u' ts) w' t) as (t' & H1 & H2); [rewrite nth_update, Emn; exact E|]. eauto.
Qed.

Fixpoint mwithin (n : nat) (p : mprog) {struct p} : Prop :=
  match p with
  | MRet _ => True
  | MCall i q k => exists n1 n2, within n1 q /\ (n1 + n2 + 1 <= n)%nat /\ forall a, mwithin n2 (k a)
  | MRead p k => exists n2, (n2 + 1 <= n)%nat /\ forall b, mwithin n2 (k b)
  end.
Lemma mwithin_mono p n m : (n <= m)%nat -> mwithin n p -> mwithin m p.
Proof.
  intros L. destruct p as [a|i q k|p k]; cbn [mwithin]; [auto| |].
  - intros (n1 & n2 & H1 & H2 & H3). exists n1, n2. repeat split; auto. lia.
  - intros (n2 & H2 & H3). exists n2. split; [lia|exact H3].
Qed.
Lemma maccess_within n p w : mwithin (S n) p -> mwithin n (fst (maccess p w)).
Proof.
  destruct p as [a|i q k|p k]; cbn [maccess].
  - auto.
  - cbn [mwithin]. intros (n1 & n2 & H1 & H2 & H3).
    assert (ST : (forall a, q <> Ret a) -> mwithin n (fst (match nth_error (w_cells w) i with
        | Some c => let '(q', s) := access q (view_of c (w_heap w)) in (MCall i q' k, mkWorld (update i (cell_of s) (w_cells w)) (s_heap s))
        | None => (MRet (MResult Panic), w) end))).
    { intros NR. destruct (nth_error (w_cells w) i) as [c|]; [|exact I]. pose proof (fun j => access_within j q (view_of c (w_heap w))) as A.
      destruct (access q (view_of c (w_heap w))) as [q' s]. cbn [fst mwithin] in *. destruct n1 as [|n1].
      - destruct q; try (destruct H1; fail). destruct (NR _ eq_refl).
      - exists n1, n2. split; [apply A; exact H1|]. split; [lia|exact H3]. }
    destruct q; try (apply ST; discriminate). cbn [fst]. eapply mwithin_mono; [|apply H3]. lia.
  - cbn [mwithin]. intros (n2 & H2 & H3). destruct (nth_error (w_heap w) p); cbn [fst]; [|exact I]. eapply mwithin_mono; [|apply H3]. lia.
Qed.
Lemma multi_within opts : forall order, exists n, forall deny result, mwithin n (multi_prog opts order deny result).
Proof.
  induction order as [|[i r] order [n IH]]; [exists 0%nat; intros; exact I|].
  assert (A : exists m, forall deny, within m (aggregate_prog r (mkOpts (mo_skip opts) (mo_filter opts) (Some deny) 0))).
  { exists (length (matchingBlocks r (mo_filter opts) None)). intros deny. unfold aggregate_prog.
    replace (has_filter (mkOpts (mo_skip opts) (mo_filter opts) (Some deny) 0)) with true by (unfold has_filter; cbn; destruct (mo_filter opts); reflexivity).
    cbn [o_filter o_deny].
    destruct (FilteredBlockIterator r (mo_filter opts) (Some deny)) as [mb|e|] eqn:E; [|apply w_ret|apply w_ret].
    destruct (zlen mb =? 0); [apply w_ret|].
    assert (L : length (matchingBlocks r (mo_filter opts) None) = length mb).
    { unfold FilteredBlockIterator in E. destruct (mo_filter opts); [|destruct (make_panics _ _) in E; [discriminate|]]; injection E as <-; reflexivity. }
    rewrite L. apply scan_within. }
  destruct A as [m A]. destruct (prog_within r OGetGlobalIDBitmap) as [b B]. cbn [prog_of] in B.
  exists (m + (b + (n + 1) + 1) + 1)%nat. intros deny result. cbn [multi_prog mwithin].
  exists m, (b + (n + 1) + 1)%nat. split; [apply A|]. split; [lia|]. intros a. destruct a as [x|[one|e|]|x| |x]; try exact I. cbn [mwithin].
  exists b, (n + 1)%nat. split; [exact B|]. split; [lia|]. intros a. destruct a as [x|x|[[p|]|e|]| |x]; try exact I. cbn [mwithin].
  exists n. split; [lia|]. intros g. apply IH.
Qed.
Lemma close_within : forall order, exists n, forall e, mwithin n (close_prog order e).
Proof.
  induction order as [|[i r] order [n IH]]; [exists 0%nat; intros; exact I|]. exists (1 + n + 1)%nat. intros e. cbn [close_prog mwithin].
  exists 1%nat, n. split; [intros b; exact I|]. split; [lia|]. intros a. apply IH.
Qed.
Lemma mprog_within c : exists n, mwithin n (mprog_of rs c).
Proof.
  destruct c as [i c|which opts|which]; cbn [mprog_of].
  - destruct (nth_error rs i) as [r|]; [|exists 0%nat; exact I]. destruct (prog_within r c) as [n H]. exists (n + 0 + 1)%nat. exists n, 0%nat.
    split; [exact H|]. split; [lia|]. intros a. exact I.
  - destruct (multi_within opts (rev (numbered rs which))) as [n H]. exists n. apply H.
  - destruct (close_within (numbered rs which)) as [n H]. exists n. apply H.
Qed.

Inductive mcosts : list mop -> nat -> Prop :=
| mcosts_nil n : mcosts [] n
| mcosts_cons c todo k n m : mwithin k (mprog_of rs c) -> mcosts todo n -> (k + n + 2 <= m)%nat -> mcosts (c :: todo) m.
Lemma mcosts_exist todo : exists n, mcosts todo n.
Proof.
  induction todo as [|c todo [n IH]]; [exists O; constructor|]. destruct (mprog_within c) as [k K].
  exists (k + n + 2)%nat. econstructor; [exact K|exact IH|lia].
Qed.
Lemma mcosts_mono todo n m : (n <= m)%nat -> mcosts todo n -> mcosts todo m.
Proof. intros L H. inversion H; subst; [constructor|]. econstructor; eauto. lia. Qed.
Definition mremains (t : mthread) (m : nat) : Prop :=
  match m_now t with
  | None => mcosts (m_todo t) m
  | Some (_, p) => exists k n, mwithin k p /\ mcosts (m_todo t) n /\ (k + n + 1 <= m)%nat
  end.
Lemma mstep_remains t w m : mremains t (S m) -> mremains (fst (mstep rs t w)) m.
Proof.
  unfold mremains, mstep. destruct (m_now t) as [[c p]|] eqn:E.
  - intros (k & n & W & C & L).
    assert (ST : (forall a, p <> MRet a) -> let '(p', w') := maccess p w in
      exists k n, mwithin k p' /\ mcosts (m_todo t) n /\ (k + n + 1 <= m)%nat).
    { intros NR. pose proof (fun j => maccess_within j p w) as A. destruct (maccess p w) as [p' w']. cbn [fst] in A.
      destruct k as [|k].
      - destruct p as [a|i q k|p k]; [destruct (NR a eq_refl)| |]; cbn [mwithin] in W; exfalso.
        + destruct W as (n1 & n2 & _ & X & _). lia.
        + destruct W as (n2 & X & _). lia.
      - exists k, n. repeat split; [apply A; exact W|exact C|lia]. }
    destruct p as [a|i q k'|p k'].
    + cbn [fst m_now m_todo]. eapply mcosts_mono; [|exact C]. lia.
    + specialize (ST ltac:(discriminate)). destruct (maccess (MCall i q k') w) as [p' w']. exact ST.
    + specialize (ST ltac:(discriminate)). destruct (maccess (MRead p k') w) as [p' w']. exact ST.
  - intros C. destruct (m_todo t) as [|c todo] eqn:T; cbn [fst m_now m_todo]; [rewrite E, T; constructor|].
    inversion C as [|? ? k n ? W C' L]; subst. exists k, n. repeat split; auto. lia.
Qed.
Lemma mremains_none t : mremains t 0 -> map fst (m_log t) = mwhole t.
Proof.
  unfold mremains, mwhole, mcurrent. destruct (m_now t) as [[c p]|].
  - intros (k & n & _ & _ & L). lia.
  - intros C. inversion C as [|? ? ? ? ? ? ? L]; [|lia]. rewrite app_nil_r. reflexivity.
Qed.
Lemma minterleave_remains sched n : forall m ts w t, nth_error ts n = Some t -> mremains t m -> (m <= count_occ Nat.eq_dec sched n)%nat ->
  exists t', nth_error (fst (minterleave rs sched ts w)) n = Some t' /\ mremains t' 0.
Proof.
  induction sched as [|x sched IH]; intros m ts w t E R L; cbn [minterleave count_occ] in *.
  - exists t. split; [exact E|]. destruct m; [exact R|lia].
  - destruct (nth_error ts x) as [u|] eqn:Ex.
    + destruct (mstep rs u w) as [u' w'] eqn:Es. destruct (Nat.eq_dec x n) as [->|Ne].
      * rewrite E in Ex. injection Ex as <-.
        assert (R' : mremains u' (Nat.pred m)).
        { pose proof (mstep_remains t w (Nat.pred m)) as S. rewrite Es in S. apply S. cbn [fst].
          destruct m; [|exact R]. cbn. unfold mremains in *. destruct (m_now t) as [[c p]|].
          - destruct R as (k & q & W & C & L'). exists k, q. repeat split; auto; lia.
          - eapply mcosts_mono; [|exact R]. lia. }
        apply (IH (Nat.pred m) _ _ u'); [rewrite nth_update, Nat.eqb_refl, E; reflexivity|exact R'|lia].
      * apply (IH m _ _ t); [rewrite nth_update; apply Nat.eqb_neq in Ne; rewrite Ne; exact E|exact R|exact L].
    + destruct (Nat.eq_dec x n) as [->|Ne]; [congruence|]. apply (IH m _ _ t); assumption.
Qed.
Theorem mwait_free programs n p : nth_error programs n = Some p ->
  exists bound, forall sched, (bound <= count_occ Nat.eq_dec sched n)%nat ->
  exists t, nth_error (fst (all_together rs programs sched)) n = Some t /\ map fst (m_log t) = p.
Proof.
  intros H. destruct (mcosts_exist p) as [m C]. exists m. intros sched L. unfold all_together.
  assert (E : nth_error (mstart programs) n = Some (mkMThread p None [])).
  { unfold mstart. rewrite nth_error_map, H. reflexivity. }
  destruct (minterleave_remains sched n m _ (world_of rs) _ E C L) as (t & T1 & T2).
  destruct (minterleave_nth sched n _ (world_of rs) _ E) as (t' & T1' & W). rewrite T1 in T1'. injection T1' as <-.
  exists t. split; [exact T1|]. rewrite (mremains_none _ T2), W. reflexivity.
Qed.
Theorem min_order programs sched n p : nth_error programs n = Some p ->
  exists t rest, nth_error (fst (all_together rs programs sched)) n = Some t /\ p = map fst (m_log t) ++ rest.
Proof.
  intros H. assert (E : nth_error (mstart programs) n = Some (mkMThread p None [])).
  { unfold mstart. rewrite nth_error_map, H. reflexivity. }
  destruct (minterleave_nth sched n _ (world_of rs) _ E) as (t & T & W). exists t, (mcurrent t ++ m_todo t).
  split; [exact T|]. change p with (mwhole (mkMThread p None [])). rewrite <- W. reflexivity.
Qed.
End Progress.
