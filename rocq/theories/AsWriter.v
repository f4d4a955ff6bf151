(** A SimpleWriter makes the calls of a Writer's client (C69). *)
From Coq Require Import Sorting.Permutation.
From Verif Require Import Machine MachineFacts Encoding FileIO Sroar Writer SimpleWriter Spec SimpleSpec FillSpec FileFacts
  WriterFacts HistoryFacts ReachFacts Reader Aggregate ReaderFacts DecodeFacts RunFacts WriterProps AggFacts AggProps SimpleFacts.
Ltac Zify.zify_post_hook ::= Z.div_mod_to_equations.

Section AsWriter.
Context {Srr : Sroar}.

Definition writes (c : wcall) : Prop := exists ids vals, c = CWriteBlock ids vals.

Lemma flush_calls fuel force : forall sw, Forall is_u64 (sw_pendingIDs sw) -> Forall is_i64 (sw_pendingValues sw) ->
  zlen (sw_pendingIDs sw) <= max_items -> zlen (sw_pendingValues sw) <= max_items ->
  exists cs outs, run_calls cs (sw_writer sw) = (outs, sw_writer (snd (flushIfNeeded fuel force sw)))
    /\ Forall typed_call cs /\ Forall writes cs.
Proof.
  assert (Z : forall sw, exists cs outs, run_calls cs (sw_writer sw) = (outs, sw_writer sw) /\ Forall typed_call cs /\ Forall writes cs)
    by (intros sw; exists [], []; repeat split; constructor).
  induction fuel as [|fuel IH]; intros sw Hi Hv Hm Hm'; cbn [flushIfNeeded]; [apply Z|].
  destruct (_ =? 0); [apply Z|]. destruct (if force then true else _); [|apply Z].
  assert (Hty : typed_call (CWriteBlock (sw_pendingIDs sw) (sw_pendingValues sw))) by (cbn [typed_call]; repeat split; assumption).
  assert (Hw : writes (CWriteBlock (sw_pendingIDs sw) (sw_pendingValues sw))) by (eexists _, _; reflexivity).
  destruct (WriteBlock (sw_pendingIDs sw) (sw_pendingValues sw) (sw_writer sw)) as [r w'] eqn:E.
  assert (Z1 : exists outs, run_calls [CWriteBlock (sw_pendingIDs sw) (sw_pendingValues sw)] (sw_writer sw) = (outs, w')).
  { cbn [run_calls run_call]. unfold mbind, mret. rewrite E. destruct r as [u|er|]; eexists; reflexivity. }
  destruct Z1 as [o1 Z1].
  assert (One : exists cs outs, run_calls cs (sw_writer sw) = (outs, w') /\ Forall typed_call cs /\ Forall writes cs).
  { eexists _, _. split; [exact Z1|]. split; (constructor; [assumption|constructor]). }
  destruct r as [u|er|]; [exact One| |exact One].
  destruct er; try exact One.
  match goal with |- context [flushIfNeeded fuel force ?x] => destruct (IH x) as (cs & outs & H1 & H2 & H3) end;
    cbn [sw_pendingIDs sw_pendingValues sw_writer] in *;
    [apply Forall_zdrop; exact Hi|apply Forall_zdrop; exact Hv|rewrite zlen_zdrop; pose proof (zlen_nonneg (sw_pendingIDs sw)); lia
    |rewrite zlen_zdrop; pose proof (zlen_nonneg (sw_pendingValues sw)); lia|].
  exists ([CWriteBlock (sw_pendingIDs sw) (sw_pendingValues sw)] ++ cs), (o1 ++ outs).
  split; [rewrite run_calls_app, Z1, H1; reflexivity|]. split; apply Forall_app; (split; [constructor; [assumption|constructor]|assumption]).
Qed.

(** What the underlying writer has been told so far. *)
Definition behaves (w0 : writer) (sw : swriter) : Prop :=
  (sw_closed sw = false /\ exists cs outs, run_calls cs w0 = (outs, sw_writer sw) /\ Forall typed_call cs /\ Forall writes cs)
  \/ (sw_closed sw = true /\ exists cs outs w1 now, run_calls cs w0 = (outs, w1) /\ Forall typed_call cs /\ Forall writes cs
       /\ run_call (CFinalizeAndClose now) w1 = (Ok 0, sw_writer sw)).

Lemma call_behaves srt w0 c sw : sorts srt -> typed_scall c -> (forall s, c <> SCSetTarget s) ->
  (sw_closed sw = false -> zlen (sw_pendingIDs sw) < 1000 /\ zlen (sw_pendingIDs sw) = zlen (sw_pendingValues sw)
     /\ Forall is_u64 (sw_pendingIDs sw) /\ Forall is_i64 (sw_pendingValues sw)) ->
  behaves w0 sw ->
  let '(r, sw') := run_scall srt c sw in r = Ok tt \/ r = Err ErrLength \/ r = Err ErrClosed -> behaves w0 sw'.
Proof.
  intros Hs Hty Hk Hp HB. destruct (sw_closed sw) eqn:Hc.
  { destruct c as [ids vals|size|now]; cbn [run_scall]; unfold SWrite, SetTargetBlockSize, SClose; rewrite Hc; intros _; exact HB. }
  destruct (Hp eq_refl) as (P1 & P2 & P3 & P4).
  assert (HB' := HB). destruct HB' as [(_ & cs & outs & R1 & R2 & R3)|(Hc' & _)]; [|congruence].
  destruct c as [ids vals|size|now]; cbn [run_scall]; [|destruct (Hk size eq_refl)|].
  - destruct (Z.eq_dec (zlen ids) (zlen vals)) as [El|Nl].
    2:{ unfold SWrite. rewrite Hc. replace (zlen ids =? zlen vals) with false by lia. intros _. exact HB. }
    destruct (list_eq_dec Z.eq_dec ids []) as [->|Nn].
    { unfold SWrite. rewrite Hc. replace (zlen [] =? zlen vals) with true by lia. cbn [negb]. change (zlen [] =? 0) with true. intros _. exact HB. }
    rewrite SWrite_eq by assumption. pose proof (zlen_arrange srt ids vals Hs El) as La. destruct Hty as (Ty1 & Ty2 & Ty3).
    pose proof (arrange_perm srt (combine ids vals) Hs) as Pb.
    set (b := arrange srt (combine ids vals)) in *.
    match goal with |- context [flush false ?x] => set (sw1 := x) end. unfold flush.
    destruct (flush_calls (S (length (sw_pendingIDs sw1))) false sw1) as (cs' & outs' & F1 & F2 & F3).
    + unfold sw1. cbn [sw_pendingIDs]. apply Forall_app. split; [exact P3|]. apply Forall_map.
      eapply Permutation_Forall; [exact Pb|]. apply Forall_forall. intros [x y] Hin. apply in_combine_l in Hin. rewrite Forall_forall in Ty1. apply Ty1. exact Hin.
    + unfold sw1. cbn [sw_pendingValues]. apply Forall_app. split; [exact P4|]. apply Forall_map.
      eapply Permutation_Forall; [exact Pb|]. apply Forall_forall. intros [x y] Hin. apply in_combine_r in Hin. rewrite Forall_forall in Ty2. apply Ty2. exact Hin.
    + unfold sw1. cbn [sw_pendingIDs]. rewrite zlen_app, zlen_map, La. unfold max_items. lia.
    + unfold sw1. cbn [sw_pendingValues]. rewrite zlen_app, zlen_map, La. unfold max_items. lia.
    + pose proof (flush_closed (S (length (sw_pendingIDs sw1))) false sw1) as V.
      destruct (flushIfNeeded _ false sw1) as [r sw']. cbn [snd] in *. intros _. left. split; [rewrite V; exact Hc|].
      exists (cs ++ cs'), (outs ++ outs'). change (sw_writer sw1) with (sw_writer sw) in F1.
      split; [rewrite run_calls_app, R1, F1; reflexivity|]. split; apply Forall_app; split; assumption.
  - unfold SClose. rewrite Hc. unfold flush.
    destruct (flush_calls (S (length (sw_pendingIDs sw))) true sw P3 P4 ltac:(unfold max_items; lia) ltac:(unfold max_items; lia)) as (cs' & outs' & F1 & F2 & F3).
    pose proof (flush_closed (S (length (sw_pendingIDs sw))) true sw) as V.
    assert (Run : forall w', run_calls cs' (sw_writer sw) = (outs', w') -> run_calls (cs ++ cs') w0 = (outs ++ outs', w')).
    { intros w' E. rewrite run_calls_app, R1, E. reflexivity. }
    destruct (flushIfNeeded _ true sw) as [[u|er|] sw1]; cbn [snd] in *.
    + destruct (FinalizeAndClose now (sw_writer sw1)) as [[u'|er|] w'] eqn:EF.
      * intros _. right. split; [reflexivity|]. exists (cs ++ cs'), (outs ++ outs'), (sw_writer sw1), now. cbn [sw_writer].
        split; [apply Run; exact F1|]. split; [apply Forall_app; split; assumption|]. split; [apply Forall_app; split; assumption|].
        cbn [run_call]. unfold mbind, mret. rewrite EF. reflexivity.
      * intros H. exfalso. revert EF. unfold FinalizeAndClose, mbind. destruct (Finalize now (sw_writer sw1)) as [[?|e'|] w1] eqn:EF1; try discriminate.
        -- unfold closeFile, mfile, file_close. destruct (f_open (w_file w1)); [destruct (f_faults (w_file w1)) as [|[|k] fs]|]; cbn; intros E; try discriminate;
             injection E as <- _; destruct H as [H|[H|H]]; discriminate.
        -- intros E. injection E as <- _. apply tame_Finalize in EF1. destruct EF1 as (_ & _ & E1 & E2).
           destruct H as [H|[H|H]]; try discriminate; congruence.
      * intros [H|[H|H]]; discriminate.
    + intros _. left. split; [rewrite V; exact Hc|]. exists (cs ++ cs'), (outs ++ outs').
      split; [apply Run; exact F1|]. split; apply Forall_app; split; assumption.
    + intros [H|[H|H]]; discriminate.
Qed.

Lemma history_behaves srt (e : Z) w0 cs : sorts srt -> Forall typed_scall cs -> (forall s, ~ In (SCSetTarget s) cs) ->
  forall sw done outs sw', SState False e sw done -> behaves w0 sw -> run_scalls srt cs sw = (outs, sw') -> undisturbed (combine cs outs) ->
  behaves w0 sw'.
Proof.
  intros Hs. induction 1 as [|c cs Hc _ IH]; intros Hk sw done outs sw' HS HB H Hu; cbn [run_scalls] in H.
  - injection H as <- <-. exact HB.
  - pose proof (call_state' False srt e c sw done Hs Hc HS) as T.
    pose proof (call_behaves srt w0 c sw Hs Hc ltac:(intros s ->; apply (Hk s); left; reflexivity)) as T2.
    destruct (run_scall srt c sw) as [r sw1]. destruct (run_scalls srt cs sw1) as [rs sw2] eqn:E. injection H as <- <-.
    assert (R : r = Ok tt \/ r = Err ErrLength \/ r = Err ErrClosed) by (apply (Hu c r); left; reflexivity).
    eapply IH; [intros s Hin; apply (Hk s); right; exact Hin|apply (proj1 T); exact R| |exact E|intros c' r' Hin; apply (Hu c' r'); right; exact Hin].
    apply T2; [|exact HB|exact R]. intros Hcl. destruct HS as [(_ & (t & L & _ & _ & _ & A1 & A2 & A3) & A4 & _)|(Hcl' & _)]; [auto|congruence].
Qed.

Lemma writes_ok cs : forall w, Forall writes cs -> finalizes_ok cs w.
Proof.
  induction cs as [|c cs IH]; intros w H; [exact I|]. inversion H as [|? ? (ids & vals & ->) H2]; subst. cbn [finalizes_ok].
  destruct (run_call (CWriteBlock ids vals) w) as [r w'] eqn:E. split; [intros Hf; discriminate Hf|]. apply IH. exact H2.
Qed.

Theorem simple_is_writer srt options faults h sw : simple_run srt options faults h sw -> sorts srt -> undisturbed h -> target_kept h ->
  IsClosed sw = true -> fits (sw_writer sw) (file_of sw) ->
  exists h' now, finished_run options faults h' now (sw_writer sw)
    /\ (forall c r, In (c, r) h' -> exists ids vals, c = CWriteBlock ids vals).
Proof.
  intros [now0 sw0 cs outs Hnew Hopt Hty Hrun ->] Hs Hu Hk Hcl Hfit.
  assert (Hk' : forall s, ~ In (SCSetTarget s) cs).
  { intros s Hin. pose proof (run_scalls_length srt cs _ _ _ Hrun) as Hlen. revert Hin Hlen Hk. clear. unfold target_kept. intros Hin Hlen Hk.
    revert outs Hlen Hk. induction cs as [|c cs IH]; intros outs Hlen Hk; [destruct Hin|].
    destruct outs as [|o outs]; [discriminate|]. cbn [combine] in Hk. destruct Hin as [->|Hin]; [apply (Hk s o); left; reflexivity|].
    apply (IH Hin outs); [cbn in Hlen; lia|]. intros s' r' H. apply (Hk s' r'). right. exact H. }
  pose proof (new_state False now0 options faults sw0 ltac:(tauto) Hopt Hnew) as H0.
  destruct (NewSimple_fresh _ _ _ _ Hnew) as (w0 & f0 & Hw & ->).
  assert (B0 : behaves w0 (mkSW w0 [] [] 131072 false 0)).
  { left. split; [reflexivity|]. exists [], []. repeat split; constructor. }
  destruct (history_behaves srt _ w0 cs Hs Hty Hk' _ _ _ _ H0 B0 Hrun Hu) as [(Hc & _)|(_ & cs' & outs' & w1 & now & R1 & R2 & R3 & R4)];
    [unfold IsClosed in Hcl; congruence|].
  exists (combine cs' outs'), now. split.
  - econstructor; [exact Hw|exact Hopt|exact R2|exact R1|reflexivity|apply writes_ok; exact R3|right; reflexivity|exact R4|exact Hfit].
  - intros c r Hin. apply in_combine_l in Hin. rewrite Forall_forall in R3. exact (R3 c Hin).
Qed.

(** ** End to end *)
Lemma zsum_perm l l' : Permutation l l' -> zsum l = zsum l'.
Proof. induction 1; cbn [zsum fold_right] in *; unfold zsum in *; cbn [fold_right]; lia. Qed.
Lemma aggregate_perm l l' res : Permutation l l' -> aggregate_of l res -> aggregate_of l' res.
Proof.
  intros Hp (H1 & H2 & H3 & H4 & H5).
  assert (Hz : zlen l' = zlen l) by (unfold zlen; rewrite (Permutation_length Hp); reflexivity).
  assert (Hs : zsum l' = zsum l) by (symmetry; apply zsum_perm; exact Hp).
  assert (Hn : l' = [] <-> l = []).
  { split; intros ->; [apply Permutation_nil; apply Permutation_sym; exact Hp|apply Permutation_nil; exact Hp]. }
  unfold aggregate_of. rewrite Hz, Hs. split; [exact H1|]. split; [exact H2|]. split; [|split; [intros E; apply H4, Hn, E|intros N; apply H5; intros E; apply N, Hn, E]].
  intros N. destruct (H3 ltac:(intros E; apply N, Hn, E)) as [[A1 A2] [B1 B2]].
  split; split; try (eapply Permutation_in; eassumption); intros v Hv; [apply A2|apply B2]; (eapply Permutation_in; [apply Permutation_sym; exact Hp|exact Hv]).
Qed.
Lemma arranged_perm srt bs : sorts srt -> Permutation (concat (map (arrange srt) bs)) (concat bs).
Proof.
  intros Hs. induction bs as [|b bs IH]; [constructor|]. cbn [map concat]. apply Permutation_app; [|exact IH].
  apply Permutation_sym. apply arrange_perm. exact Hs.
Qed.
Lemma zsum_app' a b : zsum (a ++ b) = zsum a + zsum b.
Proof. unfold zsum. induction a as [|x a IH]; cbn [app fold_right]; lia. Qed.
Lemma zsum_abs l : - zsum (map Z.abs l) <= zsum l <= zsum (map Z.abs l) /\ 0 <= zsum (map Z.abs l).
Proof. unfold zsum. induction l as [|x l IH]; cbn [map fold_right]; lia. Qed.
Lemma zsum_in x l : In x l -> Z.abs x <= zsum (map Z.abs l).
Proof.
  induction l as [|y l IH]; intros []; cbn [map]; [subst|]; pose proof (zsum_abs l); unfold zsum in *; cbn [fold_right]; [lia|].
  specialize (IH H). lia.
Qed.
Lemma small_no_min blocks : zsum (map Z.abs (flat_map snd blocks)) < two63 -> Forall no_min_stat blocks.
Proof.
  induction blocks as [|b blocks IH]; intros H; constructor.
  - cbn [flat_map] in H. rewrite map_app, zsum_app' in H. pose proof (zsum_abs (flat_map snd blocks)). pose proof (zsum_abs (snd b)).
    split.
    + intros Hin. apply zsum_in in Hin. unfold min_int64, two63 in *. lia.
    + rewrite i64_id by (unfold is_i64, two63 in *; lia). unfold min_int64, two63 in *. lia.
  - apply IH. cbn [flat_map] in H. rewrite map_app, zsum_app' in H. pose proof (zsum_abs (snd b)). lia.
Qed.
Lemma filter_perm {A} (P : A -> bool) l l' : Permutation l l' -> Permutation (filter P l) (filter P l').
Proof.
  induction 1 as [|x l l' _ IH|x y l|l l' l'' _ IH1 _ IH2]; cbn [filter].
  - constructor.
  - destruct (P x); [constructor|]; exact IH.
  - destruct (P x), (P y); try reflexivity. apply perm_swap.
  - etransitivity; eassumption.
Qed.
Lemma all_pairs_fst' blocks : Forall good_block blocks -> map fst (all_pairs blocks) = flat_map fst blocks.
Proof.
  induction 1 as [|b bs (_ & _ & Hl & _) _ IH]; [reflexivity|]. cbn [all_pairs flat_map] in *. rewrite map_app. f_equal; [|exact IH].
  unfold pairs_of. apply combine_fst'. exact Hl.
Qed.

Lemma footer_of_view r blocks : indexed r blocks -> Forall no_min_stat blocks ->
  exists res, Aggregate r = Ok res /\ aggregate_of (map snd (all_pairs blocks)) res.
Proof.
  intros HI Hn. rewrite all_pairs_snd by apply HI.
  exists (result_of (acc_of (flat_map snd blocks))). split.
  - unfold Aggregate, aggregateSequential. cbn [has_filter DefaultAggregateOptions o_filter o_deny o_skip negb].
    rewrite andb_true_r. destruct (zlen (r_index r) >? 0) eqn:E.
    + rewrite (footer_result r blocks HI Hn). reflexivity.
    + pose proof (index_length r blocks HI) as HL. pose proof (zlen_nonneg blocks). assert (blocks = []) as ->.
      { destruct blocks; [reflexivity|]. rewrite zlen_cons in *. pose proof (zlen_nonneg blocks). lia. }
      rewrite (v_count _ _ HI). reflexivity.
  - rewrite <- chosen_none by apply HI. apply result_aggregate; [apply chosen_i64|apply chosen_length]; apply HI.
Qed.

Context {Lw : SroarLaws Srr}.
Theorem end_to_end srt options faults h sw : simple_run srt options faults h sw -> sorts srt -> undisturbed h ->
  IsClosed sw = true -> fits (sw_writer sw) (file_of sw) -> faithful (encoding_of options) ->
  exists r, NewReader (file_of sw) = Ok r
    /\ (forall skip allow deny, skip = true \/ allow <> None \/ deny <> None ->
          exists res, aggregateSequential r (mkOpts skip allow deny 0) = Ok res
            /\ aggregate_of (map snd (filter (fun p => passes allow deny (fst p)) (concat (written h)))) res)
    /\ (zsum (map (fun p => Z.abs (snd p)) (concat (written h))) < two63 ->
          exists res, Aggregate r = Ok res /\ aggregate_of (map snd (concat (written h))) res)
    /\ (forall hp, exists p r' hp' b, GetGlobalIDBitmap r hp = (Ok p, r', hp') /\ nth_error hp' p = Some b
          /\ forall id, is_u64 id -> (bm_contains b id = true <-> In id (map fst (concat (written h))))).
Proof.
  intros H1 Hs H3 H4 H5 He. destruct (simple_closed _ _ _ _ _ H1 Hs H3 H4 H5) as (t & now & L & off & X & HF & HL & HP).
  pose proof (arranged_perm srt (written h) Hs) as Pm. rewrite <- HP in Pm.
  pose proof (finalized_view _ _ _ _ _ _ _ _ HF HL He) as V.
  pose proof (v_good _ _ (v_indexed _ _ V)) as Good.
  eexists. split; [eapply NewReader_finalized; eassumption|].
  set (r := the_reader _ _ _ _ _ _ _) in *. set (blocks := map snd L) in *.
  split; [|split].
  - intros skip allow deny Ho. set (o := mkOpts skip allow deny 0). exists (answer r o blocks). split.
    + apply sequential_answer; [exact V|]. unfold uses_footer, o, has_filter. cbn. destruct skip, allow, deny; cbn; rewrite ?andb_false_r; try discriminate.
      intros _. exfalso. destruct Ho as [?|[?|?]]; congruence.
    + eapply aggregate_perm; [|exact (answer_aggregate r blocks o (v_indexed _ _ V))]. apply Permutation_map. apply filter_perm. exact Pm.
  - intros Hsum. assert (Hn : Forall no_min_stat blocks).
    { apply small_no_min. rewrite <- all_pairs_snd by exact Good. rewrite map_map. rewrite (zsum_perm _ _ (Permutation_map _ Pm)). exact Hsum. }
    destruct (footer_of_view r blocks) as (res & R1 & R2); [apply V|exact Hn|]. exists res. split; [exact R1|].
    eapply aggregate_perm; [|exact R2]. apply Permutation_map. exact Pm.
  - intros hp. pose proof (loadGlobalIDBitmap_finalized _ _ _ _ _ _ _ _ HF HL) as HB.
    destruct (law_ser (fold_left bm_set (flat_map fst blocks) bm_new)) as (b' & Hb' & Heq). rewrite Hb' in HB.
    eexists (length hp), _, (hp ++ [b']), b'.
    split; [unfold GetGlobalIDBitmap, r; cbn [the_reader r_globalIDs r_cacheGlobalIDs]; rewrite HB; reflexivity|].
    split; [rewrite nth_error_app2 by lia; rewrite Nat.sub_diag; reflexivity|].
    intros id Hid. rewrite (Heq id Hid). rewrite bm_fold_contains; [|rewrite <- all_pairs_fst' by exact Good|exact Hid].
    + rewrite law_new by exact Hid. rewrite <- all_pairs_fst' by exact Good.
      split; [intros [Hin|E]; [|discriminate]|intros Hin; left]; (eapply Permutation_in; [|exact Hin]); [apply Permutation_map; exact Pm|apply Permutation_sym, Permutation_map; exact Pm].
    + rewrite all_pairs_fst' by exact Good. clear - Good. induction Good as [|b bs Hb _ IH]; [constructor|]. cbn [flat_map]. apply Forall_app. split; [apply Hb|exact IH].
Qed.
End AsWriter.
