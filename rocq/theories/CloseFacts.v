(** Closed readers and unreadable blocks. *)
From Verif Require Import Machine MachineFacts Encoding FileIO Sroar Writer SimpleWriter Reader Aggregate Multi Spec SimpleSpec MultiSpec
  ArbFacts FinalFacts ReaderFacts AggFacts MultiFacts.
Ltac Zify.zify_post_hook ::= Z.div_mod_to_equations.

(** ** Scans skip what cannot be read *)
Definition got (x : res (list Z * list Z)) : list Z := match x with Ok (_, values) => values | _ => [] end.
Lemma scan_readable get idx : (forall i, In i idx -> get i <> Panic) -> forall xs,
  scan get idx (acc_of xs) = Ok (acc_of (xs ++ flat_map (fun i => got (get i)) idx)).
Proof.
  induction idx as [|i idx IH]; intros H xs; cbn [scan flat_map]; [rewrite app_nil_r; reflexivity|].
  pose proof (H i (or_introl eq_refl)) as Hi. destruct (get i) as [[ids vals]|e|]; [| |congruence]; cbn [add_block rbind got].
  - rewrite add_values_acc, IH by (intros; apply H; right; assumption). rewrite app_assoc. reflexivity.
  - rewrite IH by (intros; apply H; right; assumption). reflexivity.
Qed.

Section Close.
Context {Srr : Sroar}.

Lemma got_i64 r i : Forall (fun e => 0 <= e_count e) (r_index r) -> Forall is_i64 (got (readBlock r i)).
Proof.
  intros H. destruct (readBlock r i) as [[ids vals]|e|] eqn:E; [|constructor|constructor].
  apply readBlock_len in E; [|exact H]. destruct E as (_ & e & _ & _ & _ & _ & _ & G). exact G.
Qed.

Theorem scan_exact r : Forall (fun e => 80 <= e_size e) (r_index r) -> Forall (fun e => 0 <= e_count e) (r_index r) ->
  zlen (flat_map (readable_values r) (zseq (BlockCount r))) < two63 ->
  exists res, aggregateSequential r (mkOpts true None None 0) = Ok res
    /\ aggregate_of (flat_map (readable_values r) (zseq (BlockCount r))) res.
Proof.
  intros HS HC Hl. unfold aggregateSequential, has_filter. cbn [o_filter o_deny o_skip negb]. rewrite andb_false_r.
  rewrite acc0_of, scan_readable by (intros i _; apply readBlock_no_panic; exact HS). cbn [app rbind].
  eexists. split; [reflexivity|]. apply result_aggregate; [|exact Hl]. apply Forall_forall. intros v Hv.
  apply in_flat_map in Hv. destruct Hv as (i & _ & Hv). pose proof (got_i64 r (i64 i) HC) as G. rewrite Forall_forall in G. apply G. exact Hv.
Qed.

(** ** Closed readers *)
Lemma closed_block r i : r_open r = false -> Forall (fun e => 80 <= e_size e) (r_index r) -> exists e, readBlock r i = Err e.
Proof.
  intros Ho HS. unfold readBlock. destruct (_ || _); [eauto|].
  destruct (nth_error (r_index r) (Z.to_nat i)) as [e|] eqn:E; [|eauto].
  assert (80 <= e_size e) by (rewrite Forall_forall in HS; apply HS; eapply nth_error_In; exact E).
  unfold readBytesAt, blockHeaderSize. rewrite Ho. destruct (Z.ltb_spec (e_size e - 64) 0); [lia|].
  destruct (_ <? 0); cbn [rbind]; [eauto|]. destruct (Z.eqb_spec (e_size e - 64) 0); [lia|]. cbn [negb rbind]. eauto.
Qed.
Lemma closed_scan get idx : (forall i, exists e, get i = Err e) -> scan get idx acc0 = Ok acc0.
Proof.
  intros H. induction idx as [|i idx IH]; cbn [scan]; [reflexivity|]. destruct (H i) as [e ->]. cbn [add_block rbind]. exact IH.
Qed.

Theorem closed_aggregate r opts : r_open r = false -> Forall (fun e => 80 <= e_size e) (r_index r) ->
  (has_filter opts = true \/ o_skip opts = true) -> 0 <= BlockCount r <= 2 ^ 45 ->
  exists res, aggregateSequential r opts = Ok res /\ aggregate_of [] res.
Proof.
  intros Ho HS Hu Hb.
  assert (Z0 : aggregate_of [] zeroResult) by (unfold aggregate_of, zeroResult; cbn; repeat split; try reflexivity; congruence).
  assert (Z1 : aggregate_of [] (result_of acc0)) by (unfold aggregate_of, result_of, average; cbn; repeat split; try reflexivity; congruence).
  unfold aggregateSequential. destruct (has_filter opts) eqn:Ef.
  - unfold aggregateWithFilter.
    replace (FilteredBlockIterator r (o_filter opts) (o_deny opts)) with (@Ok (list Z) (matchingBlocks r (o_filter opts) (o_deny opts)))
      by (unfold FilteredBlockIterator; destruct (o_filter opts); [reflexivity|rewrite (make_fine _ 8 (2 ^ 48)) by lia; reflexivity]).
    cbn [rbind]. destruct (zlen _ =? 0); [eauto|]. rewrite closed_scan; [cbn [rbind]; eauto|].
    intros i. unfold readBlockFiltered. destruct (closed_block r (i64 i) Ho HS) as [e ->]. cbn [rbind]. eauto.
  - destruct Hu as [Hu|Hu]; [discriminate|]. rewrite Hu. cbn [negb]. rewrite andb_false_r.
    rewrite closed_scan; [cbn [rbind]; eauto|]. intros i. apply closed_block; assumption.
Qed.

Lemma close_open r : r_open (snd (RClose r)) = false.
Proof. reflexivity. Qed.

Theorem closed_file options faults h now w r r' e :
  finished_run options faults h now w -> NewReader (bytes_of w) = Ok r -> RClose r = (e, r') ->
  e = Ok tt
  /\ (forall i, exists err, GetPairs r' i = Err err)
  /\ (forall hp, GetGlobalIDBitmap r' hp = (Err ErrIO, r', hp))
  /\ (forall opts, has_filter opts = true \/ o_skip opts = true ->
        exists res, aggregateSequential r' opts = Ok res /\ aggregate_of [] res)
  /\ (0 < BlockCount r -> Aggregate r' = Aggregate r)
  /\ fst (RClose r') = Err ErrIO.
Proof.
  intros H HR Hc. destruct (ReachFacts.finished_facts options faults h now w H) as (blocks & A & X & L & off & _ & HL & HF & Hlim & _ & _ & HR').
  rewrite HR in HR'. injection HR' as HR'. pose proof (finalized_indexed _ _ _ _ _ _ _ _ HF Hlim) as HI. rewrite <- HR' in HI.
  unfold RClose in Hc. injection Hc as <- <-.
  assert (Hopen : r_open r = true) by (rewrite HR'; reflexivity). rewrite Hopen.
  set (r' := mkReader _ false _ _ _ _ _). assert (HS : Forall (fun e => 80 <= e_size e) (r_index r')) by apply (v_sizes _ _ HI).
  split; [reflexivity|]. split; [intros i; apply closed_block; [reflexivity|exact HS]|]. split.
  { intros hp. unfold GetGlobalIDBitmap. cbn [r' r_globalIDs r_cacheGlobalIDs]. subst r. cbn [the_reader r_globalIDs r_cacheGlobalIDs].
    unfold loadGlobalIDBitmap, r'. cbn [the_reader r_header h_bitmapOffset h_bitmapSize r_open r_data].
    pose proof (zlen_nonneg (bm_ser (fold_left bm_set A bm_new))). pose proof HF as [HD HH HB HO HM].
    assert (Hoff : 64 <= off < two63).
    { pose proof (lim_file _ _ _ _ _ Hlim) as LF. rewrite HD, zlen_app in LF. pose proof (zlen_nonneg (footer_bytes (zlen L) (map (pentry (encoding_of options)) L))).
      pose proof (zlen_nonneg (bitmap_bytes (fold_left bm_set A bm_new))). unfold pblock in *. lia. }
    destruct (Z.eqb_spec off 0); [lia|]. destruct (Z.eqb_spec (4 + zlen (bm_ser (fold_left bm_set A bm_new))) 0); [lia|]. cbn [orb].
    rewrite (i64_id off) by (unfold is_i64; lia). unfold readBytesAt. destruct (Z.ltb_spec 4 0); [lia|]. destruct (Z.ltb_spec off 0); [lia|]. reflexivity. }
  split; [intros opts Hu; apply closed_aggregate; [reflexivity|exact HS|exact Hu|]|].
  { change (BlockCount r') with (BlockCount r). rewrite (v_count _ _ HI). pose proof (v_small _ _ HI). pose proof (zlen_nonneg (map snd L)). unfold two32 in *. lia. }
  split; [|reflexivity].
  intros Hpos. unfold Aggregate, aggregateSequential. cbn [has_filter DefaultAggregateOptions o_filter o_deny o_skip negb r' r_index].
  rewrite (index_length r blocks); [|rewrite <- HL; exact HI]. pose proof (v_count _ _ HI) as Hc. rewrite HL in Hc.
  destruct (zlen blocks >? 0) eqn:E; [reflexivity|]. lia.
Qed.

(** ** Closing several readers *)
Theorem multi_close rs : forall e e' rs', MultiClose rs e = (e', rs') ->
  Forall (fun r => r_open r = false) rs' /\ length rs' = length rs
  /\ (e' = None <-> e = None /\ Forall (fun r => r_open r = true) rs).
Proof.
  induction rs as [|r rs IH]; intros e e' rs' H; cbn [MultiClose] in H.
  - injection H as <- <-. split; [constructor|]. split; [reflexivity|]. split; [intros ->; split; [reflexivity|constructor]|tauto].
  - unfold RClose in H. destruct (MultiClose rs _) as [le rs2] eqn:E. injection H as <- <-.
    destruct (IH _ _ _ E) as (I1 & I2 & I3). split; [constructor; [reflexivity|exact I1]|]. split; [cbn; lia|].
    rewrite I3. destruct (r_open r) eqn:Er.
    + split; intros [H1 H2]; (split; [exact H1|]); [constructor; assumption|inversion H2; assumption].
    + split; [intros [H1 _]; discriminate|]. intros [_ H2]. inversion H2; congruence.
Qed.

(** A reader on a finalized file, not touched since it was opened. *)
Definition plain (r : reader) : Prop := exists options faults h now w, finished_run options faults h now w /\ NewReader (bytes_of w) = Ok r.

Lemma closed_each rs e : snd (MultiClose rs e) = map (fun r => snd (RClose r)) rs.
Proof.
  revert e. induction rs as [|r rs IH]; intros e; [reflexivity|]. cbn [MultiClose map].
  change (RClose r) with (fst (RClose r), snd (RClose r)). cbv iota beta.
  specialize (IH (match fst (RClose r) with Err x => Some x | _ => e end)).
  destruct (MultiClose rs _) as [le rs2]. cbn [snd] in *. congruence.
Qed.
Theorem closed_multi rs e rs' opts hp : rs <> [] -> Forall plain rs -> MultiClose rs None = (e, rs') ->
  e = None /\ fst (fst (MultiAggregate opts rs' hp)) = Err ErrIO.
Proof.
  intros Hn Hp Hc. pose proof (multi_close _ _ _ _ Hc) as (M1 & M2 & M3).
  split.
  - apply M3. split; [reflexivity|]. eapply Forall_impl; [|exact Hp]. intros r (o & f & h & now & w & H & HR).
    destruct (closed_file _ _ _ _ _ _ _ _ H HR (surjective_pairing _)) as (X & _). unfold RClose in X. cbn [fst] in X. destruct (r_open r); [reflexivity|discriminate].
  - pose proof (closed_each rs None) as E. rewrite Hc in E. cbn [snd] in E. subst rs'.
    destruct (exists_last Hn) as (l & r & ->). apply Forall_app in Hp. destruct Hp as [_ Hp]. apply Forall_inv in Hp.
    destruct Hp as (o & f & h & now & w & H & HR).
    destruct (closed_file _ _ _ _ _ _ _ _ H HR (surjective_pairing _)) as (_ & _ & X2 & X3 & _).
    unfold MultiAggregate. rewrite map_app, rev_app_distr. cbn [map rev app multiLoop].
    destruct (zlen _ =? 0) eqn:E0; [apply Z.eqb_eq in E0; rewrite zlen_app, zlen_cons in E0; pose proof (zlen_nonneg (@nil reader));
       pose proof (zlen_nonneg (map (fun r => snd (RClose r)) l)); lia|].
    destruct (X3 (mkOpts (mo_skip opts) (mo_filter opts) (Some bm_new) 0)) as (res & -> & _).
    + left. unfold has_filter. cbn. destruct (mo_filter opts); reflexivity.
    + rewrite X2. reflexivity.
Qed.

End Close.
