(** Reading when reads fail: C61. *)
From Coq Require Import Sorting.Permutation.
From Verif Require Import Machine MachineFacts Encoding FileIO Sroar SroarFacts Writer SimpleWriter Reader Aggregate Parallel Multi
  Spec SimpleSpec MultiSpec WriterFacts FinalFacts ReaderFacts ArbFacts WriterProps AggFacts AggProps MultiFacts CloseFacts ReadFault ReadFaultSpec.
Ltac Zify.zify_post_hook ::= Z.div_mod_to_equations.

(** ** Calls that report errors *)
Lemma bytes_right io data open off n :
  readBytesIO io data open off n = readBytesAt data open off n \/ readBytesIO io data open off n = Err ErrIO.
Proof.
  unfold readBytesIO. destruct (readBytesAt data open off n); cbn [rbind]; auto. destruct (_ && _); auto.
Qed.
Lemma bytes_fine io data open off n : (forall o s, io o s = true) -> readBytesIO io data open off n = readBytesAt data open off n.
Proof. intros H. unfold readBytesIO. rewrite H, andb_false_r. destruct (readBytesAt data open off n); reflexivity. Qed.

Definition right {A} (x y : res A) : Prop := x = y \/ x = Err ErrIO.
Lemma right_bind {A B} (x y : res A) (f g : A -> res B) : right x y -> (forall a, right (f a) (g a)) -> right (rbind x f) (rbind y g).
Proof. intros [->| ->] H; [|right; reflexivity]. destruct y; cbn [rbind]; [apply H|left; reflexivity|left; reflexivity]. Qed.
Lemma right_refl {A} (x : res A) : right x x.
Proof. left. reflexivity. Qed.

Lemma header_right io data : right (readHeaderIO io data) (readHeader data).
Proof. unfold readHeaderIO, readHeader. apply right_bind; [apply bytes_right|]. intros buf. apply right_refl. Qed.
Lemma footer_right io data h : right (readFooterIO io data h) (readFooter data h).
Proof.
  unfold readFooterIO, readFooter. destruct (zlen data <? 24); [apply right_refl|]. apply right_bind; [apply bytes_right|]. intros buf.
  apply right_bind; [apply right_refl|]. intros fs. apply right_bind; [apply right_refl|]. intros cs. apply right_bind; [apply right_refl|]. intros mg.
  destruct (negb _); [apply right_refl|]. cbv zeta. destruct (_ <? 64); [apply right_refl|].
  apply right_bind; [apply bytes_right|]. intros cb. apply right_bind; [apply right_refl|]. intros n.
  apply right_bind; [apply bytes_right|]. intros ib. apply right_refl.
Qed.
Lemma open_right io st data : right (NewReaderIO io st data) (NewReader data).
Proof.
  unfold NewReaderIO, NewReader. destruct st; [|right; reflexivity]. cbn [negb]. apply right_bind; [apply header_right|]. intros h.
  apply right_bind; [apply footer_right|]. intros [[h' m] ix]. apply right_refl.
Qed.
Lemma block_right io r i : right (readBlockIO io r i) (readBlock r i).
Proof.
  unfold readBlockIO, readBlock. destruct (_ || _); [apply right_refl|]. destruct (nth_error _ _) as [e|]; [|apply right_refl]. cbv zeta.
  apply right_bind; [apply bytes_right|]. intros b. apply right_refl.
Qed.
Lemma pairs_right io r i : right (GetPairsIO io r i) (GetPairs r i).
Proof. apply block_right. Qed.

Section F.
Context {Srr : Sroar}.

Lemma load_right io r : right (loadGlobalIDBitmapIO io r) (loadGlobalIDBitmap r).
Proof.
  unfold loadGlobalIDBitmapIO, loadGlobalIDBitmap. destruct (_ || _); [apply right_refl|]. cbv zeta.
  apply right_bind; [apply bytes_right|]. intros b. apply right_bind; [apply right_refl|]. intros n.
  apply right_bind; [apply bytes_right|]. intros c. apply right_refl.
Qed.
Lemma bitmap_right io r h : GetGlobalIDBitmapIO io r h = GetGlobalIDBitmap r h \/ GetGlobalIDBitmapIO io r h = (Err ErrIO, r, h).
Proof.
  unfold GetGlobalIDBitmapIO, GetGlobalIDBitmap. destruct (load_right io r) as [E|E]; rewrite E; [left; reflexivity|].
  destruct (r_globalIDs r), (r_cacheGlobalIDs r); auto.
Qed.

(** ** A failing read is like a block that lies outside the file *)
Definition unread (io : Z -> Z -> bool) (e : footerEntry) : bool :=
  (0 <? e_size e - blockHeaderSize)
  && negb (io (i64 (i64 (e_offset e) + blockHeaderSize)) (e_size e - blockHeaderSize)).
Definition mask_entry (io : Z -> Z -> bool) (e : footerEntry) : footerEntry :=
  if unread io e then mkEntry two63 (e_size e) (e_minID e) (e_maxID e) (e_minValue e) (e_maxValue e) (e_sum e) (e_count e) else e.
Definition mask (io : Z -> Z -> bool) (r : reader) : reader :=
  mkReader (r_data r) (r_open r) (r_header r) (r_meta r) (map (mask_entry io) (r_index r)) (r_globalIDs r) (r_cacheGlobalIDs r).

Lemma mask_size io e : e_size (mask_entry io e) = e_size e.
Proof. unfold mask_entry. destruct (unread io e); reflexivity. Qed.
Lemma mask_count io e : e_count (mask_entry io e) = e_count e.
Proof. unfold mask_entry. destruct (unread io e); reflexivity. Qed.
Lemma mask_minID io e : e_minID (mask_entry io e) = e_minID e.
Proof. unfold mask_entry. destruct (unread io e); reflexivity. Qed.
Lemma mask_maxID io e : e_maxID (mask_entry io e) = e_maxID e.
Proof. unfold mask_entry. destruct (unread io e); reflexivity. Qed.
Lemma mask_add io a e : add_entry a (mask_entry io e) = add_entry a e.
Proof. unfold mask_entry. destruct (unread io e); reflexivity. Qed.

Lemma bytes_fail data open off n : 0 < n -> exists x, readBytesAt data open off n = x /\ x <> Panic /\ forall e, x = Err e -> e = ErrIO.
Proof.
  intros Hn. eexists. split; [reflexivity|]. unfold readBytesAt. destruct (Z.ltb_spec n 0); [lia|].
  destruct (off <? 0); [split; [discriminate|congruence]|]. destruct (n =? 0); [split; discriminate|].
  destruct (negb open); [split; [discriminate|congruence]|]. destruct (_ >? _); split; try discriminate; congruence.
Qed.

Lemma block_mask io r i : readBlock (mask io r) i = readBlockIO io r i.
Proof.
  unfold readBlock, readBlockIO. cbn [mask r_index r_data r_open r_header]. rewrite zlen_map, nth_error_map.
  destruct (_ || _); [reflexivity|]. destruct (nth_error (r_index r) (Z.to_nat i)) as [e|]; [|reflexivity]. cbn [option_map].
  rewrite mask_size, mask_count. cbv zeta. unfold readBytesIO, mask_entry. fold (unread io e). destruct (unread io e) eqn:E.
  - unfold unread in E. apply andb_true_iff in E. destruct E as [E1 _]. apply Z.ltb_lt in E1.
    destruct (bytes_fail (r_data r) (r_open r) (i64 (i64 (e_offset e) + blockHeaderSize)) (e_size e - blockHeaderSize) E1) as (x & -> & X1 & X2).
    unfold readBytesAt. cbn [e_offset]. change (i64 (i64 two63 + blockHeaderSize)) with (-9223372036854775744).
    destruct (Z.ltb_spec (e_size e - blockHeaderSize) 0); [lia|]. change (-9223372036854775744 <? 0) with true. cbn [rbind].
    destruct x as [b|err|]; cbn [rbind]; [reflexivity| |congruence]. rewrite (X2 err eq_refl). reflexivity.
  - destruct (readBytesAt _ _ _ _); reflexivity.
Qed.
Lemma filtered_mask io r i f d : readBlockFiltered (mask io r) i f d = readBlockFilteredIO io r i f d.
Proof. unfold readBlockFiltered, readBlockFilteredIO. rewrite block_mask. reflexivity. Qed.
Lemma pairs_mask io r i : GetPairs (mask io r) i = GetPairsIO io r i.
Proof. apply block_mask. Qed.

Lemma matching_mask io r f d : matchingBlocks (mask io r) f d = matchingBlocks r f d.
Proof.
  unfold matchingBlocks. destruct f as [f|]; [|reflexivity]. cbn [mask r_index]. rewrite zlen_map.
  generalize (zseq (zlen (r_index r))) as l. induction (r_index r) as [|e ix IH]; intros [|x l]; cbn [map combine List.filter]; try reflexivity.
  rewrite mask_minID, mask_maxID. destruct (negb _); cbn [map]; rewrite IH; reflexivity.
Qed.
Lemma iterator_mask io r f d : FilteredBlockIterator (mask io r) f d = FilteredBlockIterator r f d.
Proof. unfold FilteredBlockIterator. rewrite matching_mask. reflexivity. Qed.
Lemma scan_ext g1 g2 idx : (forall i, g1 i = g2 i) -> forall a, scan g1 idx a = scan g2 idx a.
Proof.
  intros H. induction idx as [|i idx IH]; intros a; cbn [scan]; [reflexivity|]. rewrite H. destruct (add_block a (g2 i)); cbn [rbind]; auto.
Qed.
Lemma fold_mask io ix : forall a, fold_left add_entry (map (mask_entry io) ix) a = fold_left add_entry ix a.
Proof. induction ix as [|e ix IH]; intros a; cbn [map fold_left]; [reflexivity|]. rewrite mask_add. apply IH. Qed.
Lemma sequential_mask io r opts : aggregateSequential (mask io r) opts = aggregateSequentialIO io r opts.
Proof.
  unfold aggregateSequential, aggregateSequentialIO, aggregateWithFilter, aggregateWithFilterIO. rewrite iterator_mask.
  cbn [mask r_index]. rewrite zlen_map, fold_mask. change (BlockCount (mask io r)) with (BlockCount r).
  destruct (has_filter opts).
  - destruct (FilteredBlockIterator r _ _) as [m| |]; cbn [rbind]; try reflexivity. destruct (zlen m =? 0); [reflexivity|].
    rewrite (scan_ext _ (fun i => readBlockFilteredIO io r (i64 i) (o_filter opts) (o_deny opts))); [reflexivity|].
    intros i. apply filtered_mask.
  - destruct (_ && _); [reflexivity|]. rewrite (scan_ext _ (GetPairsIO io r)); [reflexivity|]. intros i. apply pairs_mask.
Qed.
Lemma plan_mask io g r opts : parallelPlan g (mask io r) opts = parallelPlan g r opts.
Proof. unfold parallelPlan. rewrite iterator_mask. cbn [mask r_index]. rewrite zlen_map. reflexivity. Qed.

Lemma run_ext b1 b2 idx n : (forall i a, b1 i a = b2 i a) -> forall sched s, run b1 idx n sched s = run b2 idx n sched s.
Proof.
  intros H. induction sched as [|t sched IH]; intros s; cbn [run]; [reflexivity|]. rewrite IH. f_equal.
  unfold step. destruct (p_crashed s); [reflexivity|]. destruct t as [|w]; [reflexivity|]. unfold step_worker.
  destruct (nth_error (p_workers s) w) as [[| |todo a|x| |]|]; try reflexivity. destruct todo as [|i todo]; [reflexivity|]. rewrite H. reflexivity.
Qed.
Lemma footer_mask io r i a : blk_footer (mask io r) i a = blk_footer r i a.
Proof.
  unfold blk_footer. cbn [mask r_index]. rewrite zlen_map, nth_error_map. destruct (_ || _); [reflexivity|].
  destruct (nth_error (r_index r) (Z.to_nat i)) as [e|]; [|reflexivity]. cbn [option_map]. rewrite mask_add. reflexivity.
Qed.
Lemma read_mask io r opts i a : blk_read (mask io r) opts i a = blk_readIO io r opts i a.
Proof. unfold blk_read, blk_readIO. rewrite filtered_mask, pairs_mask. reflexivity. Qed.
Lemma aggregate_mask io g sched r opts : AggregateWithOptions g sched (mask io r) opts = AggregateWithOptionsIO io g sched r opts.
Proof.
  unfold AggregateWithOptions, AggregateWithOptionsIO. rewrite sequential_mask, plan_mask.
  destruct (o_parallel opts =? 0); [reflexivity|]. destruct (parallelPlan g r opts); try reflexivity.
  - rewrite (run_ext _ (blk_footer r)); [reflexivity|]. intros i a. apply footer_mask.
  - rewrite (run_ext _ (blk_readIO io r opts)); [reflexivity|]. intros i a. apply read_mask.
Qed.
Lemma mask_fine io r : (forall o n, io o n = true) -> mask io r = r.
Proof.
  intros H. unfold mask. replace (map (mask_entry io) (r_index r)) with (r_index r); [destruct r; reflexivity|].
  induction (r_index r) as [|e ix IH]; [reflexivity|]. cbn [map]. rewrite <- IH. f_equal. unfold mask_entry, unread. rewrite H, andb_false_r. reflexivity.
Qed.

(** ** Finished files *)
Lemma indexed_mask io r blocks : indexed r blocks -> indexed (mask io r) blocks.
Proof.
  intros [Hc Hs Hg Hx Hz]. constructor; [exact Hc|exact Hs|exact Hg| |].
  - cbn [mask r_index]. clear - Hx. induction Hx as [|e b l1 l2 Ht _ IH]; cbn [map]; constructor; [|exact IH].
    unfold true_entry, mask_entry in *. destruct (unread io e); exact Ht.
  - cbn [mask r_index]. apply Forall_map. eapply Forall_impl; [|exact Hz]. intros e He. cbn beta. rewrite mask_size. exact He.
Qed.

(** One block. *)
Lemma one_block io r blocks i : view r blocks -> 0 <= i < zlen blocks ->
  exists b, nth_error blocks (Z.to_nat i) = Some b /\ good_block b
    /\ (GetPairsIO io r i = Ok b \/ GetPairsIO io r i = Err ErrIO).
Proof.
  intros HV Hi. pose proof (v_small _ _ (v_indexed _ _ HV)) as Hs.
  destruct (nth_error blocks (Z.to_nat i)) as [b|] eqn:E.
  - exists b. split; [reflexivity|]. split; [pose proof (v_good _ _ (v_indexed _ _ HV)) as G; rewrite Forall_forall in G; apply G; eapply nth_error_In; exact E|].
    pose proof (pairs_right io r i) as HR. rewrite (v_pairs _ _ HV) in HR by (unfold is_u64, two32, two64 in *; lia). rewrite E in HR. exact HR.
  - apply nth_error_None in E. unfold zlen in *. lia.
Qed.

Definition read_of (io : Z -> Z -> bool) (r : reader) (i : Z) : list (Z * Z) :=
  match GetPairsIO io r i with Ok (ids, vals) => combine ids vals | _ => [] end.
Definition read_picked (f d : option bm) (io : Z -> Z -> bool) (r : reader) (i : Z) : list Z :=
  map snd (filter (fun p => passes f d (fst p)) (read_of io r i)).
Lemma picked_read io r f d idx :
  map snd (filter (fun p => passes f d (fst p)) (flat_map (read_of io r) idx)) = flat_map (read_picked f d io r) idx.
Proof. induction idx as [|i idx IH]; [reflexivity|]. cbn [flat_map]. rewrite filter_app, map_app, IH. reflexivity. Qed.

Lemma got_filtered io r blocks f d i : view r blocks -> 0 <= i < zlen blocks ->
  got (readBlockFilteredIO io r (i64 i) f d) = read_picked f d io r i.
Proof.
  intros HV Hi. destruct (one_block io r blocks i HV Hi) as (b & _ & Hg & HR). unfold read_picked, read_of, readBlockFilteredIO.
  unfold GetPairsIO in *. destruct HR as [HR|HR]; rewrite HR; cbn [rbind got]; [|reflexivity].
  destruct b as [ids vals]. pose proof (good_length _ Hg) as Hl. cbn [fst snd] in Hl.
  assert (G : got (filterPairs f d ids vals) = map snd (filter (fun p => passes f d (fst p)) (combine ids vals))).
  { rewrite filterPairs_ok by exact Hl. rewrite <- snd_split. destruct (split _) as [x y]. reflexivity. }
  destruct f, d; try exact G. cbn [got]. rewrite filter_true' by reflexivity. symmetry. apply combine_snd. exact Hl.
Qed.
Lemma got_pairs io r blocks i : view r blocks -> 0 <= i < zlen blocks -> got (GetPairsIO io r i) = read_picked None None io r i.
Proof.
  intros HV Hi. pose proof (got_filtered io r blocks None None i HV Hi) as G. unfold readBlockFilteredIO in G. unfold GetPairsIO.
  destruct (readBlockIO io r (i64 i)) as [[x y]| |]; exact G.
Qed.

(** Blocks that are passed over hold nothing that passes. *)
Lemma pruned (v : Z -> list Z) (P : footerEntry -> bool) index :
  (forall i e, nth_error index i = Some e -> P e = false -> v (Z.of_nat i) = []) ->
  flat_map v (map fst (List.filter (fun '(_, e) => P e) (combine (zseq (zlen index)) index))) = flat_map v (zseq (zlen index)).
Proof.
  intros HN. unfold zseq, zlen. rewrite Nat2Z.id.
  induction index as [|e index IH] using rev_ind; [reflexivity|].
  rewrite app_length. cbn [length]. rewrite Nat.add_1_r, seq_S, map_app, flat_map_app, Nat.add_0_l. cbn [map].
  rewrite combine_app' by (rewrite map_length, seq_length; reflexivity). rewrite List.filter_app, map_app, flat_map_app.
  f_equal.
  - apply IH. intros i e' He'. apply HN. rewrite nth_error_app1; [exact He'|]. apply nth_error_Some. congruence.
  - cbn [combine List.filter]. destruct (P e) eqn:EP; [reflexivity|]. cbn [map flat_map]. rewrite app_nil_r. symmetry. eapply HN; [|exact EP].
    rewrite nth_error_app2 by lia. rewrite Nat.sub_diag. reflexivity.
Qed.
Lemma nth_true r blocks i e : Forall2 (fun e b => true_entry b e) (r_index r) blocks -> nth_error (r_index r) i = Some e ->
  exists b, nth_error blocks i = Some b /\ true_entry b e.
Proof.
  intros H. revert i. induction H as [|e' b l1 l2 Hx _ IH]; intros [|i] He; cbn in *; try discriminate.
  - injection He as <-. eauto.
  - apply IH. exact He.
Qed.

Context {Lw : SroarLaws Srr}.

Lemma matching_read io r blocks f d : view r blocks ->
  flat_map (read_picked f d io r) (matchingBlocks r f d) = flat_map (read_picked f d io r) (zseq (BlockCount r)).
Proof.
  intros HV. pose proof (v_indexed _ _ HV) as HI. destruct f as [f|]; cbn [matchingBlocks]; [|reflexivity].
  rewrite pruned with (P := fun e => negb ((e_maxID e <? bm_min f) || (e_minID e >? bm_max f))).
  { rewrite (index_length _ _ HI), (v_count _ _ HI). reflexivity. }
  intros i e He HP. destruct (nth_true _ _ _ _ (v_index _ _ HI) He) as (b & Hb & Ht).
  assert (Hi : 0 <= Z.of_nat i < zlen blocks).
  { assert (i < length blocks)%nat by (apply nth_error_Some; congruence). unfold zlen. lia. }
  destruct (one_block io r blocks _ HV Hi) as (b' & Hb' & Hg & HR). rewrite Nat2Z.id, Hb in Hb'. injection Hb' as <-.
  unfold read_picked, read_of. destruct HR as [HR|HR]; rewrite HR; [|reflexivity].
  apply negb_false_iff, orb_true_iff in HP. destruct Ht as ((T1 & T2) & (T3 & T4) & _). destruct b as [ids vals]. cbn [fst snd] in *.
  destruct (filter _ _) as [|p l] eqn:E; [reflexivity|exfalso].
  assert (Hin : In p (filter (fun p => passes (Some f) d (fst p)) (combine ids vals))) by (rewrite E; left; reflexivity).
  apply filter_In in Hin. destruct Hin as [Hin Hp]. unfold passes in Hp. apply andb_true_iff in Hp. destruct Hp as [Hp _].
  destruct p as [id v]. cbn [fst] in Hp. apply in_combine_l in Hin. destruct Hg as (Hu & _). cbn [fst] in Hu. rewrite Forall_forall in Hu.
  pose proof (law_min f id (Hu id Hin) Hp). pose proof (law_max f id (Hu id Hin) Hp).
  specialize (T2 id Hin). specialize (T4 id Hin). destruct HP; lia.
Qed.

Definition read_answer (io : Z -> Z -> bool) (r : reader) (opts : aggOptions) : list Z :=
  map snd (filter (fun p => passes (o_filter opts) (o_deny opts) (fst p)) (pairs_read io r)).
Lemma read_answer_eq io r opts : read_answer io r opts = flat_map (read_picked (o_filter opts) (o_deny opts) io r) (zseq (BlockCount r)).
Proof. apply picked_read. Qed.

Lemma read_picked_spec io r blocks f d i : view r blocks -> 0 <= i < zlen blocks ->
  Forall is_i64 (read_picked f d io r i) /\ zlen (read_picked f d io r i) <= max_items.
Proof.
  intros HV Hi. destruct (one_block io r blocks i HV Hi) as (b & _ & Hg & HR). unfold read_picked, read_of.
  destruct HR as [HR|HR]; rewrite HR; [|split; [constructor|unfold max_items; cbn; lia]]. destruct b as [ids vals].
  split; [exact (picked_i64 f d _ Hg)|exact (picked_length f d _ Hg)].
Qed.
Lemma read_answer_fits io r blocks opts : view r blocks -> Forall is_i64 (read_answer io r opts) /\ zlen (read_answer io r opts) < two63.
Proof.
  intros HV. rewrite read_answer_eq. pose proof (v_small _ _ (v_indexed _ _ HV)) as Hs. rewrite (v_count _ _ (v_indexed _ _ HV)).
  assert (G : forall l, (forall i, In i l -> 0 <= i < zlen blocks) ->
    Forall is_i64 (flat_map (read_picked (o_filter opts) (o_deny opts) io r) l)
    /\ zlen (flat_map (read_picked (o_filter opts) (o_deny opts) io r) l) <= max_items * zlen l).
  { induction l as [|i l IH]; intros H; [split; [constructor|cbn; lia]|]. cbn [flat_map]. rewrite zlen_app, zlen_cons.
    destruct (IH (fun j Hj => H j (or_intror Hj))) as [I1 I2].
    destruct (read_picked_spec io r blocks (o_filter opts) (o_deny opts) i HV (H i (or_introl eq_refl))) as [J1 J2].
    split; [apply Forall_app; auto|lia]. }
  destruct (G (zseq (zlen blocks)) (fun i Hi => proj1 (in_zseq _ _) Hi)) as [G1 G2]. split; [exact G1|].
  pose proof (zlen_nonneg blocks). rewrite zlen_zseq in G2. unfold max_items, two32, two63 in *. lia.
Qed.

Lemma flat_map_in {A B} (f g : A -> list B) l : (forall x, In x l -> f x = g x) -> flat_map f l = flat_map g l.
Proof. induction l as [|x l IH]; intros H; cbn [flat_map]; [reflexivity|]. rewrite H by (left; reflexivity). rewrite IH by (intros; apply H; right; assumption). reflexivity. Qed.

Lemma zero_aggregate : aggregate_of [] zeroResult.
Proof. unfold aggregate_of, zeroResult. cbn. repeat split; try reflexivity; congruence. Qed.

Lemma sequential_read io r blocks opts : view r blocks -> has_filter opts = true \/ o_skip opts = true ->
  exists res, aggregateSequentialIO io r opts = Ok res /\ aggregate_of (read_answer io r opts) res.
Proof.
  intros HV Hu. pose proof (v_indexed _ _ HV) as HI. pose proof (indexed_mask io _ _ HI) as HM.
  destruct (read_answer_fits io r blocks opts HV) as [F1 F2].
  unfold aggregateSequentialIO. destruct (has_filter opts) eqn:Ef.
  - unfold aggregateWithFilterIO. rewrite (iterator_ok r blocks) by exact HI. cbn [rbind].
    pose proof (matching_read io r blocks (o_filter opts) (o_deny opts) HV) as HMR.
    destruct (zlen (matchingBlocks r (o_filter opts) (o_deny opts)) =? 0) eqn:E.
    + apply Z.eqb_eq in E. apply zlen_zero in E. exists zeroResult. split; [reflexivity|].
      rewrite read_answer_eq, <- HMR, E. exact zero_aggregate.
    + rewrite acc0_of, scan_readable.
      2: { intros i _. rewrite <- filtered_mask. apply readFiltered_no_panic; [eapply indexed_counts; exact HM|exact (v_sizes _ _ HM)]. }
      cbn [app rbind]. rewrite (flat_map_in _ (read_picked (o_filter opts) (o_deny opts) io r)).
      2: { intros i Hi. apply (got_filtered io r blocks); [exact HV|]. exact (iterator_range _ _ _ _ _ HI Hi). }
      rewrite HMR, <- read_answer_eq. eexists. split; [reflexivity|]. apply result_aggregate; assumption.
  - destruct Hu as [Hu|Hu]; [discriminate|]. rewrite Hu. cbn [negb]. rewrite andb_false_r.
    assert (EO : o_filter opts = None /\ o_deny opts = None).
    { unfold has_filter in Ef. destruct (o_filter opts), (o_deny opts); try discriminate. auto. }
    rewrite acc0_of, scan_readable.
    2: { intros i _. rewrite <- pairs_mask. apply readBlock_no_panic. exact (v_sizes _ _ HM). }
    cbn [app rbind]. rewrite (flat_map_in _ (read_picked (o_filter opts) (o_deny opts) io r)).
    2: { intros i Hi. destruct EO as [-> ->]. apply (got_pairs io r blocks); [exact HV|]. apply in_zseq in Hi. rewrite (v_count _ _ HI) in Hi. lia. }
    rewrite <- read_answer_eq. eexists. split; [reflexivity|]. apply result_aggregate; assumption.
Qed.

Lemma aggregate_read io g sched r blocks opts x : view r blocks -> has_filter opts = true \/ o_skip opts = true ->
  AggregateWithOptionsIO io g sched r opts = Some x ->
  exists res, x = Ok res /\ aggregate_of (read_answer io r opts) res.
Proof.
  intros HV Hu HA. rewrite <- aggregate_mask in HA.
  apply parallel_sequential in HA; [|eapply indexed_sane; apply indexed_mask; apply HV]. rewrite sequential_mask in HA. subst x.
  eapply sequential_read; eassumption.
Qed.

(** ** Several files *)
Lemma map_nth_zseq' (blocks : list block) (g : block -> list (Z * Z)) :
  flat_map (fun i => match nth_error blocks (Z.to_nat i) with Some b => g b | None => [] end) (zseq (zlen blocks)) = flat_map g blocks.
Proof. rewrite !flat_map_concat_map. f_equal. apply (map_nth_zseq blocks g []). Qed.

Lemma view_read_incl io r blocks p : view r blocks -> In p (pairs_read io r) -> In p (all_pairs blocks).
Proof.
  intros HV Hp. apply in_flat_map in Hp. destruct Hp as (i & Hi & Hp). apply in_zseq in Hi. rewrite (v_count _ _ (v_indexed _ _ HV)) in Hi.
  destruct (one_block io r blocks i HV Hi) as (b & Hb & _ & HR). destruct HR as [HR|HR]; rewrite HR in Hp; [|destruct Hp].
  apply in_flat_map. exists b. split; [eapply nth_error_In; exact Hb|]. destruct b. exact Hp.
Qed.

Fixpoint shadow_read (allow : option bm) (seen : list (Z * Z)) (files : list (list (Z * Z) * list (Z * Z))) : list (Z * Z) :=
  match files with
  | [] => []
  | (f, rd) :: older => filter (fun p => allowed allow p && negb (occurs (fst p) seen)) rd ++ shadow_read allow (seen ++ f) older
  end.

Definition readable_as (x : reader * (Z -> Z -> bool)) (y : list (Z * Z) * list (Z * Z)) : Prop :=
  solid (fst x) (fst y) /\ snd y = pairs_read (snd x) (fst x).

Lemma loop_read own opts : forall files rs0 (ios : list (Z -> Z -> bool)) rs deny seen vs result hp out rs' hp', valid hp own ->
  Forall2 (fun x r => cached hp own (fst x) (fst r) /\ snd x = snd r) (combine rs0 ios) rs -> Forall2 readable_as (combine rs0 ios) files ->
  (forall id, is_u64 id -> bm_contains deny id = occurs id seen) -> aggregate_of vs result ->
  zlen vs + zlen (concat (map fst files)) < two63 ->
  multiLoopIO opts rs deny result hp = (out, rs', hp') ->
  (out = Err ErrIO \/ exists res, out = Ok res /\ aggregate_of (vs ++ map snd (shadow_read (mo_filter opts) seen files)) res).
Proof.
  induction files as [|[f rd] files IH]; intros rs0 ios rs deny seen vs result hp out rs' hp' Hv Hc Hs Hd Ha Hlen HL.
  { inversion Hs as [E|]; subst. rewrite <- E in Hc. inversion Hc; subst. cbn [multiLoopIO] in HL. injection HL as <- <- <-.
    right. exists result. split; [reflexivity|]. cbn [shadow_read map]. rewrite app_nil_r. exact Ha. }
  inversion Hs as [|x y xs ys Hs1 Hs2 E]; subst. destruct rs0 as [|r0 rs0]; [discriminate|]. destruct ios as [|io ios]; [discriminate|].
  cbn [combine] in E. injection E as -> ->. cbn [combine] in Hc. inversion Hc as [|? [r io'] ? rest [Hc1 Eio] Hc2]; subst. cbn [fst snd] in Hc1, Eio. subst io'.
  cbn [multiLoopIO] in HL. destruct Hs1 as [(Hf & (blocks & HV & HP) & b & Hb & Hm) ERD]. cbn [fst snd] in *. subst rd.
  set (ro := mkOpts (mo_skip opts) (mo_filter opts) (Some deny) 0) in *.
  destruct (sequential_read io r0 blocks ro HV) as (res & HQ & Hans).
  { left. unfold has_filter, ro. cbn. destruct (mo_filter opts); reflexivity. }
  assert (HQ' : aggregateSequentialIO io r ro = Ok res).
  { destruct Hc1 as (p & on & -> & _). exact HQ. }
  rewrite HQ' in HL.
  destruct (bitmap_right io r hp) as [EB|EB]; rewrite EB in HL; [|injection HL as <- <- <-; left; reflexivity].
  pose proof (get_cached _ _ _ _ Hv Hc1) as G. rewrite Hb in G. destruct G as (p & r' & l & G1 & G2 & G3). rewrite G1, G2 in HL.
  destruct (multiLoopIO opts rest (bm_or deny b) _ (hp ++ l)) as [[out2 rs2] hp2] eqn:EL. injection HL as <- <- <-.
  set (vals := map snd (filter (fun q => allowed (mo_filter opts) q && negb (occurs (fst q) seen)) (pairs_read io r0))).
  assert (Hans' : aggregate_of vals res).
  { unfold vals. replace (filter _ (pairs_read io r0)) with (filter (fun p => passes (o_filter ro) (o_deny ro) (fst p)) (pairs_read io r0)); [exact Hans|].
    apply filter_ext_in'. intros q Hq. unfold passes, allowed, ro. cbn [o_filter o_deny]. f_equal. f_equal. apply Hd.
    pose proof (ids_u64 _ (v_good _ _ (v_indexed _ _ HV))) as HU. rewrite <- all_pairs_ids in HU by apply HV.
    rewrite Forall_forall in HU. apply HU. apply in_map. eapply view_read_incl; eassumption. }
  cbn [map concat] in Hlen. cbn [fst] in Hlen. rewrite zlen_app in Hlen.
  assert (Hrd : zlen (pairs_read io r0) <= zlen f).
  { replace (zlen f) with (zlen (all_pairs blocks)) by (unfold zlen; rewrite (Permutation_length HP); reflexivity).
    unfold pairs_read. rewrite (v_count _ _ (v_indexed _ _ HV)). unfold all_pairs.
    rewrite <- (map_nth_zseq' blocks pairs_of). 
    assert (G : forall l, (forall i, In i l -> 0 <= i < zlen blocks) ->
      zlen (flat_map (read_of io r0) l) <= zlen (flat_map (fun i => match nth_error blocks (Z.to_nat i) with Some b => pairs_of b | None => [] end) l)).
    { induction l0 as [|i l0 IHl]; intros H; [cbn; lia|]. cbn [flat_map]. rewrite !zlen_app.
      specialize (IHl (fun j Hj => H j (or_intror Hj))). destruct (one_block io r0 blocks i HV (H i (or_introl eq_refl))) as (bb & Hbb & _ & HR).
      rewrite Hbb. unfold read_of at 1. destruct HR as [HR|HR]; rewrite HR; [destruct bb as [x1 x2]; unfold pairs_of in *; cbn [fst snd]; lia|].
      pose proof (zlen_nonneg (pairs_of bb)). change (zlen (@nil (Z * Z))) with 0. lia. }
    apply G. intros i Hi. apply in_zseq in Hi. exact Hi. }
  assert (Hvl : zlen vals <= zlen (pairs_read io r0)) by (unfold vals; rewrite zlen_map; apply filter_le).
  pose proof (zlen_nonneg (concat (map fst files))) as Hnn.
  apply (IH rs0 ios rest (bm_or deny b) (seen ++ f) (vs ++ vals) _ (hp ++ l) out2 rs2 hp2) in EL.
  - cbn [shadow_read]. rewrite map_app, app_assoc. exact EL.
  - apply valid_extend. exact Hv.
  - eapply Forall2_impl; [|exact Hc2]. intros x y [X1 X2]. split; [apply cached_extend; exact X1|exact X2].
  - exact Hs2.
  - intros id Hid. rewrite law_or by exact Hid. rewrite (Hd id Hid), (Hm id Hid), occurs_app. reflexivity.
  - apply merge_aggregate; [lia|exact Ha|exact Hans'].
  - rewrite zlen_app. lia.
Qed.

(** The readers after a call, whether it failed or not, are still what they were. *)
Lemma get_keepsIO io hp own r0 r out r' hp' : valid hp own -> cached hp own r0 r -> GetGlobalIDBitmapIO io r hp = (out, r', hp') ->
  cached hp' own r0 r' /\ exists l, hp' = hp ++ l.
Proof.
  intros Hv Hc Hg. destruct (bitmap_right io r hp) as [E|E]; rewrite E in Hg; [eapply get_keeps; eassumption|].
  injection Hg as <- <- <-. split; [exact Hc|exists []; symmetry; apply app_nil_r].
Qed.
Lemma loop_keepsIO own opts : forall rs rs0 deny result hp out rs' hp', valid hp own -> Forall2 (cached hp own) rs0 (map fst rs) ->
  multiLoopIO opts rs deny result hp = (out, rs', hp') -> Forall2 (cached hp' own) rs0 rs' /\ exists l, hp' = hp ++ l.
Proof.
  induction rs as [|[r io] rs IH]; intros rs0 deny result hp out rs' hp' Hv Hc H; cbn [map fst] in Hc; inversion Hc as [|r0 ? rs0' ? Hc1 Hc2]; subst; cbn [multiLoopIO] in H.
  - injection H as <- <- <-. split; [constructor|exists []; symmetry; apply app_nil_r].
  - destruct (aggregateSequentialIO io r _) as [rr|e|]; try (injection H as <- <- <-; split; [exact Hc|exists []; symmetry; apply app_nil_r]).
    destruct (GetGlobalIDBitmapIO io r hp) as [[out1 r1] hp1] eqn:Eg.
    destruct (get_keepsIO _ _ _ _ _ _ _ _ Hv Hc1 Eg) as (K1 & l & ->).
    assert (S0 : Forall2 (cached (hp ++ l) own) (r0 :: rs0') (r1 :: map fst rs)) by (constructor; [exact K1|apply all_cached_extend; exact Hc2]).
    destruct out1 as [p|e|]; try (injection H as <- <- <-; split; [exact S0|eauto]).
    destruct (nth_error (hp ++ l) p) as [g|]; try (injection H as <- <- <-; split; [exact S0|eauto]).
    destruct (multiLoopIO opts rs (bm_or deny g) _ (hp ++ l)) as [[out2 rs2] hp2] eqn:El. injection H as <- <- <-.
    destruct (IH rs0' _ _ _ _ _ _ (valid_extend _ l _ Hv) (all_cached_extend _ l _ _ _ Hc2) El) as (K2 & l2 & ->).
    split; [constructor; [apply cached_extend; exact K1|exact K2]|]. exists (l ++ l2). apply app_assoc_reverse.
Qed.

Lemma shadow_read_app allow seen l f rd : shadow_read allow seen (l ++ [(f, rd)])
  = shadow_read allow seen l ++ filter (fun p => allowed allow p && negb (occurs (fst p) (seen ++ concat (map fst l)))) rd.
Proof.
  revert seen. induction l as [|[g rg] l IH]; intros seen; cbn [app shadow_read map concat fst]; [rewrite !app_nil_r; reflexivity|].
  rewrite IH, <- !app_assoc. reflexivity.
Qed.
Lemma shadow_visible_read allow files : Permutation (shadow_read allow [] (rev files)) (filter (allowed allow) (visible_read files)).
Proof.
  induction files as [|[f rd] newer IH]; cbn [rev visible_read]; [constructor|]. rewrite shadow_read_app, filter_app, Permutation_app_comm.
  apply Permutation_app; [|exact IH]. rewrite filter_filter. cbn [app].
  rewrite (filter_ext_in' _ (fun x => allowed allow x && negb (occurs (fst x) (concat (map fst newer))))); [reflexivity|].
  intros x _. rewrite map_rev, occurs_concat_rev. reflexivity.
Qed.

Lemma visible_read_incl files (rds : list (list (Z * Z))) : Forall2 (fun f rd => incl rd f) files rds ->
  incl (visible_read (combine files rds)) (visible files).
Proof.
  induction 1 as [|f rd files rds H HF IH]; cbn [combine visible_read visible]; intros p Hp; [exact Hp|].
  apply in_app_or in Hp. apply in_or_app. destruct Hp as [Hp|Hp]; [left|right; apply IH; exact Hp].
  apply filter_In in Hp. apply filter_In. destruct Hp as [H1 H2]. split; [apply H; exact H1|].
  replace (map fst (combine files rds)) with files in H2; [exact H2|]. clear - HF. induction HF; cbn; congruence.
Qed.

Lemma rev_combine {A B} (a : list A) (b : list B) : length a = length b -> rev (combine a b) = combine (rev a) (rev b).
Proof.
  revert b. induction a as [|x a IH]; intros [|y b] H; try discriminate; [reflexivity|]. injection H as H. cbn [combine rev].
  rewrite combine_app' by (rewrite !rev_length; exact H). rewrite IH by exact H. reflexivity.
Qed.
Lemma Forall2_combine_rev {A B} (P : A -> B -> Prop) l l' : Forall2 P (rev l) (rev l') -> Forall2 P l l'.
Proof. intros H. rewrite <- (rev_involutive l), <- (rev_involutive l'). apply Forall2_rev'. exact H. Qed.
Lemma fst_combine {A B} (a : list A) (b : list B) : length a = length b -> map fst (combine a b) = a.
Proof. revert b. induction a as [|x a IH]; intros [|y b] H; try discriminate; [reflexivity|]. cbn. f_equal. apply IH. injection H as H. exact H. Qed.
Lemma zlen_combine {A B} (a : list A) (b : list B) : length a = length b -> zlen (combine a b) = zlen a.
Proof. intros H. unfold zlen. rewrite combine_length, <- H, Nat.min_id. reflexivity. Qed.

Theorem multi_read rs0 files rs (ios : list (Z -> Z -> bool)) hp own opts out rs' hp' :
  Forall2 file_with rs0 files -> session rs0 rs hp own -> length ios = length rs0 -> zlen (concat files) < two63 ->
  MultiAggregateIO opts (combine rs ios) hp = (out, rs', hp') ->
  let reads := map (fun '(r, io) => pairs_read io r) (combine rs0 ios) in
  (out = Err ErrIO \/ exists res, out = Ok res
     /\ aggregate_of (map snd (filter (allowed (mo_filter opts)) (visible_read (combine files reads)))) res)
  /\ incl (visible_read (combine files reads)) (visible files)
  /\ forall opts', exists res rs'' hp'', MultiAggregate opts' rs' hp' = (Ok res, rs'', hp'')
       /\ aggregate_of (map snd (filter (allowed (mo_filter opts')) (visible files))) res.
Proof.
  intros HF Hs HL Hlen HM reads. destruct (files_solid _ _ HF) as [Hsol Hfr]. destruct (session_inv _ _ _ _ Hfr Hs) as [Hv Hc].
  assert (L1 : length rs0 = length files) by (eapply Forall2_length; exact HF).
  assert (L2 : length rs0 = length rs) by (eapply Forall2_length; exact Hc).
  assert (HRA : Forall2 readable_as (combine rs0 ios) (combine files reads)).
  { unfold reads. clear - HF Hsol HL. clear HF. revert ios HL. induction Hsol as [|r f rs0 files H _ IH]; intros [|io ios] HL; try discriminate; cbn [combine map]; constructor.
    - split; [exact H|reflexivity].
    - apply IH. injection HL as HL. exact HL. }
  assert (Lr : length reads = length files) by (unfold reads; rewrite map_length, combine_length, HL; lia).
  assert (HC2 : Forall2 (fun x r => cached hp own (fst x) (fst r) /\ snd x = snd r) (combine rs0 ios) (combine rs ios)).
  { clear - Hc HL. revert ios HL. induction Hc as [|r0 r rs0 rs H _ IH]; intros [|io ios] HL; try discriminate; cbn [combine]; constructor.
    - split; [exact H|reflexivity].
    - apply IH. injection HL as HL. exact HL. }
  assert (HKEEP : Forall2 (cached hp' own) rs0 rs' /\ exists l, hp' = hp ++ l).
  { unfold MultiAggregateIO in HM. rewrite (zlen_combine rs ios) in HM by congruence. destruct (zlen rs =? 0) eqn:E.
    - injection HM as <- <- <-. rewrite fst_combine by congruence. split; [exact Hc|exists []; symmetry; apply app_nil_r].
    - destruct (multiLoopIO opts (rev (combine rs ios)) bm_new zeroResult hp) as [[o2 r2] h2] eqn:EL. injection HM as <- <- <-.
      apply (loop_keepsIO own opts _ (rev rs0)) in EL; [|exact Hv|].
      + destruct EL as (K & l & ->). split; [|eauto]. rewrite <- (rev_involutive rs0). apply Forall2_rev'. exact K.
      + rewrite map_rev, fst_combine by congruence. apply Forall2_rev'. exact Hc. }
  destruct HKEEP as (K1 & l & Ehp). split; [|split].
  - unfold MultiAggregateIO in HM. rewrite (zlen_combine rs ios) in HM by congruence. destruct (zlen rs =? 0) eqn:E.
    + apply Z.eqb_eq in E. apply zlen_zero in E. subst rs. inversion Hc; subst. inversion HF; subst. injection HM as <- _ _. right.
      exists zeroResult. split; [reflexivity|]. exact zero_aggregate.
    + destruct (multiLoopIO opts (rev (combine rs ios)) bm_new zeroResult hp) as [[o2 r2] h2] eqn:EL. injection HM as <- <- <-.
      apply (loop_read own opts (rev (combine files reads)) (rev rs0) (rev ios) _ _ [] []) in EL; [|exact Hv| | | |exact zero_aggregate|].
      * destruct EL as [->|(res & -> & EL)]; [left; reflexivity|right]. exists res. split; [reflexivity|].
        eapply aggregate_perm; [|exact EL]. cbn [app]. apply Permutation_map. apply shadow_visible_read.
      * rewrite <- rev_combine by congruence. apply Forall2_rev'. exact HC2.
      * rewrite <- rev_combine by congruence. apply Forall2_rev'. exact HRA.
      * intros id Hid. rewrite law_new by exact Hid. reflexivity.
      * rewrite map_rev, zlen_concat_rev, fst_combine by congruence. change (zlen (@nil Z)) with 0. lia.
  - apply visible_read_incl. unfold reads. clear - Hsol HL. revert ios HL.
    induction Hsol as [|r f rs0 files (_ & (blocks & HV & HP) & _) _ IH]; intros [|io ios] HL; try discriminate; cbn [combine map]; constructor.
    + intros p Hp. eapply Permutation_in; [exact HP|]. eapply view_read_incl; eassumption.
    + apply IH. injection HL as HL. exact HL.
  - subst hp'. intros opts'. destruct (newest_wins_inv rs0 files rs' (hp ++ l) own opts' HF (valid_extend _ l _ Hv) K1 Hlen) as (res & rs'' & hp'' & new & E1 & E2 & _).
    eauto.
Qed.

(** ** Files written by a Writer *)
Theorem finished_read options faults h now w r io g sched opts x :
  finished_run options faults h now w -> faithful (encoding_of options) -> NewReader (bytes_of w) = Ok r ->
  has_filter opts = true \/ o_skip opts = true ->
  AggregateWithOptionsIO io g sched r opts = Some x ->
  exists res, x = Ok res
    /\ aggregate_of (map snd (filter (fun p => passes (o_filter opts) (o_deny opts) (fst p)) (pairs_read io r))) res.
Proof.
  intros H He HR Hu HA. destruct (finished_indexed _ _ _ _ _ H) as (r' & blocks & HR' & _ & _ & HV).
  rewrite HR in HR'. injection HR' as <-. destruct (HV He) as [HV1 _]. eapply aggregate_read; eassumption.
Qed.
Lemma footer_unread io g sched r opts : has_filter opts = false -> o_skip opts = false -> 0 < zlen (r_index r) ->
  AggregateWithOptionsIO io g sched r opts = AggregateWithOptions g sched r opts.
Proof.
  intros Hf Hs Hl. assert (Hu : (zlen (r_index r) >? 0) = true) by (apply Z.gtb_lt; lia).
  assert (E : aggregateSequentialIO io r opts = aggregateSequential r opts).
  { unfold aggregateSequentialIO, aggregateSequential. rewrite Hf, Hs, Hu. reflexivity. }
  unfold AggregateWithOptionsIO, AggregateWithOptions. rewrite E. destruct (o_parallel opts =? 0); [reflexivity|].
  destruct (parallelPlan g r opts) as [| | |idx n|idx n] eqn:EP; try reflexivity. exfalso. revert EP.
  unfold parallelPlan. rewrite Hf, Hs, Hu. cbv zeta. destruct (_ || _); [discriminate|].
  destruct (make_panics _ 8); [discriminate|]. destruct (zlen _ =? 0); [discriminate|]. destruct (make_panics _ 40); discriminate.
Qed.
End F.
