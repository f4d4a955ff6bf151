(** What a call reads. *)
From Coq Require Import Permutation.
From Verif Require Import Machine MachineFacts Encoding EncodingFacts FileIO Sroar Writer Reader Aggregate Parallel Multi Shared Spec MultiSpec AnySpec DamageSpec Racing RacingSpec Traced TracedSpec
  ArbFacts WriterFacts FinalFacts ReaderFacts WriterProps AggFacts ParallelFacts AggProps CloseFacts PowerFacts AnyFacts DamageFacts RacingFacts.
From Coq Require Import Lia ZifyBool.
Ltac Zify.zify_post_hook ::= Z.div_mod_to_equations.
From Verif Require Import Traced TracedSpec.
Local Open Scope Z_scope.

(** ** The answers are those of the functions without the reads *)
Lemma fst_bind {A B} (m : traced A) (f : A -> traced B) (k : A -> res B) :
  (forall a, fst (f a) = k a) -> fst (tbind m f) = rbind (fst m) k.
Proof. intros H. unfold tbind, rbind. destruct (fst m); cbn [fst]; auto. Qed.
Lemma fst_if {A} (b : bool) (x y : traced A) : fst (if b then x else y) = if b then fst x else fst y.
Proof. destruct b; reflexivity. Qed.
Ltac erase := repeat first [progress cbv zeta | rewrite fst_if | reflexivity
  | match goal with |- (if ?b then _ else _) = (if ?b then _ else _) => destruct b; [reflexivity|] end
  | apply fst_bind; let x := fresh "x" in intros x; try destruct x as [x ?]; try destruct x as [x ?]].
Lemma header_fst data : fst (readHeaderT data) = readHeader data.
Proof. unfold readHeaderT, readHeader. repeat (apply fst_bind; intros ?). reflexivity. Qed.
Lemma footer_fst data h : fst (readFooterT data h) = readFooter data h.
Proof.
  unfold readFooterT, readFooter. cbv zeta. destruct (zlen data <? 24); [reflexivity|].
  do 4 (apply fst_bind; intros ?). destruct (negb _); [reflexivity|]. destruct (_ <? 64); [reflexivity|].
  repeat (apply fst_bind; intros ?). reflexivity.
Qed.
Lemma open_fst data : fst (NewReaderT data) = NewReader data.
Proof.
  unfold NewReaderT, NewReader. rewrite <- header_fst. apply fst_bind. intros h. rewrite <- footer_fst. apply fst_bind.
  intros [[h' m] ix]. reflexivity.
Qed.
Lemma block_fst r i : fst (readBlockT r i) = readBlock r i.
Proof.
  unfold readBlockT, readBlock. destruct (_ || _); [reflexivity|]. destruct (nth_error _ _); [|reflexivity]. cbv zeta.
  repeat (apply fst_bind; intros ?). reflexivity.
Qed.
Lemma pairs_fst r i : fst (GetPairsT r i) = GetPairs r i.
Proof. apply block_fst. Qed.

Section Bitmaps.
Context {Srr : Sroar}.
Lemma load_fst r : fst (loadGlobalIDBitmapT r) = loadGlobalIDBitmap r.
Proof. unfold loadGlobalIDBitmapT, loadGlobalIDBitmap. destruct (_ || _); [reflexivity|]. cbv zeta. repeat (apply fst_bind; intros ?). reflexivity. Qed.
Lemma bitmap_fst r h : fst (GetGlobalIDBitmapT r h) = GetGlobalIDBitmap r h.
Proof.
  unfold GetGlobalIDBitmapT, GetGlobalIDBitmap. rewrite <- load_fst. destruct (loadGlobalIDBitmapT r) as [m t]. cbn [fst].
  destruct (r_globalIDs r), (r_cacheGlobalIDs r); destruct m; cbn [fst]; try reflexivity.
Qed.
Lemma filtered_fst r i f d : fst (readBlockFilteredT r i f d) = readBlockFiltered r i f d.
Proof. unfold readBlockFilteredT, readBlockFiltered. rewrite <- block_fst. apply fst_bind. intros [ids vs]. reflexivity. Qed.
Lemma scan_fst getT get idx : (forall i, fst (getT i) = get i) -> forall a, fst (scanT getT idx a) = scan get idx a.
Proof.
  intros H. induction idx as [|i idx IH]; intros a; [reflexivity|]. cbn [scanT scan]. rewrite <- (H i).
  change (add_block a (fst (getT i))) with (fst (add_block a (fst (getT i)), snd (getT i))) at 2. apply fst_bind. exact IH.
Qed.
Lemma sequential_fst r opts : fst (aggregateSequentialT r opts) = aggregateSequential r opts.
Proof.
  unfold aggregateSequentialT, aggregateSequential. destruct (has_filter opts).
  - unfold aggregateWithFilterT, aggregateWithFilter. change (FilteredBlockIterator r (o_filter opts) (o_deny opts)) with (fst (plain (FilteredBlockIterator r (o_filter opts) (o_deny opts)))) at 2.
    apply fst_bind. intros l. destruct (_ =? 0); [reflexivity|]. rewrite <- (scan_fst (fun i => readBlockFilteredT r (i64 i) (o_filter opts) (o_deny opts))) by (intros; apply filtered_fst).
    apply fst_bind. reflexivity.
  - destruct (_ && _); [reflexivity|]. rewrite <- (scan_fst (GetPairsT r)) by (intros; apply pairs_fst). apply fst_bind. reflexivity.
Qed.
Lemma aggregate_fst g sched r opts : fst (AggregateWithOptionsT g sched r opts) = AggregateWithOptions g sched r opts.
Proof.
  unfold AggregateWithOptionsT, AggregateWithOptions. cbv zeta. rewrite sequential_fst.
  destruct (o_parallel opts =? 0); [reflexivity|]. destruct (parallelPlan g r opts); reflexivity.
Qed.
Lemma loop_fst opts : forall rs deny result h, fst (multiLoopT opts rs deny result h) = multiLoop opts rs deny result h.
Proof.
  induction rs as [|r rs IH]; intros deny result h; [reflexivity|]. cbn [multiLoopT multiLoop]. rewrite <- sequential_fst.
  destruct (aggregateSequentialT r _) as [m t]. cbn [fst]. destruct m as [res| |]; [|reflexivity|reflexivity].
  rewrite <- bitmap_fst. destruct (GetGlobalIDBitmapT r h) as [[[[p|e|] r'] h'] t']; cbn [fst]; [|reflexivity|reflexivity].
  destruct (nth_error h' p) as [b|]; [|reflexivity]. rewrite <- IH.
  destruct (multiLoopT opts rs (bm_or deny b) _ h') as [[[x rs'] h''] ts]. reflexivity.
Qed.
Lemma multi_fst opts rs h : fst (MultiAggregateT opts rs h) = MultiAggregate opts rs h.
Proof.
  unfold MultiAggregateT, MultiAggregate. destruct (zlen rs =? 0); [reflexivity|]. rewrite <- loop_fst.
  destruct (multiLoopT opts (rev rs) bm_new zeroResult h) as [[[x rs'] h''] ts]. reflexivity.
Qed.
End Bitmaps.

(** ** The reads *)
Lemma snd_plain {A B} (m : traced A) (f : A -> res B) : snd (tbind m (fun a => plain (f a))) = snd m.
Proof. unfold tbind, plain. destruct (fst m); cbn [snd]; [apply app_nil_r|reflexivity|reflexivity]. Qed.
Lemma snd_quiet {A B} (m : traced A) (f : A -> traced B) : (forall a, snd (f a) = []) -> snd (tbind m f) = snd m.
Proof. intros H. unfold tbind. destruct (fst m); cbn [snd]; [rewrite H; apply app_nil_r|reflexivity|reflexivity]. Qed.
Ltac quiet := repeat (rewrite snd_quiet; [|intros ?]; try reflexivity).

Lemma block_reads r i : snd (readBlockT r i)
  = if (i <? 0) || (i >=? zlen (r_index r)) then []
    else match nth_error (r_index r) (Z.to_nat i) with
         | None => []
         | Some e => let off := i64 (i64 (e_offset e) + 64) in
                     if (0 <=? off) && (0 <? e_size e - 64) && r_open r then [(off, e_size e - 64)] else []
         end.
Proof.
  unfold readBlockT. destruct (_ || _); [reflexivity|]. destruct (nth_error _ _) as [e|]; [|reflexivity]. cbv zeta.
  rewrite snd_quiet; [reflexivity|]. intros buf. quiet.
Qed.
Lemma header_reads data h : fst (readHeaderT data) = Ok h -> snd (readHeaderT data) = [(0, 64)].
Proof. intros _. unfold readHeaderT. rewrite snd_quiet; [reflexivity|]. intros buf. quiet. Qed.

Lemma bind_ok {A B} (m : traced A) (f : A -> traced B) b : fst (tbind m f) = Ok b ->
  exists a, fst m = Ok a /\ fst (f a) = Ok b /\ snd (tbind m f) = snd m ++ snd (f a).
Proof. unfold tbind. destruct (fst m) as [a| |]; cbn [fst snd]; try discriminate. intros H. exists a. auto. Qed.
Lemma footer_reads data h h' m ix : fst (readFooterT data h) = Ok (h', m, ix) ->
  let S := i64 (zlen data - 24 - i64 (fm_size m)) in
  snd (readFooterT data h) = [(zlen data - 24, 24); (S, 4)] ++ match ix with [] => [] | _ => [(S + 4, 56 * zlen ix)] end.
Proof.
  unfold readFooterT. cbv zeta. destruct (Z.ltb_spec (zlen data) 24) as [|L]; [discriminate|]. intros H.
  apply bind_ok in H. destruct H as (buf & E1 & H & ->). apply bind_ok in H. destruct H as (fs & E2 & H & ->).
  apply bind_ok in H. destruct H as (ck & E3 & H & ->). apply bind_ok in H. destruct H as (mg & E4 & H & ->).
  cbn [plain snd app]. destruct (negb _); [discriminate|]. destruct (Z.ltb_spec (i64 (zlen data - 24 - i64 fs)) 64) as [|G]; [discriminate|].
  set (S := i64 (zlen data - 24 - i64 fs)) in *.
  apply bind_ok in H. destruct H as (cbuf & E5 & H & ->). apply bind_ok in H. destruct H as (c & E6 & H & ->).
  apply bind_ok in H. destruct H as (ibuf & E7 & H & ->). apply bind_ok in H. destruct H as (es & E8 & H & ->).
  cbn [plain snd fst] in *. apply ok_inj in H. injection H as _ <- <-. cbn [fm_size]. rewrite ?app_nil_r. cbn [app]. fold S.
  unfold readBytesT in *. cbn [fst snd] in *.
  assert (HC : 0 <= c). { unfold readBytesAt in E7. destruct (Z.ltb_spec (c * 56) 0); [discriminate|lia]. }
  apply readEntries_len in E8. rewrite zlen_zseq in E8.
  replace (0 <=? zlen data - 24) with true by (symmetry; apply Z.leb_le; lia). replace (0 <=? S) with true by (symmetry; apply Z.leb_le; lia).
  cbn [andb Z.ltb Z.compare app]. rewrite andb_true_r. f_equal. f_equal.
  destruct es as [|e es].
  - unfold zlen in E8. cbn [length] in E8. replace c with 0 by lia. rewrite andb_false_r. reflexivity.
  - rewrite zlen_cons in E8. pose proof (zlen_nonneg es).
    assert (O : i64 (S + 4) = S + 4).
    { unfold readBytesAt in E7. destruct (Z.ltb_spec (c * 56) 0); [lia|]. destruct (Z.ltb_spec (i64 (S + 4)) 0) as [|N]; [discriminate|].
      assert (is_i64 S) by (apply i64_range). unfold is_i64, i64, two63, two64 in *. lia. }
    rewrite O. replace (0 <=? S + 4) with true by (symmetry; apply Z.leb_le; lia). replace (0 <? c * 56) with true by (symmetry; apply Z.ltb_lt; lia).
    cbn [andb]. rewrite zlen_cons. replace (c * 56) with (56 * (1 + zlen es)) by lia. reflexivity.
Qed.
Theorem opening data r : NewReader data = Ok r -> snd (NewReaderT data) = opening_reads r.
Proof.
  rewrite <- open_fst. unfold NewReaderT. intros H. apply bind_ok in H. destruct H as (h & E1 & H & ->).
  rewrite (header_reads data h E1). apply bind_ok in H. destruct H as ([[h' m] ix] & E2 & H & ->). cbn [plain fst snd] in *. apply ok_inj in H. subst r.
  rewrite (footer_reads data h h' m ix E2), app_nil_r. reflexivity.
Qed.

Section Aggregations.
Context {Srr : Sroar}.
Lemma scan_reads (getT : Z -> traced (list Z * list Z)) idx : (forall i, In i idx -> fst (getT i) <> Panic) ->
  forall a, snd (scanT getT idx a) = flat_map (fun i => snd (getT i)) idx.
Proof.
  induction idx as [|i idx IH]; intros H a; [reflexivity|]. cbn [scanT flat_map]. unfold tbind. cbn [fst snd].
  assert (X : exists a', add_block a (fst (getT i)) = Ok a').
  { specialize (H i (or_introl eq_refl)). destruct (fst (getT i)) as [[ids vs]| |]; cbn [add_block]; eauto. congruence. }
  destruct X as [a' ->]. cbn [snd]. rewrite IH; [reflexivity|]. intros j Hj. apply H. right. exact Hj.
Qed.
Lemma filtered_reads_same r i f d : snd (readBlockFilteredT r i f d) = snd (readBlockT r i).
Proof. unfold readBlockFilteredT. apply snd_quiet. intros [ids vs]. reflexivity. Qed.

(** A schedule in which all reads work. *)
Lemma run_open (blk : bool -> Z -> acc -> res acc) idx n sched : forall s, run_at blk idx n (while_open sched) s = run (blk true) idx n sched s.
Proof. induction sched as [|t sched IH]; intros s; [reflexivity|]. cbn [while_open map run_at run]. apply IH. Qed.
Lemma worker_open (blk : bool -> Z -> acc -> res acc) idx n sched : forall s,
  worker_reads (blk true) idx n sched s = map fst (reads_at blk idx n (while_open sched) s).
Proof.
  induction sched as [|t sched IH]; intros s; [reflexivity|]. cbn [while_open map reads_at worker_reads fst snd]. rewrite map_app. f_equal.
  - destruct (reads_next s t); reflexivity.
  - apply IH.
Qed.

Section Reader.
Variable r : reader.
Variable opts : aggOptions.
Hypothesis Ho : r_open r = true.
Hypothesis HC : Forall (fun e => 0 <= e_count e) (r_index r).
Hypothesis HS : Forall (fun e => 80 <= e_size e) (r_index r).
Hypothesis HL : zlen (r_index r) <= BlockCount r.
Hypothesis HB : BlockCount r <= 2 ^ 42.
Hypothesis HU : reads_data r opts.
Hypothesis HT : zlen (all_taken r (o_filter opts) (o_deny opts)) < two63.
Notation idx := (blocks_to_read r opts).
Notation rd := (fun i => snd (GetPairsT r i)).

Lemma reads_candidates : idx = candidates r opts.
Proof using HL.
  clear HT HU HS HB HC. unfold blocks_to_read, candidates. pose proof (zlen_nonneg (r_index r)) as Hn.
  assert (ALL : forall l : list Z, l = List.filter (fun _ => true) l) by (induction l as [|x l IH]; cbn; congruence).
  unfold has_filter. destruct (o_filter opts) as [f|] eqn:Ef.
  - rewrite matching_numbers. unfold zseq.
    replace (Z.to_nat (BlockCount r)) with (Z.to_nat (zlen (r_index r)) + Z.to_nat (BlockCount r - zlen (r_index r)))%nat by (clear - HL Hn; lia).
    rewrite seq_app, map_app, List.filter_app.
    replace (List.filter _ (map Z.of_nat (seq (0 + Z.to_nat (zlen (r_index r))) _))) with (@nil Z); [rewrite app_nil_r; reflexivity|].
    symmetry. apply filter_none. intros i Hi. apply in_map_iff in Hi. destruct Hi as (k & <- & Hk). apply in_seq in Hk.
    cbn [claimed_in_range]. rewrite Nat2Z.id. destruct (nth_error (r_index r) k) eqn:E; [|reflexivity].
    apply nth_error_Some' in E. unfold zlen in *. clear - E Hk. lia.
  - cbn [claimed_in_range]. destruct (o_deny opts); apply ALL.
Qed.
Lemma no_panic i : read_one r opts i <> Panic.
Proof using Ho HC HS. pose proof (no_panic_at r opts Ho HC HS true i) as N. rewrite (open_same r Ho) in N. exact N. Qed.

Lemma sequential_reads : snd (aggregateSequentialT r opts) = flat_map rd idx.
Proof.
  pose proof (reads_no_footer r opts HU) as EF. pose proof (zlen_nonneg (r_index r)) as Hn. pose proof no_panic as NP. unfold read_one in NP.
  unfold aggregateSequentialT, blocks_to_read, uses_footer in *. destruct (has_filter opts) eqn:Ef.
  - unfold aggregateWithFilterT.
    assert (EI : FilteredBlockIterator r (o_filter opts) (o_deny opts) = Ok (matchingBlocks r (o_filter opts) (o_deny opts))).
    { unfold FilteredBlockIterator. destruct (o_filter opts); [reflexivity|]. rewrite (make_fine _ 8 (2 ^ 48)) by lia. reflexivity. }
    rewrite EI. unfold tbind at 1. cbn [plain fst snd app]. destruct (zlen _ =? 0) eqn:E0.
    + apply Z.eqb_eq in E0. destruct (matchingBlocks _ _ _) as [|x l]; [reflexivity|]. rewrite zlen_cons in E0. pose proof (zlen_nonneg l). lia.
    + rewrite snd_quiet by reflexivity. rewrite scan_reads; [apply flat_map_ext; intros i; apply filtered_reads_same|].
      intros i _. rewrite filtered_fst. apply NP.
  - cbn [negb] in EF. rewrite andb_true_r in EF. rewrite EF. rewrite snd_quiet by reflexivity. rewrite scan_reads; [reflexivity|].
    intros i _. rewrite pairs_fst. apply NP.
Qed.
Theorem aggregate_reads g sched x rs : AggregateWithOptionsT g sched r opts = (Some x, rs) ->
  Permutation rs (flat_map rd (candidates r opts)) /\ (o_parallel opts = 0 -> rs = flat_map rd (candidates r opts)).
Proof.
  intros H. rewrite <- reads_candidates.
  assert (SEQ : (Some (fst (aggregateSequentialT r opts)), snd (aggregateSequentialT r opts)) = (Some x, rs) ->
    Permutation rs (flat_map rd idx) /\ (o_parallel opts = 0 -> rs = flat_map rd idx)).
  { intros E. injection E as _ <-. rewrite sequential_reads. auto. }
  unfold AggregateWithOptionsT in H. cbv zeta in H. destruct (Z.eqb_spec (o_parallel opts) 0) as [|Hp]; [apply SEQ; exact H|].
  split; [|intros; contradiction].
  pose proof (reads_no_footer r opts HU) as EF. pose proof (zlen_nonneg (r_index r)) as Hn.
  assert (EI : FilteredBlockIterator r (o_filter opts) (o_deny opts) = Ok (matchingBlocks r (o_filter opts) (o_deny opts))).
  { unfold FilteredBlockIterator. destruct (o_filter opts); [reflexivity|]. rewrite (make_fine _ 8 (2 ^ 48)) by lia. reflexivity. }
  assert (Z0 : forall l : list Z, zlen l =? 0 = true -> l = []) by (intros l E; apply Z.eqb_eq in E; destruct l as [|y l]; [reflexivity|rewrite zlen_cons in E; pose proof (zlen_nonneg l); lia]).
  unfold parallelPlan in H. rewrite (i64_id (BlockCount r)) in H by (unfold is_i64, two63; lia). cbv zeta in H.
  set (nw := if o_parallel opts <? 0 then g else o_parallel opts) in *. set (m := if nw >? BlockCount r then BlockCount r else nw) in *.
  assert (Hm : m <= BlockCount r) by (unfold m; destruct (Z.gtb_spec nw (BlockCount r)); lia).
  destruct (Z.leb_spec m 1) as [|Hm1]; [apply SEQ; exact H|].
  destruct (BlockCount r <=? 1); [apply SEQ; exact H|]. cbn [orb] in H.
  rewrite (make_fine (BlockCount r) 8 (2 ^ 48)) in H by lia. rewrite (make_fine m 40 (2 ^ 48)) in H by lia.
  replace (if has_filter opts then FilteredBlockIterator r (o_filter opts) (o_deny opts) else @Ok (list Z) (zseq (BlockCount r)))
    with (@Ok (list Z) idx) in H by (unfold blocks_to_read; destruct (has_filter opts); [symmetry; exact EI|reflexivity]).
  destruct (zlen idx =? 0) eqn:E0.
  { injection H as _ <-. rewrite (Z0 _ E0). reflexivity. }
  replace ((zlen (r_index r) >? 0) && negb (o_skip opts) && negb (has_filter opts)) with false in H by (symmetry; exact EF).
  assert (Hne : idx <> []) by (intros E; rewrite E in E0; discriminate).
  assert (EB : blk_read r opts = blk_at r opts true) by (unfold blk_at; rewrite (open_same r Ho); reflexivity).
  rewrite EB in H. rewrite worker_open, <- run_open in H. injection H as HX <-.
  assert (Hn0 : (0 < Z.to_nat m)%nat) by (clear - Hm1; lia).
  destruct (machine_result r opts Ho HC HS HL HB HT (Z.to_nat m) (while_open sched) x Hn0 Hne HX) as [P _].
  apply Permutation_flat_map. exact P.
Qed.
End Reader.

(** Aggregating from the index reads nothing. *)
Theorem footer_reads_nothing r opts g sched : ~ reads_data r opts -> snd (AggregateWithOptionsT g sched r opts) = [].
Proof.
  intros H. assert (E : has_filter opts = false /\ (zlen (r_index r) >? 0) && negb (o_skip opts) = true).
  { unfold reads_data, has_filter in *. destruct (o_filter opts); [exfalso; apply H; left; discriminate|].
    destruct (o_deny opts); [exfalso; apply H; right; left; discriminate|]. destruct (o_skip opts); [exfalso; apply H; auto|].
    destruct (r_index r) as [|e l]; [exfalso; apply H; auto|]. split; [reflexivity|]. rewrite zlen_cons. pose proof (zlen_nonneg l).
    destruct (Z.gtb_spec (1 + zlen l) 0); [reflexivity|lia]. }
  destruct E as [E1 E2]. assert (S : snd (aggregateSequentialT r opts) = []) by (unfold aggregateSequentialT; rewrite E1, E2; reflexivity).
  unfold AggregateWithOptionsT. cbv zeta. rewrite S. destruct (_ =? 0); [reflexivity|].
  destruct (parallelPlan g r opts) eqn:EP; try reflexivity. exfalso.
  unfold parallelPlan in EP. cbv zeta in EP. rewrite E1, E2 in EP. cbn [negb andb] in EP.
  repeat match type of EP with
  | context [if ?b then _ else _] => destruct b; try discriminate
  | context [match ?b with _ => _ end] => destruct b; try discriminate
  end.
Qed.
End Aggregations.
