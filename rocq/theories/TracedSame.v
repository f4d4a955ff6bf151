(** What a call returns and reads depends only on the bytes it reads. *)
From Verif Require Import Machine MachineFacts Encoding Sroar Writer Reader Aggregate Parallel Multi Spec AnySpec DamageSpec Racing RacingSpec
  ArbFacts AggFacts ParallelFacts AggProps AnyFacts DamageFacts RacingFacts TracedFacts.
From Verif Require Import Traced TracedSpec.
From Coq Require Import Lia ZifyBool.
Local Open Scope Z_scope.

Lemma agree_app l1 l2 d d' : agree_on (l1 ++ l2) d d' -> agree_on l1 d d' /\ agree_on l2 d d'.
Proof. intros H. split; intros off n Hi; apply H, in_or_app; auto. Qed.
Lemma read_same d d' open off n : agree_on (snd (readBytesT d open off n)) d d' -> readBytesT d' open off n = readBytesT d open off n.
Proof.
  unfold readBytesT. cbn [snd]. intros H. f_equal. unfold readBytesAt. destruct (Z.ltb_spec n 0); [reflexivity|]. destruct (Z.ltb_spec off 0); [reflexivity|].
  destruct (Z.eqb_spec n 0); [reflexivity|]. destruct open; [|reflexivity]. cbn [negb]. destruct (_ >? _); [reflexivity|]. cbn zeta.
  destruct (Z.leb_spec 0 off); [|lia]. destruct (Z.ltb_spec 0 n); [|lia]. cbn [andb] in H. rewrite (H off n (or_introl eq_refl)). reflexivity.
Qed.
(** [same d d' m m']: if the files agree on the reads of [m], then [m'] is [m]. *)
Definition same {A} (d d' : list Z) (m m' : traced A) : Prop := agree_on (snd m) d d' -> m' = m.
Lemma same_refl {A} d d' (m : traced A) : same d d' m m.
Proof. intros _. reflexivity. Qed.
Lemma same_read d d' open off n : same d d' (readBytesT d open off n) (readBytesT d' open off n).
Proof. intros H. apply read_same. exact H. Qed.
Lemma same_bind {A B} d d' (m m' : traced A) (f f' : A -> traced B) : same d d' m m' -> (forall a, same d d' (f a) (f' a)) -> same d d' (tbind m f) (tbind m' f').
Proof.
  intros Hm Hf H. unfold tbind in *. destruct (fst m) as [a|e|] eqn:E; cbn [snd] in H.
  - apply agree_app in H. destruct H as [H1 H2]. rewrite (Hm H1), E, (Hf a H2). reflexivity.
  - rewrite (Hm H), E. reflexivity.
  - rewrite (Hm H), E. reflexivity.
Qed.
Ltac same_ := repeat match goal with
  | |- same _ _ (readBytesT _ _ _ _) _ => apply same_read
  | |- same _ _ (tbind _ _) _ => apply same_bind; [|intros ?]
  | |- same _ _ (plain _) _ => apply same_refl
  | |- same _ _ (if ?b then _ else _) (if ?b then _ else _) => destruct b
  end.
Lemma header_same d d' : same d d' (readHeaderT d) (readHeaderT d').
Proof. unfold readHeaderT. same_. Qed.
Lemma footer_same d d' h : zlen d' = zlen d -> same d d' (readFooterT d h) (readFooterT d' h).
Proof. intros L. unfold readFooterT. cbv zeta. rewrite L. same_. Qed.
Definition parts (d : list Z) : traced (fileHeader * footerMetadata * list footerEntry) := tbind (readHeaderT d) (fun h => readFooterT d h).
Lemma open_parts d : NewReaderT d = tbind (parts d) (fun p => plain (Ok (mkReader d true (fst (fst p)) (snd (fst p)) (snd p) None false))).
Proof.
  unfold NewReaderT, parts. destruct (readHeaderT d) as [[h|e|] t]; unfold tbind; cbn [fst snd]; try reflexivity.
  destruct (readFooterT d h) as [[[[h' m] ix]|e|] t']; cbn [fst snd plain]; rewrite ?app_assoc; reflexivity.
Qed.
Lemma parts_same d d' : zlen d' = zlen d -> same d d' (parts d) (parts d').
Proof. intros L. unfold parts. apply same_bind; [apply header_same|]. intros h. apply footer_same. exact L. Qed.
Theorem open_same_bytes d d' : zlen d' = zlen d -> agree_on (snd (NewReaderT d)) d d' ->
  snd (NewReaderT d') = snd (NewReaderT d)
  /\ NewReader d' = match NewReader d with Ok r => Ok (on_bytes r d') | Err e => Err e | Panic => Panic end.
Proof.
  intros L. rewrite <- !open_fst, !open_parts. rewrite snd_quiet by reflexivity. intros H. rewrite (parts_same d d' L H).
  destruct (parts d) as [[p|e|] t]; unfold tbind; cbn [fst snd plain]; rewrite ?app_nil_r; split; reflexivity.
Qed.

Section Reader.
Variable r : reader.
Variable d' : list Z.
Notation r' := (on_bytes r d').
Lemma same_block i : same (r_data r) d' (readBlockT r i) (readBlockT r' i).
Proof. unfold readBlockT. cbn [on_bytes r_index r_data r_open r_header]. destruct (_ || _); [same_|]. destruct (nth_error _ _); [|same_]. cbv zeta. same_. Qed.
Lemma same_pairs i : same (r_data r) d' (GetPairsT r i) (GetPairsT r' i).
Proof. apply same_block. Qed.

Context {Srr : Sroar}.
Lemma same_load : same (r_data r) d' (loadGlobalIDBitmapT r) (loadGlobalIDBitmapT r').
Proof. unfold loadGlobalIDBitmapT. cbn [on_bytes r_header r_data r_open]. same_. Qed.
Lemma same_bitmap h : agree_on (snd (GetGlobalIDBitmapT r h)) (r_data r) d' ->
  snd (GetGlobalIDBitmapT r' h) = snd (GetGlobalIDBitmapT r h)
  /\ fst (fst (fst (GetGlobalIDBitmapT r' h))) = fst (fst (fst (GetGlobalIDBitmapT r h)))
  /\ snd (fst (GetGlobalIDBitmapT r' h)) = snd (fst (GetGlobalIDBitmapT r h)).
Proof.
  unfold GetGlobalIDBitmapT. cbn [on_bytes r_globalIDs r_cacheGlobalIDs]. pose proof same_load as SL. unfold same in SL.
  destruct (r_globalIDs r), (r_cacheGlobalIDs r); try (intros _; repeat split; reflexivity);
    destruct (loadGlobalIDBitmapT r) as [m t] eqn:E; destruct m; cbn [snd fst alloc] in *; intros H; rewrite (SL H); cbn [snd fst]; repeat split; reflexivity.
Qed.
Lemma same_filtered i f d : same (r_data r) d' (readBlockFilteredT r i f d) (readBlockFilteredT r' i f d).
Proof. unfold readBlockFilteredT. apply same_bind; [apply same_block|]. intros [ids vs]. apply same_refl. Qed.
Lemma same_scan (get get' : Z -> traced (list Z * list Z)) idx : (forall i, same (r_data r) d' (get i) (get' i)) ->
  forall a, same (r_data r) d' (scanT get idx a) (scanT get' idx a).
Proof.
  intros HG. induction idx as [|i idx IH]; intros a; [apply same_refl|]. cbn [scanT]. apply same_bind; [|exact IH].
  intros H. cbn [snd] in H. rewrite (HG i H). reflexivity.
Qed.
Lemma same_sequential opts : same (r_data r) d' (aggregateSequentialT r opts) (aggregateSequentialT r' opts).
Proof.
  unfold aggregateSequentialT, aggregateWithFilterT. cbn [on_bytes r_index]. change (BlockCount r') with (BlockCount r).
  change (FilteredBlockIterator r' (o_filter opts) (o_deny opts)) with (FilteredBlockIterator r (o_filter opts) (o_deny opts)).
  destruct (has_filter opts).
  - apply same_bind; [apply same_refl|]. intros l. destruct (_ =? 0); [apply same_refl|]. apply same_bind; [|intros; apply same_refl].
    apply same_scan. intros i. apply same_filtered.
  - destruct (_ && _); [apply same_refl|]. apply same_bind; [|intros; apply same_refl]. apply same_scan. apply same_pairs.
Qed.

(** Workers. *)
Lemma step_read blk blk' idx n s t : (forall i a, reads_next s t = Some i -> blk' i a = blk i a) -> step blk' idx n s t = step blk idx n s t.
Proof.
  intros H. unfold step, reads_next in *. destruct (p_crashed s); [reflexivity|]. destruct t as [|w]; [reflexivity|]. unfold step_worker.
  destruct (nth_error (p_workers s) w) as [[| |[|i todo] a|x| |]|]; try reflexivity. rewrite (H i a eq_refl). reflexivity.
Qed.
Lemma run_read blk blk' idx n sched : forall s, (forall i a, In i (worker_reads blk idx n sched s) -> blk' i a = blk i a) ->
  run blk' idx n sched s = run blk idx n sched s /\ worker_reads blk' idx n sched s = worker_reads blk idx n sched s.
Proof.
  induction sched as [|t sched IH]; intros s H; [split; reflexivity|]. cbn [worker_reads run] in *.
  rewrite (step_read blk blk' idx n s t).
  - destruct (IH (match step blk idx n s t with Some s' => s' | None => s end)) as [A B].
    + intros i a Hi. apply H, in_or_app. right. exact Hi.
    + rewrite B. split; [exact A|reflexivity].
  - intros i a E. apply H, in_or_app. left. rewrite E. left. reflexivity.
Qed.
Lemma same_aggregate g sched opts : agree_on (snd (AggregateWithOptionsT g sched r opts)) (r_data r) d' ->
  AggregateWithOptionsT g sched r' opts = AggregateWithOptionsT g sched r opts.
Proof.
  unfold AggregateWithOptionsT. cbv zeta. change (parallelPlan g r' opts) with (parallelPlan g r opts).
  assert (SEQ : agree_on (snd (aggregateSequentialT r opts)) (r_data r) d' -> aggregateSequentialT r' opts = aggregateSequentialT r opts) by apply same_sequential.
  destruct (o_parallel opts =? 0); [cbn [snd]; intros H; rewrite (SEQ H); reflexivity|].
  destruct (parallelPlan g r opts) as [| | |idx n|idx n]; cbn [snd].
  1: intros H; rewrite (SEQ H); reflexivity.
  1-2: intros _; reflexivity.
  1: intros _; change (blk_footer r') with (blk_footer r); reflexivity.
  intros H. set (wr := worker_reads (blk_read r opts) idx n sched (pinit n)) in *.
  assert (RB : forall i, In i wr -> readBlockT r' (i64 i) = readBlockT r (i64 i)).
  { intros i Hi. apply same_block. intros off k Hk. apply H. apply in_flat_map. exists i. auto. }
  destruct (run_read (blk_read r opts) (blk_read r' opts) idx n sched (pinit n)) as [A B].
  { intros i a Hi. specialize (RB i Hi). unfold blk_read, readBlockFiltered, GetPairs. rewrite <- !block_fst, RB. reflexivity. }
  rewrite A, B. fold wr. f_equal. apply flat_map_same. intros i Hi. rewrite (RB i Hi). reflexivity.
Qed.
End Reader.
