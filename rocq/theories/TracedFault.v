(** Only the reads that a call makes can make it fail. *)
From Verif Require Import Machine MachineFacts Encoding Sroar Writer Reader Aggregate Parallel Multi Racing ReadFault
  ArbFacts AggFacts TracedFacts TracedSame.
From Verif Require Import Traced TracedSpec.
From Coq Require Import Lia ZifyBool.
Local Open Scope Z_scope.

Section Fault.
Variable io : Z -> Z -> bool.

Notation works := (works io).
Notation fails := (fails io).
Lemma works_app l1 l2 : works (l1 ++ l2) -> works l1 /\ works l2.
Proof. intros H. split; intros off n Hi; apply H, in_or_app; auto. Qed.
Lemma works_or_fails l : works l \/ fails l.
Proof.
  induction l as [|[o n] l [W|(a & b & I & F)]]; [left; intros ? ? []| |right; exists a, b; split; [right; exact I|exact F]].
  destruct (io o n) eqn:E; [left|right; exists o, n; split; [left; reflexivity|exact E]]. intros a b [X|X]; [injection X as <- <-; exact E|apply W; exact X].
Qed.
(** [m'] is what becomes of [m] when reads fail. *)
Definition follows {A} (m : traced A) (m' : res A) : Prop :=
  (works (snd m) -> m' = fst m) /\ (fails (snd m) -> m' = Err ErrIO).
Lemma follows_read data open off n : follows (readBytesT data open off n) (readBytesIO io data open off n).
Proof.
  unfold follows, readBytesT, readBytesIO. cbn [fst snd]. destruct (Z.leb_spec 0 off); cbn [andb].
  2:{ split; [intros _|intros (? & ? & [] & _)]. unfold readBytesAt. destruct (n <? 0) eqn:En; [reflexivity|]. replace (off <? 0) with true by lia. reflexivity. }
  destruct (Z.ltb_spec 0 n); cbn [andb].
  2:{ split; [intros _|intros (? & ? & [] & _)]. destruct (readBytesAt data open off n); reflexivity. }
  destruct open.
  2:{ split; [intros _|intros (? & ? & [] & _)]. unfold readBytesAt. replace (n <? 0) with false by lia. replace (off <? 0) with false by lia.
      replace (n =? 0) with false by lia. reflexivity. }
  unfold readBytesAt. replace (n <? 0) with false by lia. replace (off <? 0) with false by lia. replace (n =? 0) with false by lia. cbn [negb].
  split.
  - intros W. rewrite (W off n (or_introl eq_refl)). cbn [negb]. destruct (_ >? _); reflexivity.
  - intros (a & b & [X|[]] & F). injection X as <- <-. rewrite F. cbn [negb]. destruct (_ >? _); reflexivity.
Qed.
Lemma follows_plain {A} (m : res A) : follows (plain m) m.
Proof. split; [reflexivity|intros (? & ? & [] & _)]. Qed.
Lemma follows_bind {A B} (m : traced A) m' (f : A -> traced B) f' : follows m m' -> (forall a, follows (f a) (f' a)) -> follows (tbind m f) (rbind m' f').
Proof.
  intros [M1 M2] F. unfold follows, tbind. destruct (works_or_fails (snd m)) as [W|X].
  - rewrite (M1 W). destruct (fst m) as [a|e|]; cbn [rbind fst snd].
    + destruct (F a) as [F1 F2]. split; [intros H; apply F1; apply works_app in H; tauto|]. intros (o & n & I & E). apply F2. exists o, n. split; [|exact E].
      apply in_app_or in I. destruct I as [I|I]; [rewrite (W o n I) in E; discriminate|exact I].
    + split; [reflexivity|]. intros (o & n & I & E). rewrite (W o n I) in E. discriminate.
    + split; [reflexivity|]. intros (o & n & I & E). rewrite (W o n I) in E. discriminate.
  - rewrite (M2 X). cbn [rbind]. destruct X as (o & n & I & E). destruct (fst m); cbn [fst snd]; (split; [|reflexivity]); intros H; exfalso.
    + apply works_app in H. destruct H as [H _]. rewrite (H o n I) in E. discriminate.
    + rewrite (H o n I) in E. discriminate.
    + rewrite (H o n I) in E. discriminate.
Qed.
Ltac follow := repeat match goal with
  | |- follows (readBytesT _ _ _ _) _ => apply follows_read
  | |- follows (tbind _ _) _ => apply follows_bind; [|intros ?]
  | |- follows (plain _) _ => apply follows_plain
  | |- follows (if ?b then _ else _) (if ?b then _ else _) => destruct b
  end.
Lemma header_follows d : follows (readHeaderT d) (readHeaderIO io d).
Proof. unfold readHeaderT, readHeaderIO. follow. Qed.
Lemma footer_follows d h : follows (readFooterT d h) (readFooterIO io d h).
Proof. unfold readFooterT, readFooterIO. cbv zeta. follow. Qed.
Theorem open_follows d : follows (NewReaderT d) (NewReaderIO io true d).
Proof.
  unfold NewReaderT, NewReaderIO. cbn [negb]. apply follows_bind; [apply header_follows|]. intros h. apply follows_bind; [apply footer_follows|].
  intros [[h' m] ix]. apply follows_plain.
Qed.
Theorem block_follows r i : follows (readBlockT r i) (readBlockIO io r i).
Proof. unfold readBlockT, readBlockIO. destruct (_ || _); [follow|]. destruct (nth_error _ _); [|follow]. cbv zeta. follow. Qed.
Theorem pairs_follows r i : follows (GetPairsT r i) (GetPairsIO io r i).
Proof. apply block_follows. Qed.

Context {Srr : Sroar}.
Lemma load_follows r : follows (loadGlobalIDBitmapT r) (loadGlobalIDBitmapIO io r).
Proof. unfold loadGlobalIDBitmapT, loadGlobalIDBitmapIO. follow. Qed.
Theorem bitmap_follows r h : (works (snd (GetGlobalIDBitmapT r h)) -> GetGlobalIDBitmapIO io r h = fst (GetGlobalIDBitmapT r h))
  /\ (fails (snd (GetGlobalIDBitmapT r h)) -> GetGlobalIDBitmapIO io r h = (Err ErrIO, r, h)).
Proof.
  unfold GetGlobalIDBitmapT, GetGlobalIDBitmapIO. pose proof (load_follows r) as [L1 L2].
  destruct (r_globalIDs r), (r_cacheGlobalIDs r); try (split; [reflexivity|intros (? & ? & [] & _)]);
    destruct (loadGlobalIDBitmapT r) as [[b|e|] t]; cbn [fst snd alloc] in *; (split; [intros W; rewrite (L1 W); reflexivity|intros X; rewrite (L2 X); reflexivity]).
Qed.

(** Aggregations skip what they cannot read, so only the first half holds. *)
Definition unhurt {A} (m : traced A) (m' : res A) : Prop := works (snd m) -> m' = fst m.
Lemma unhurt_bind {A B} (m : traced A) m' (f : A -> traced B) f' : unhurt m m' -> (forall a, unhurt (f a) (f' a)) -> unhurt (tbind m f) (rbind m' f').
Proof.
  intros M F W. unfold tbind in *. destruct (fst m) as [a|e|] eqn:E; cbn [snd fst] in *.
  - apply works_app in W. destruct W as [W1 W2]. rewrite (M W1), E. cbn [rbind]. apply F. exact W2.
  - rewrite (M W), E. reflexivity.
  - rewrite (M W), E. reflexivity.
Qed.
Lemma filtered_unhurt r i f d : unhurt (readBlockFilteredT r i f d) (readBlockFilteredIO io r i f d).
Proof. unfold readBlockFilteredT, readBlockFilteredIO. apply unhurt_bind; [exact (proj1 (block_follows r i))|]. intros [ids vs] _. reflexivity. Qed.
Lemma scan_unhurt get get' idx : (forall i, unhurt (get i) (get' i)) -> forall a, unhurt (scanT get idx a) (scan get' idx a).
Proof.
  intros HG. induction idx as [|i idx IH]; intros a; [intros _; reflexivity|]. cbn [scanT scan].
  intros W. unfold tbind in *. cbn [fst snd] in *.
  assert (E : get' i = fst (get i)) by (apply HG; destruct (add_block a (fst (get i))); [apply works_app in W; apply W|exact W|exact W]).
  rewrite E. destruct (add_block a (fst (get i))) as [a'|e|]; cbn [fst snd rbind] in *; [|reflexivity|reflexivity].
  apply IH. apply works_app in W. apply W.
Qed.
Lemma sequential_unhurt r opts : unhurt (aggregateSequentialT r opts) (aggregateSequentialIO io r opts).
Proof.
  unfold aggregateSequentialT, aggregateSequentialIO, aggregateWithFilterT, aggregateWithFilterIO.
  destruct (has_filter opts).
  - apply unhurt_bind; [intros _; reflexivity|]. intros l. destruct (_ =? 0); [intros _; reflexivity|]. apply unhurt_bind; [|intros a _; reflexivity].
    apply scan_unhurt. intros i. apply filtered_unhurt.
  - destruct (_ && _); [intros _; reflexivity|]. apply unhurt_bind; [|intros a _; reflexivity]. apply scan_unhurt. intros i. exact (proj1 (pairs_follows r i)).
Qed.
Theorem aggregate_unhurt g sched r opts : works (snd (AggregateWithOptionsT g sched r opts)) ->
  AggregateWithOptionsIO io g sched r opts = fst (AggregateWithOptionsT g sched r opts).
Proof.
  unfold AggregateWithOptionsT, AggregateWithOptionsIO. cbv zeta. pose proof (sequential_unhurt r opts) as SQ. unfold unhurt in SQ.
  destruct (o_parallel opts =? 0); [cbn [fst snd]; intros W; rewrite (SQ W); reflexivity|].
  destruct (parallelPlan g r opts) as [| | |idx n|idx n]; cbn [fst snd]; try (intros _; reflexivity); [intros W; rewrite (SQ W); reflexivity|].
  intros W. destruct (run_read (blk_read r opts) (blk_readIO io r opts) idx n sched (pinit n)) as [E _]; [|rewrite E; reflexivity].
  intros i a Hi. assert (WB : works (snd (readBlockT r (i64 i)))).
  { intros off k Hk. apply W. apply in_flat_map. exists i. auto. }
  unfold blk_read, blk_readIO, readBlockFiltered, readBlockFilteredIO, GetPairs, GetPairsIO. rewrite (proj1 (block_follows r (i64 i)) WB), block_fst. reflexivity.
Qed.
End Fault.

Section Multi.
Context {Srr : Sroar}.
Lemma fst_combine {A B} (l : list A) : forall (l' : list B), length l = length l' -> map fst (combine l l') = l.
Proof. induction l as [|x l IH]; intros [|y l'] E; cbn in *; try discriminate; [reflexivity|]. f_equal. apply IH. congruence. Qed.
Lemma loop_unhurt opts : forall rs ios deny result h, length ios = length rs ->
  all_work ios (snd (multiLoopT opts rs deny result h)) ->
  multiLoopIO opts (combine rs ios) deny result h = fst (multiLoopT opts rs deny result h).
Proof.
  induction rs as [|r rs IH]; intros [|io ios] deny result h L; try discriminate; [intros _; reflexivity|]. cbn [length] in L.
  assert (L' : length rs = length ios) by congruence. cbn [combine multiLoopT multiLoopIO].
  set (o := mkOpts (mo_skip opts) (mo_filter opts) (Some deny) 0). pose proof (sequential_unhurt io r o) as SQ. unfold unhurt in SQ.
  pose proof (bitmap_follows io r h) as [BF _].
  destruct (aggregateSequentialT r o) as [[x|e|] t]; cbn [fst snd] in *.
  - destruct (GetGlobalIDBitmapT r h) as [[[[p|e|] r'] h'] t'] eqn:EG; cbn [fst snd] in *.
    + destruct (nth_error h' p) as [gl|] eqn:En.
      * specialize (IH ios (bm_or deny gl) (if a_count result =? 0 then x else mergeAggregateResults result x) h' ltac:(congruence)).
        destruct (multiLoopT opts rs _ _ h') as [[[q rr] hh] ts]. cbn [fst snd] in *. intros W. unfold all_work in W. cbn [combine] in W.
        apply Forall_cons_iff in W. destruct W as [W1 W2]. apply works_app in W1. rewrite (SQ (proj1 W1)), (BF (proj2 W1)), En, (IH W2). reflexivity.
      * intros W. unfold all_work in W. cbn [combine] in W. apply Forall_cons_iff in W. destruct W as [W1 _]. apply works_app in W1.
        rewrite (SQ (proj1 W1)), (BF (proj2 W1)), En. rewrite fst_combine by exact L'. reflexivity.
    + intros W. unfold all_work in W. cbn [combine snd] in W. apply Forall_cons_iff in W. destruct W as [W1 _]. apply works_app in W1.
      rewrite (SQ (proj1 W1)), (BF (proj2 W1)). rewrite fst_combine by exact L'. reflexivity.
    + intros W. unfold all_work in W. cbn [combine snd] in W. apply Forall_cons_iff in W. destruct W as [W1 _]. apply works_app in W1.
      rewrite (SQ (proj1 W1)), (BF (proj2 W1)). rewrite fst_combine by exact L'. reflexivity.
  - intros W. unfold all_work in W. cbn [combine] in W. apply Forall_cons_iff in W. destruct W as [W1 _]. rewrite (SQ W1). cbn [map fst]. rewrite fst_combine by exact L'. reflexivity.
  - intros W. unfold all_work in W. cbn [combine] in W. apply Forall_cons_iff in W. destruct W as [W1 _]. rewrite (SQ W1). cbn [map fst]. rewrite fst_combine by exact L'. reflexivity.
Qed.
Lemma combine_snoc {A B} (l : list A) : forall (l' : list B) x y, length l = length l' -> combine (l ++ [x]) (l' ++ [y]) = combine l l' ++ [(x, y)].
Proof. induction l as [|z l IH]; intros [|z' l'] x y E; cbn in *; try discriminate; [reflexivity|]. rewrite IH by congruence. reflexivity. Qed.
Lemma rev_combine {A B} (l : list A) : forall (l' : list B), length l = length l' -> rev (combine l l') = combine (rev l) (rev l').
Proof.
  induction l as [|x l IH]; intros [|y l'] E; cbn in *; try discriminate; [reflexivity|]. rewrite IH by congruence. rewrite combine_snoc; [reflexivity|].
  rewrite !rev_length. congruence.
Qed.
Theorem multi_unhurt opts rs ios h : length ios = length rs -> all_work (rev ios) (snd (MultiAggregateT opts rs h)) ->
  MultiAggregateIO opts (combine rs ios) h = MultiAggregate opts rs h.
Proof.
  intros L. rewrite <- multi_fst. unfold MultiAggregateT, MultiAggregateIO.
  assert (Z : zlen (combine rs ios) = zlen rs) by (unfold zlen; rewrite combine_length; lia). rewrite Z.
  rewrite fst_combine by congruence. destruct (zlen rs =? 0); [reflexivity|]. rewrite rev_combine by congruence.
  pose proof (loop_unhurt opts (rev rs) (rev ios) bm_new zeroResult h ltac:(rewrite !rev_length; exact L)) as U.
  destruct (multiLoopT opts (rev rs) bm_new zeroResult h) as [[[x rr] hh] ts]. cbn [fst snd] in *. intros W. rewrite (U W). reflexivity.
Qed.
End Multi.
