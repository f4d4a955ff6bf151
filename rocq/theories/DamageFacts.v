(** Damage stays where it is. *)
From Verif Require Import Machine MachineFacts Encoding EncodingFacts FileIO Sroar Writer Spec FileFacts
  WriterFacts BlockFacts FinalFacts Reader ReaderFacts DecodeFacts HistoryFacts RunFacts ReachFacts WriterProps Aggregate Parallel
  CorruptFacts AnySpec AnyFacts DamageSpec LiveFacts PowerFacts ArbFacts MultiFacts.
Ltac Zify.zify_post_hook ::= Z.div_mod_to_equations.

Lemma outside_len X d d' : same_outside X d d' -> zlen d' = zlen d.
Proof. intros [H _]. exact H. Qed.
Lemma outside_slice X d d' off n : same_outside X d d' -> 0 <= off -> 0 <= n -> (forall p, off <= p < off + n -> ~ X p) ->
  slice d' off n = slice d off n.
Proof.
  intros [_ H] Ho Hn HX. apply slice_ext; try assumption. intros p Hp.
  replace (Z.to_nat off + p)%nat with (Z.to_nat (off + Z.of_nat p)) by lia. apply H; [lia|]. apply HX. lia.
Qed.
Lemma outside_read X d d' open off n : same_outside X d d' -> (forall p, 0 <= off -> off <= p < off + n -> ~ X p) ->
  readBytesAt d' open off n = readBytesAt d open off n.
Proof.
  intros H HX. unfold readBytesAt. destruct (Z.ltb_spec n 0); [reflexivity|]. destruct (Z.ltb_spec off 0); [reflexivity|].
  rewrite (outside_slice X d d') by (try assumption; intros; apply HX; lia). reflexivity.
Qed.

Lemma le_val_zeros l n : le_val (l ++ zeros n) = le_val l.
Proof.
  induction l as [|x l IH]; cbn [app le_val]; [|rewrite IH; reflexivity].
  unfold zeros. induction (Z.to_nat n) as [|m IH]; [reflexivity|]. cbn [repeat le_val]. rewrite IH. reflexivity.
Qed.

(** ** Opening *)
Lemma readFooter_shape F h h' m ix : readFooter F h = Ok (h', m, ix) ->
  exists buf cbuf ibuf c, let S := i64 (zlen F - 24 - i64 (fm_size m)) in
    readBytesAt F true (zlen F - 24) 24 = Ok buf /\ 64 <= S
    /\ readBytesAt F true S 4 = Ok cbuf /\ readBufferedUint32 cbuf 0 = Ok c
    /\ readBytesAt F true (i64 (S + 4)) (c * 56) = Ok ibuf /\ readEntries ibuf (zseq c) = Ok ix.
Proof.
  unfold readFooter. intros H. destruct (_ <? 24); [discriminate|].
  destruct (readBytesAt F true (zlen F - 24) 24) as [buf| |] eqn:E1; cbn [rbind] in H; try discriminate.
  destruct (readBufferedUint64 buf 0) as [fs| |] eqn:E2; cbn [rbind] in H; try discriminate.
  destruct (readBufferedUint64 buf 8) as [ck| |] eqn:E3; cbn [rbind] in H; try discriminate.
  destruct (readBufferedUint64 buf 16) as [mg| |] eqn:E4; cbn [rbind] in H; try discriminate.
  destruct (negb _); [discriminate|].
  destruct (Z.ltb_spec (i64 (zlen F - 24 - i64 fs)) 64) as [|G]; [discriminate|].
  destruct (readBytesAt F true (i64 (zlen F - 24 - i64 fs)) 4) as [cbuf| |] eqn:E5; cbn [rbind] in H; try discriminate.
  destruct (readBufferedUint32 cbuf 0) as [c| |] eqn:E6; cbn [rbind] in H; try discriminate.
  destruct (readBytesAt F true (i64 (i64 (zlen F - 24 - i64 fs) + 4)) (c * 56)) as [ibuf| |] eqn:E7; cbn [rbind] in H; try discriminate.
  destruct (readEntries ibuf (zseq c)) as [es| |] eqn:E8; cbn [rbind] in H; try discriminate.
  injection H as _ <- <-. cbn [fm_size]. exists buf, cbuf, ibuf, c. cbn zeta.
  split; [reflexivity|]. split; [exact G|]. split; [exact E5|]. split; [exact E6|]. split; [exact E7|exact E8].
Qed.

Theorem opens X d d' r : NewReader d = Ok r -> same_outside X d d' -> avoids X (opening_part r) ->
  NewReader d' = Ok (with_data r d').
Proof.
  intros H HS HA. unfold NewReader in *.
  assert (E1 : readHeader d' = readHeader d).
  { unfold readHeader. rewrite (outside_read X d d') by (try assumption; unfold headerSize; intros p _ Hp Hx; apply (HA p Hx); left; lia). reflexivity. }
  rewrite E1. destruct (readHeader d) as [h| |]; cbn [rbind] in *; try discriminate.
  destruct (readFooter d h) as [[[h' m] ix]| |] eqn:E; cbn [rbind] in *; try discriminate.
  assert (E2 : readFooter d' h = readFooter d h).
  { injection H as Er. destruct (readFooter_shape d h h' m ix E) as (buf & cbuf & ibuf & c & Hshape). cbn zeta in Hshape.
    destruct Hshape as (S1 & S2 & S3 & S4 & S5 & S6).
    assert (HD : r_data r = d) by (rewrite <- Er; reflexivity). assert (HM : r_meta r = m) by (rewrite <- Er; reflexivity).
    assert (HI : r_index r = ix) by (rewrite <- Er; reflexivity). clear Er.
    assert (HF : footer_start r = i64 (zlen d - 24 - i64 (fm_size m))) by (unfold footer_start; rewrite HD, HM; reflexivity).
    assert (R1 : readBytesAt d' true (zlen d - 24) 24 = readBytesAt d true (zlen d - 24) 24).
    { apply (outside_read X); [exact HS|]. intros p _ Hp Hx. apply (HA p Hx). right. right. rewrite HD. lia. }
    unfold readFooter in *. rewrite (outside_len X d d' HS). destruct (zlen d <? 24); [reflexivity|]. rewrite R1, S1. rewrite S1 in E. cbn [rbind] in *.
    destruct (readBufferedUint64 buf 0) as [fs| |] eqn:B1; cbn [rbind] in *; try discriminate.
    destruct (readBufferedUint64 buf 8) as [ck| |]; cbn [rbind] in *; try discriminate.
    destruct (readBufferedUint64 buf 16) as [mg| |]; cbn [rbind] in *; try discriminate.
    destruct (negb _); [discriminate|].
    assert (Hfs : fm_size m = fs).
    { destruct (_ <? 64) in E; [discriminate|]. destruct (readBytesAt d true (i64 (zlen d - 24 - i64 fs)) 4); cbn [rbind] in E; try discriminate.
      destruct (readBufferedUint32 _ 0) in E; cbn [rbind] in E; try discriminate.
      destruct (readBytesAt d true _ _) in E; cbn [rbind] in E; try discriminate.
      destruct (readEntries _ _) in E; cbn [rbind] in E; try discriminate. injection E as _ <- _. reflexivity. }
    rewrite Hfs in *.
    set (S := i64 (zlen d - 24 - i64 fs)) in *.
    destruct (S <? 64); [discriminate|].
    assert (R2 : readBytesAt d' true S 4 = readBytesAt d true S 4).
    { apply (outside_read X); [exact HS|]. intros p _ Hp Hx. apply (HA p Hx). right. left. rewrite HF. pose proof (zlen_nonneg (r_index r)). lia. }
    rewrite R2, S3. cbn [rbind]. rewrite S4. cbn [rbind].
    assert (R3 : readBytesAt d' true (i64 (S + 4)) (c * 56) = readBytesAt d true (i64 (S + 4)) (c * 56)).
    { apply (outside_read X); [exact HS|]. intros p Hp0 Hp Hx. apply (HA p Hx). right. left. rewrite HF, HI.
      apply readEntries_len in S6. rewrite S6.
      assert (Hc : 0 <= c).
      { destruct (Z.ltb_spec c 0); [|assumption]. unfold readBytesAt in S5. destruct (Z.ltb_spec (c * 56) 0); [discriminate|lia]. }
      rewrite zlen_zseq, Z.max_r by exact Hc.
      assert (is_i64 S) by apply i64_range. unfold is_i64, i64, two63, two64 in *. lia. }
    rewrite R3. reflexivity. }
  rewrite E2, E. cbn [rbind]. injection H as <-. reflexivity.
Qed.

(** ** Blocks and the bitmap *)
Section Read.
Variables (X : Z -> Prop) (r : reader) (d' : list Z).
Hypothesis HS : same_outside X (r_data r) d'.

Lemma block_same i : (forall p, X p -> ~ block_part r i p) -> readBlock (with_data r d') i = readBlock r i.
Proof using HS.
  intros HA. unfold readBlock. cbn [with_data r_index r_data r_open r_header].
  destruct (_ || _); [reflexivity|]. destruct (nth_error (r_index r) (Z.to_nat i)) as [e|] eqn:E; [|reflexivity].
  rewrite (outside_read X (r_data r) d'); [reflexivity|exact HS|].
  intros p Hp0 Hp Hx. apply (HA p Hx). exists e. split; [exact E|]. unfold blockHeaderSize in *.
  assert (is_i64 (i64 (e_offset e))) by apply i64_range. unfold is_i64, i64, two63, two64 in *. lia.
Qed.
Lemma pairs_same i : is_u64 i -> (forall p, X p -> ~ block_part r i p) -> GetPairs (with_data r d') i = GetPairs r i.
Proof using HS.
  intros Hi HA. unfold GetPairs. destruct (Z.ltb_spec i two63).
  - rewrite i64_id by (unfold is_i64, is_u64, two63, two64 in *; lia). apply block_same. exact HA.
  - unfold readBlock. assert (i64 i < 0) by (unfold i64, is_u64, two63, two64 in *; lia). destruct (Z.ltb_spec (i64 i) 0); [reflexivity|lia].
Qed.
Lemma bitmap_same {Srr : Sroar} hp : 0 <= le_val (slice (r_data r) (i64 (h_bitmapOffset (r_header r))) 4) -> avoids X (bitmap_part r) -> r_globalIDs r = None ->
  fst (fst (GetGlobalIDBitmap (with_data r d') hp)) = fst (fst (GetGlobalIDBitmap r hp))
  /\ snd (GetGlobalIDBitmap (with_data r d') hp) = snd (GetGlobalIDBitmap r hp).
Proof using HS.
  intros HB HA H1. unfold GetGlobalIDBitmap. cbn [with_data r_globalIDs r_cacheGlobalIDs]. rewrite H1.
  assert (E : loadGlobalIDBitmap (with_data r d') = loadGlobalIDBitmap r).
  { unfold loadGlobalIDBitmap. cbn [with_data r_data r_open r_header]. destruct (_ || _); [reflexivity|].
    set (off := i64 (h_bitmapOffset (r_header r))) in *.
    assert (R : forall n open o, (forall p, 0 <= o -> o <= p < o + n -> off <= p < off + 4 + le_val (slice (r_data r) off 4)) ->
              readBytesAt d' open o n = readBytesAt (r_data r) open o n).
    { intros n open o HP. apply (outside_read X); [exact HS|]. intros p Hp0 Hp Hx. apply (HA p Hx). unfold bitmap_part. fold off. apply HP; assumption. }
    assert (P0 : 0 <= le_val (slice (r_data r) off 4)) by exact HB.
    rewrite R by lia. destruct (readBytesAt (r_data r) (r_open r) off 4) as [sb| |] eqn:E1; cbn [rbind]; [|reflexivity|reflexivity].
    destruct (readBufferedUint32 sb 0) as [n| |] eqn:E2; cbn [rbind]; [|reflexivity|reflexivity].
    rewrite R; [reflexivity|]. intros p Hp0 Hp.
    assert (Hn : n = le_val (slice (r_data r) off 4)).
    { unfold readBytesAt in E1. change (4 <? 0) with false in E1. change (4 =? 0) with false in E1. cbn iota in E1.
      destruct (Z.ltb_spec off 0) as [|Ho]; [discriminate|]. destruct (negb (r_open r)); [discriminate|].
      destruct (_ >? max_int64); [discriminate|].
      apply ok_inj in E1. rewrite <- E1 in *. clear E1. unfold readBufferedUint32, readBuffered in E2. destruct (_ || _); [discriminate|]. apply ok_inj in E2. rewrite <- E2.
      rewrite slice_all; [apply le_val_zeros|reflexivity|].
      rewrite zlen_app, zlen_zeros. pose proof (zlen_slice (r_data r) off 4 Ho ltac:(lia)). lia. }
    assert (is_i64 off) by apply i64_range. unfold is_i64, i64, two63, two64 in *. lia. }
  rewrite E. destruct (loadGlobalIDBitmap r) as [b| |]; split; reflexivity.
Qed.
End Read.

(** ** Aggregations *)
Lemma scan_in g1 g2 idx : (forall i, In i idx -> g1 i = g2 i) -> forall a, scan g1 idx a = scan g2 idx a.
Proof.
  induction idx as [|i idx IH]; intros H a; [reflexivity|]. cbn [scan]. rewrite (H i) by (left; reflexivity).
  destruct (add_block a (g2 i)) as [a'| |]; cbn [rbind]; [|reflexivity|reflexivity]. apply IH. intros j Hj. apply H. right. exact Hj.
Qed.

Section Run.
Variables (b1 b2 : Z -> acc -> res acc) (idx : list Z) (n : nat).
Hypothesis Hb : forall i a, In i idx -> b1 i a = b2 i a.
Definition todo_in (x : worker) : Prop := match x with WLoop todo _ => incl todo idx | _ => True end.

Lemma workerBlocks_in w : incl (workerBlocks idx n w) idx.
Proof using Type.
  unfold workerBlocks. destruct (_ >=? _); [intros x []|]. intros x Hx. unfold slice, ztake, zdrop in Hx.
  revert Hx. generalize (Z.to_nat (Z.of_nat w * blocksPerWorker idx n)) as k. intros k Hx. rewrite <- (firstn_skipn k idx). apply in_or_app. right.
  match type of Hx with In _ (firstn ?m ?l) => rewrite <- (firstn_skipn m l) end. apply in_or_app. left. exact Hx.
Qed.
Lemma Forall_set_nth {A} (P : A -> Prop) x : forall l w, Forall P l -> P x -> Forall P (set_nth w x l).
Proof using Type.
  clear. induction l as [|y l IH]; intros w H Hx; [destruct w; exact H|]. inversion H; subst. destruct w; cbn [set_nth]; constructor; auto.
Qed.
Lemma step_same s t : Forall todo_in (p_workers s) -> step b1 idx n s t = step b2 idx n s t.
Proof using Hb.
  intros H. unfold step. destruct (p_crashed s); [reflexivity|]. destruct t as [|w]; [reflexivity|].
  unfold step_worker. destruct (nth_error (p_workers s) w) as [x|] eqn:E; [|reflexivity]. apply nth_error_In in E.
  rewrite Forall_forall in H. specialize (H x E). destruct x as [| |todo a| | |]; try reflexivity. destruct todo as [|i todo]; [reflexivity|].
  cbn [todo_in] in H. rewrite Hb by (apply H; left; reflexivity). reflexivity.
Qed.
Lemma step_todo s t s' : Forall todo_in (p_workers s) -> step b2 idx n s t = Some s' -> Forall todo_in (p_workers s').
Proof using Type.
  intros H E. unfold step in E. destruct (p_crashed s); [discriminate|]. destruct t as [|w].
  - unfold step_main in E. destruct (p_main s) as [w|w| | |fin tc ts|].
    + destruct (Nat.ltb w n); injection E as <-; exact H.
    + injection E as <-. apply Forall_set_nth; [exact H|exact I].
    + destruct (_ =? 0); [injection E as <-; exact H|discriminate].
    + injection E as <-; exact H.
    + destruct (p_chan s); [destruct (p_closed s); [injection E as <-; exact H|discriminate]|].
      destruct (merge_result _ _ _ _) as [[f1 t1] t2]. injection E as <-. exact H.
    + discriminate.
  - unfold step_worker in E. destruct (nth_error (p_workers s) w) as [x|] eqn:Ex; [|discriminate]. apply nth_error_In in Ex.
    pose proof H as H'. rewrite Forall_forall in H'. specialize (H' x Ex). destruct x as [| |todo a|res| |]; try discriminate.
    + destruct (workerBlocks idx n w) as [|i l] eqn:W; injection E as <-; (apply Forall_set_nth; [exact H|]); [exact I|].
      cbn [todo_in]. rewrite <- W. apply workerBlocks_in.
    + destruct todo as [|i todo]; [injection E as <-; apply Forall_set_nth; [exact H|exact I]|].
      destruct (b2 i a); injection E as <-; try exact H. apply Forall_set_nth; [exact H|]. cbn [todo_in] in *.
      intros j Hj. apply H'. right. exact Hj.
    + destruct (p_closed s); [injection E as <-; exact H|]. destruct (Nat.ltb _ n); [|discriminate]. injection E as <-. apply Forall_set_nth; [exact H|exact I].
    + destruct (_ <=? 0); injection E as <-; [exact H|]. apply Forall_set_nth; [exact H|exact I].
Qed.
Lemma run_in sched : forall s, Forall todo_in (p_workers s) -> run b1 idx n sched s = run b2 idx n sched s.
Proof using Hb.
  induction sched as [|t sched IH]; intros s H; [reflexivity|]. cbn [run]. rewrite (step_same s t H).
  destruct (step b2 idx n s t) as [s'|] eqn:E; [|apply IH; exact H]. apply IH. eapply step_todo; eassumption.
Qed.
Lemma run_init sched : run b1 idx n sched (pinit n) = run b2 idx n sched (pinit n).
Proof using Hb. apply run_in. unfold pinit. cbn [p_workers]. apply Forall_forall. intros x Hx. apply repeat_spec in Hx. subst x. exact I. Qed.
End Run.

Section Agg.
Context {Srr : Sroar}.
Variables (r r' : reader) (opts : aggOptions).
Hypothesis HH : r_header r' = r_header r.
Hypothesis HI : r_index r' = r_index r.
Hypothesis HC : BlockCount r <= two64.
Hypothesis HN : zlen (r_index r) <= two64.
Hypothesis HG : forall i, matters r opts i -> is_u64 i -> readBlock r' (i64 i) = readBlock r (i64 i).

Lemma matching_claimed f d i : BlockCount r <= two64 -> zlen (r_index r) <= two64 ->
  In i (matchingBlocks r f d) -> claimed_in_range r f i = true /\ is_u64 i.
Proof using Type.
  clear. intros HC HN. destruct f as [a|]; [|intros H; split; [reflexivity|apply in_zseq in H; unfold is_u64; lia]].
  intros H. rewrite matching_numbers in H. apply filter_In in H. destruct H as [H1 H2]. apply in_zseq in H1. split; [|unfold is_u64; lia].
  exact H2.
Qed.
Lemma matching_same f d : matchingBlocks r' f d = matchingBlocks r f d.
Proof using HH HI. unfold matchingBlocks, BlockCount. rewrite HH, HI. reflexivity. Qed.
Lemma iterator_same f d : FilteredBlockIterator r' f d = FilteredBlockIterator r f d.
Proof using HH HI. unfold FilteredBlockIterator. rewrite matching_same. unfold BlockCount. rewrite HH. reflexivity. Qed.
Lemma iterator_list f d l : FilteredBlockIterator r f d = Ok l -> l = matchingBlocks r f d.
Proof using Type. clear. unfold FilteredBlockIterator. destruct f; [|destruct (make_panics _ _); [discriminate|]]; intros H; injection H as <-; reflexivity. Qed.
Lemma filtered_reads : has_filter opts = true -> reads_data r opts.
Proof using Type. clear. unfold has_filter, reads_data. destruct (o_filter opts); [left; discriminate|]. destruct (o_deny opts); [right; left; discriminate|discriminate]. Qed.
Lemma filtered_same i : reads_data r opts -> In i (matchingBlocks r (o_filter opts) (o_deny opts)) ->
  readBlockFiltered r' (i64 i) (o_filter opts) (o_deny opts) = readBlockFiltered r (i64 i) (o_filter opts) (o_deny opts).
Proof using HC HN HG.
  intros HR H. apply matching_claimed in H; try assumption. destruct H as [H1 H2]. unfold readBlockFiltered. rewrite HG; [reflexivity| |exact H2]. split; assumption.
Qed.
Lemma nofilter_claimed i : has_filter opts = false -> claimed_in_range r (o_filter opts) i = true.
Proof using Type. clear. unfold has_filter. destruct (o_filter opts); [discriminate|]. reflexivity. Qed.
Lemma nofilter_reads : has_filter opts = false -> (zlen (r_index r) >? 0) && negb (o_skip opts) = false -> reads_data r opts.
Proof using Type.
  clear. intros _ H. unfold reads_data. apply andb_false_iff in H. destruct H as [H|H].
  - right; right; right. destruct (r_index r) as [|e l]; [reflexivity|]. rewrite zlen_cons in H. pose proof (zlen_nonneg l). lia.
  - right; right; left. destruct (o_skip opts); [reflexivity|discriminate].
Qed.
Lemma sequential_same : aggregateSequential r' opts = aggregateSequential r opts.
Proof using HH HI HC HN HG.
  unfold aggregateSequential. destruct (has_filter opts) eqn:F.
  - unfold aggregateWithFilter. rewrite iterator_same. destruct (FilteredBlockIterator r _ _) as [l| |] eqn:E; cbn [rbind]; [|reflexivity|reflexivity].
    apply iterator_list in E. destruct (_ =? 0); [reflexivity|].
    rewrite (scan_in _ (fun i => readBlockFiltered r (i64 i) (o_filter opts) (o_deny opts))); [reflexivity|].
    intros i Hi. rewrite E in Hi. apply filtered_same; [apply filtered_reads; exact F|exact Hi].
  - rewrite HI. destruct (_ && _) eqn:G; [reflexivity|].
    replace (BlockCount r') with (BlockCount r) by (unfold BlockCount; rewrite HH; reflexivity).
    rewrite (scan_in _ (GetPairs r)); [reflexivity|]. intros i Hi. apply in_zseq in Hi. unfold GetPairs. apply HG; [|unfold is_u64; lia].
    split; [apply nofilter_reads; assumption|apply nofilter_claimed; exact F].
Qed.
Lemma plan_same g : parallelPlan g r' opts = parallelPlan g r opts.
Proof using HH HI. unfold parallelPlan. rewrite iterator_same. unfold BlockCount. rewrite HH, HI. reflexivity. Qed.
Lemma footer_same i a : blk_footer r' i a = blk_footer r i a.
Proof using HI. unfold blk_footer. rewrite HI. reflexivity. Qed.
Theorem aggregate_same g sched : AggregateWithOptions g sched r' opts = AggregateWithOptions g sched r opts.
Proof using HH HI HC HN HG.
  unfold AggregateWithOptions. destruct (_ =? 0); [rewrite sequential_same; reflexivity|]. rewrite plan_same.
  destruct (parallelPlan g r opts) as [| | |idx n|idx n] eqn:P; try reflexivity.
  - rewrite sequential_same. reflexivity.
  - rewrite (run_init (blk_footer r') (blk_footer r)); [reflexivity|]. intros i a _. apply footer_same.
  - rewrite (run_init (blk_read r' opts) (blk_read r opts)); [reflexivity|]. intros i a Hi.
    unfold parallelPlan in P.
    match type of P with context [if ?b then PlanSequential else _] => destruct b; [discriminate|] end.
    destruct (has_filter opts) eqn:F.
    + destruct (FilteredBlockIterator r (o_filter opts) (o_deny opts)) as [l| |] eqn:E; try discriminate.
      destruct (zlen l =? 0); [discriminate|]. destruct (make_panics _ 40); [discriminate|].
      rewrite andb_false_r in P. injection P as -> _. apply iterator_list in E. unfold blk_read. rewrite F. f_equal.
      apply filtered_same; [apply filtered_reads; exact F|rewrite <- E; exact Hi].
    + destruct (make_panics _ 8); [discriminate|]. destruct (zlen _ =? 0); [discriminate|]. destruct (make_panics _ 40); [discriminate|].
      cbn [negb] in P. rewrite andb_true_r in P. destruct (_ && _) eqn:G; [discriminate|]. injection P as <- _.
      apply in_zseq in Hi. pose proof (i64_range (BlockCount r)) as RB. unfold blk_read. rewrite F. f_equal. unfold GetPairs. apply HG.
      * split; [apply nofilter_reads; assumption|apply nofilter_claimed; exact F].
      * unfold is_u64, is_i64, two64, two63 in *. lia.
Qed.
End Agg.

(** ** Any file *)
Lemma NewReader_count_max data r : Forall is_byte data -> NewReader data = Ok r -> BlockCount r <= two64.
Proof.
  intros HB H. unfold NewReader in H. destruct (readHeader data) as [h| |] eqn:EH; cbn [rbind] in H; try discriminate.
  assert (Hh : h_blockCount h < two64).
  { unfold readHeader in EH. destruct (readBytesAt data true 0 headerSize) as [buf| |] eqn:E; cbn [rbind] in EH; try discriminate.
    pose proof (readBytesAt_bytes _ _ _ _ _ HB E) as BB.
    unfold readBufferedUint64, readBufferedUint32 in EH.
    do 3 (destruct (readBuffered _ buf _); cbn [rbind] in EH; try discriminate).
    destruct (readBuffered 8 buf 16) as [c| |] eqn:EC; cbn [rbind] in EH; try discriminate.
    pose proof (readBuffered_range 8 buf 16 c BB ltac:(lia) EC) as RC. clear EC.
    do 6 (destruct (readBuffered _ buf _); cbn [rbind] in EH; try discriminate).
    match type of EH with (if negb (?a =? ?b) then _ else _) = _ => destruct (a =? b); [|discriminate EH] end. cbn [negb] in EH.
    match type of EH with (if negb (?a =? ?b) then _ else _) = _ => destruct (a =? b); [|discriminate EH] end. cbn [negb] in EH. injection EH as <-. cbn [h_blockCount].
    unfold two64. lia. }
  destruct (readFooter data h) as [[[h' m] ix]| |] eqn:E; cbn [rbind] in H; try discriminate.
  assert (zlen ix <= 2 ^ 42) by (pose proof (NewReader_small data r HB) as G; unfold NewReader in G; rewrite EH in G; cbn [rbind] in G; rewrite E in G; cbn [rbind] in G; specialize (G H); injection H as <-; exact G).
  injection H as <-. unfold BlockCount. cbn [r_header].
  destruct (readFooter_shape data h h' m ix E) as (b0 & b1 & b2 & c & G). cbn zeta in G. destruct G as (_ & _ & _ & G4 & _ & G6).
  unfold readFooter in E. destruct (zlen data <? 24); [discriminate|].
  destruct (readBytesAt data true (zlen data - 24) 24) as [b| |]; cbn [rbind] in E; try discriminate.
  repeat match type of E with
  | context [readBufferedUint64 b ?o] => destruct (readBufferedUint64 b o); cbn [rbind] in E; try discriminate
  end.
  destruct (negb _); [discriminate E|]. destruct (_ <? 64); [discriminate E|].
  destruct (readBytesAt data true _ 4) as [cb| |] eqn:E4; cbn [rbind] in E; try discriminate.
  destruct (readBufferedUint32 cb 0) as [c'| |] eqn:EC; cbn [rbind] in E; try discriminate.
  destruct (readBytesAt data true _ (c' * 56)) as [ib| |]; cbn [rbind] in E; try discriminate.
  destruct (readEntries ib _) eqn:EE; cbn [rbind] in E; try discriminate. injection E as <- _ <-.
  apply readEntries_len in EE. rewrite zlen_zseq in EE. destruct (Z.gtb_spec c' (h_blockCount h)); cbn [set_blockCount h_blockCount]; unfold two64 in *; lia.
Qed.

Theorem any_core {Srr : Sroar} X d d' r : BlockCount r <= two64 -> zlen (r_index r) <= two64 ->
  0 <= le_val (slice d (i64 (h_bitmapOffset (r_header r))) 4) ->
  NewReader d = Ok r -> same_outside X d d' -> avoids X (opening_part r) ->
  exists r', NewReader d' = Ok r' /\ r_header r' = r_header r /\ r_meta r' = r_meta r /\ r_index r' = r_index r
    /\ (forall i, is_u64 i -> avoids X (block_part r i) -> GetPairs r' i = GetPairs r i)
    /\ (avoids X (bitmap_part r) -> forall hp,
          fst (fst (GetGlobalIDBitmap r' hp)) = fst (fst (GetGlobalIDBitmap r hp))
          /\ snd (GetGlobalIDBitmap r' hp) = snd (GetGlobalIDBitmap r hp))
    /\ (forall opts, (forall i, is_u64 i -> matters r opts i -> avoids X (block_part r i)) ->
          forall gomaxprocs sched, AggregateWithOptions gomaxprocs sched r' opts = AggregateWithOptions gomaxprocs sched r opts).
Proof.
  intros HB1 HB2 HB3 HR HS HA. exists (with_data r d'). split; [eapply opens; eassumption|]. split; [reflexivity|]. split; [reflexivity|]. split; [reflexivity|].
  pose proof (NewReader_data d r HR) as HD. assert (HS' : same_outside X (r_data r) d') by (rewrite HD; exact HS).
  split; [intros i Hi Hb; eapply pairs_same; eassumption|]. split.
  - intros Hb hp. eapply bitmap_same; try eassumption; [rewrite HD; exact HB3|].
    unfold NewReader in HR. destruct (readHeader d) as [h| |]; cbn [rbind] in HR; try discriminate.
    destruct (readFooter d h) as [[[h' m] ix]| |]; cbn [rbind] in HR; try discriminate. injection HR as <-. reflexivity.
  - intros opts HO g sched. apply aggregate_same; try reflexivity; try assumption.
    intros i Hm Hi. change (GetPairs (with_data r d') i = GetPairs r i). eapply pairs_same; [exact HS'|exact Hi|]. intros p. apply HO; assumption.
Qed.
Theorem any_file {Srr : Sroar} X d d' r : Forall is_byte d -> NewReader d = Ok r -> same_outside X d d' -> avoids X (opening_part r) ->
  exists r', NewReader d' = Ok r' /\ r_header r' = r_header r /\ r_meta r' = r_meta r /\ r_index r' = r_index r
    /\ (forall i, is_u64 i -> avoids X (block_part r i) -> GetPairs r' i = GetPairs r i)
    /\ (avoids X (bitmap_part r) -> forall hp,
          fst (fst (GetGlobalIDBitmap r' hp)) = fst (fst (GetGlobalIDBitmap r hp))
          /\ snd (GetGlobalIDBitmap r' hp) = snd (GetGlobalIDBitmap r hp))
    /\ (forall opts, (forall i, is_u64 i -> matters r opts i -> avoids X (block_part r i)) ->
          forall gomaxprocs sched, AggregateWithOptions gomaxprocs sched r' opts = AggregateWithOptions gomaxprocs sched r opts).
Proof.
  intros HB HR HS HA. apply (any_core X d); try assumption.
  - eapply NewReader_count_max; eassumption.
  - pose proof (NewReader_small d r HB HR). unfold two64. lia.
  - apply le_val_range, Forall_slice. exact HB.
Qed.

(** ** Finished files *)
Lemma contiguous_range p es q : contiguous p es q -> p <= q /\ Forall (fun e => p <= e_offset e /\ e_offset e + e_size e <= q /\ 80 < e_size e) es.
Proof.
  induction 1 as [p|p e es q H1 H2 H3 H4 [IH1 IH2]]; [split; [lia|constructor]|]. split; [lia|]. constructor; [lia|].
  eapply Forall_impl; [|exact IH2]. intros x Hx. cbn beta in *. lia.
Qed.
Lemma contiguous_apart p es q : contiguous p es q -> forall i j e1 e2, nth_error es i = Some e1 -> nth_error es j = Some e2 -> (i < j)%nat ->
  e_offset e1 + e_size e1 <= e_offset e2.
Proof.
  induction 1 as [p|p e es q H1 H2 H3 H4 IH]; intros i j e1 e2 E1 E2 Hij; [destruct i; discriminate|].
  destruct j as [|j]; [lia|]. destruct i as [|i].
  - injection E1 as <-. cbn [nth_error] in E2. apply contiguous_range in H4. destruct H4 as [_ H4]. rewrite Forall_forall in H4.
    apply nth_error_In in E2. specialize (H4 e2 E2). lia.
  - cbn [nth_error] in *. eapply IH; [exact E1|exact E2|lia].
Qed.

Section Finished.
Context {Srr : Sroar}.

Lemma finished_parts options faults h now w : finished_run options faults h now w -> never_finalized h ->
  exists r stop, NewReader (bytes_of w) = Ok r /\ contiguous 64 (r_index r) stop
    /\ stop <= zlen (bytes_of w) - 24 /\ stop <= footer_start r /\ zlen (bytes_of w) < two63
    /\ BlockCount r <= two64 /\ zlen (r_index r) <= two64
    /\ stop <= i64 (h_bitmapOffset (r_header r))
    /\ 0 <= le_val (slice (bytes_of w) (i64 (h_bitmapOffset (r_header r))) 4).
Proof.
  intros H Hn. destruct (layout options faults h now w H Hn) as (r & stop & fs & HR & HC & _ & Hst & Hbm & _ & Hlen).
  destruct (finished_facts options faults h now w H) as (blocks & A & X & L & off & Hef & HL & HF & Hlim & HX & _ & HR2).
  rewrite HR in HR2. apply ok_inj in HR2.
  pose proof (lim_file _ _ _ _ _ Hlim) as LF. pose proof (lim_index _ _ _ _ _ Hlim) as LI. pose proof (lim_bitmap _ _ _ _ _ Hlim) as LB.
  destruct (fz_off _ _ _ _ _ _ _ _ HF) as [O1 O2]. pose proof (fz_data _ _ _ _ _ _ _ _ HF) as HD. pose proof (fz_bitmap _ _ _ _ _ _ _ _ HF) as HB.
  set (b := fold_left bm_set A bm_new) in *. pose proof (zlen_nonneg L) as NL. pose proof (zlen_nonneg (bm_ser b)) as NB.
  assert (EI : zlen (r_index r) = zlen L) by (rewrite HR2; cbn [the_reader r_index]; apply zlen_map).
  assert (EO : h_bitmapOffset (r_header r) = off) by (rewrite HR2; reflexivity).
  assert (ES : h_bitmapSize (r_header r) = 4 + zlen (bm_ser b)) by (rewrite HR2; reflexivity).
  assert (EC : BlockCount r = zlen L) by (rewrite HR2; reflexivity).
  assert (EM : fm_size (r_meta r) = 4 + 56 * zlen L) by (rewrite HR2; reflexivity).
  assert (ED : r_data r = bytes_of w) by (rewrite HR2; reflexivity).
  assert (LX : zlen (bytes_of w) = zlen X + 28 + 56 * zlen L) by (rewrite HD, zlen_app, zlen_footer; unfold pblock; lia).
  assert (LBB : zlen (bitmap_bytes b) = 4 + zlen (bm_ser b)) by (unfold bitmap_bytes; rewrite zlen_app, zlen_le_bytes; lia).
  clear HR2. rewrite EO in Hst, Hbm. rewrite ES in Hbm. rewrite EI in Hlen.
  assert (I1 : i64 off = off) by (apply i64_id; unfold is_i64, two63 in *; lia).
  exists r, stop. split; [exact HR|]. split; [exact HC|]. split; [lia|]. split.
  { unfold footer_start. rewrite ED, EM, (i64_id (4 + 56 * zlen L)) by (unfold is_i64, two63, two32 in *; lia).
    rewrite i64_id by (unfold is_i64, two63, two32 in *; lia). lia. }
  split; [exact LF|]. split; [rewrite EC; unfold pblock, block, two64, two32 in *; lia|]. split; [rewrite EI; unfold pblock, block, two64, two32 in *; lia|]. rewrite EO, I1. split; [lia|].
  assert (E4 : slice (bytes_of w) off 4 = le_bytes 4 (u32 (zlen (bm_ser b)))).
  { rewrite HD, slice_app_l by lia.
    transitivity (slice (slice X off (zlen (bitmap_bytes b))) 0 4); [rewrite slice_slice by lia; f_equal; lia|].
    rewrite HB. unfold bitmap_bytes. rewrite slice_app_l by (rewrite ?zlen_le_bytes; lia). apply slice_all; [reflexivity|]. rewrite zlen_le_bytes. reflexivity. }
  rewrite E4. apply le_val_range, le_bytes_bytes.
Qed.

Theorem finished_damage options faults h now w :
  finished_run options faults h now w -> never_finalized h -> faithful (encoding_of options) ->
  exists r blocks, NewReader (bytes_of w) = Ok r /\ stored h blocks
    /\ forall J d', same_outside (in_blocks r J) (bytes_of w) d' ->
       exists r', NewReader d' = Ok r' /\ r_header r' = r_header r /\ r_meta r' = r_meta r /\ r_index r' = r_index r
         /\ (forall i b, nth_error blocks i = Some b -> ~ J (Z.of_nat i) -> GetPairs r' (Z.of_nat i) = Ok b)
         /\ (forall hp, fst (fst (GetGlobalIDBitmap r' hp)) = fst (fst (GetGlobalIDBitmap r hp))
                        /\ snd (GetGlobalIDBitmap r' hp) = snd (GetGlobalIDBitmap r hp))
         /\ (forall opts, (forall i, J i -> ~ matters r opts i) ->
               forall gomaxprocs sched, AggregateWithOptions gomaxprocs sched r' opts = AggregateWithOptions gomaxprocs sched r opts).
Proof.
  intros H Hn Hf. destruct (blocks_read_back options faults h now w H Hf) as (r & blocks & Hst & HR & HN & HG).
  destruct (finished_parts options faults h now w H Hn) as (r2 & stop & HR2 & HC & Hs1 & Hs2 & LF & C1 & C2 & C3 & C4).
  rewrite HR in HR2. apply ok_inj in HR2. subst r2.
  exists r, blocks. split; [exact HR|]. split; [exact Hst|]. intros J d' HS.
  pose proof (contiguous_range _ _ _ HC) as [Hge HRa]. rewrite Forall_forall in HRa.
  assert (In_range : forall p, in_blocks r J p -> 64 <= p < stop).
  { intros p (i & e & _ & _ & He & Hp). apply nth_error_In in He. specialize (HRa e He). lia. }
  assert (HA : avoids (in_blocks r J) (opening_part r)).
  { intros p Hp. apply In_range in Hp. pose proof (NewReader_data _ _ HR) as ED. unfold opening_part. rewrite ED. lia. }
  assert (HBm : avoids (in_blocks r J) (bitmap_part r)).
  { intros p Hp. apply In_range in Hp. unfold bitmap_part. cbn zeta. lia. }
  assert (HBl : forall i, is_u64 i -> ~ J i -> avoids (in_blocks r J) (block_part r i)).
  { intros i Hi HJ p (j & e & Hj & HJj & He & Hp) (e2 & He2 & Hp2).
    pose proof (HRa e (nth_error_In _ _ He)) as R1. pose proof (HRa e2 (nth_error_In _ _ He2)) as R2.
    rewrite i64_id in Hp2 by (unfold is_i64, two63 in *; lia).
    assert (Hij : Z.to_nat i <> Z.to_nat j) by (intros E; apply HJ; replace i with j by (unfold is_u64 in *; lia); exact HJj).
    destruct (Nat.lt_total (Z.to_nat i) (Z.to_nat j)) as [G|[G|G]]; [|contradiction|].
    - pose proof (contiguous_apart _ _ _ HC _ _ _ _ He2 He G). lia.
    - pose proof (contiguous_apart _ _ _ HC _ _ _ _ He He2 G). lia. }
  destruct (any_core _ _ _ _ C1 C2 C4 HR HS HA) as (r' & E1 & E2 & E3 & E4 & E5 & E6 & E7).
  exists r'. split; [exact E1|]. split; [exact E2|]. split; [exact E3|]. split; [exact E4|]. split; [|split; [apply E6; exact HBm|]].
  - intros i b Hb HJ.
    assert (Hi : is_u64 (Z.of_nat i)).
    { assert (i < length blocks)%nat by (apply nth_error_Some; congruence). unfold zlen in *. unfold is_u64. lia. }
    rewrite E5 by (try exact Hi; apply HBl; assumption). rewrite HG by exact Hi. rewrite Nat2Z.id, Hb. reflexivity.
  - intros opts HO g sched. apply E7. intros i Hi Hm. apply HBl; [exact Hi|]. intros HJ. exact (HO i HJ Hm).
Qed.
End Finished.

(** ** What an aggregation over damaged blocks returns *)
Theorem taken_same {Srr : Sroar} r r' i allow deny : r_index r' = r_index r -> GetPairs r' i = GetPairs r i -> taken r' allow deny i = taken r allow deny i.
Proof. intros HI HG. unfold taken, claimed_in_range. rewrite HG, HI. reflexivity. Qed.
