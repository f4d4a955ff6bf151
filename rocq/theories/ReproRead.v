(** Files that differ only in the creation time read back identically. *)
From Verif Require Import Machine MachineFacts FileIO FileFacts Encoding Sroar Writer Reader Aggregate Parallel Spec FinalFacts ReaderFacts HistoryFacts ReachFacts ReproFacts.
From Coq Require Import Lia ZifyBool.

Lemma i64_wraps x : two63 <= x < two64 -> i64 x < 0.
Proof. intros H. unfold i64, two63, two64 in *. pose proof (Z.mod_eq (x + 9223372036854775808) 18446744073709551616 ltac:(lia)) as E. pose proof (Z.mod_pos_bound (x + 9223372036854775808) 18446744073709551616 ltac:(lia)). nia. Qed.
Lemma list_ext {A} (l1 l2 : list A) : (forall i, nth_error l1 i = nth_error l2 i) -> l1 = l2.
Proof.
  revert l2. induction l1 as [|x l1 IH]; intros l2 H.
  - destruct l2 as [|y l2]; [reflexivity|]. specialize (H O). discriminate.
  - destruct l2 as [|y l2]; [specialize (H O); discriminate|]. f_equal; [specialize (H O); cbn in H; congruence|].
    apply IH. intros i. exact (H (S i)).
Qed.
Lemma alike_slice D1 D2 off n : same_but_time D1 D2 -> 0 <= off -> 44 <= off \/ off + n <= 36 -> slice D1 off n = slice D2 off n.
Proof.
  intros [_ H] Ho Hw. apply list_ext. intros i. unfold slice, ztake, zdrop. rewrite !nth_error_firstn', !nth_error_skipn'.
  destruct (Nat.ltb_spec i (Z.to_nat n)); [|reflexivity]. apply H. lia.
Qed.
Lemma alike_read D1 D2 open off n : same_but_time D1 D2 -> 44 <= off -> readBytesAt D1 open off n = readBytesAt D2 open off n.
Proof.
  intros S H. unfold readBytesAt. rewrite (alike_slice D1 D2) by (auto; lia). reflexivity.
Qed.

(** Headers that agree except for the creation time. *)
Definition header_alike (h1 h2 : fileHeader) : Prop :=
  h2 = mkHeader (h_magic h1) (h_version h1) (h_columnType h1) (h_blockCount h1) (h_blockSizeTarget h1)
         (h_compressionType h1) (h_encodingType h1) (h_creationTime h2) (h_bitmapOffset h1) (h_bitmapSize h1).

Lemma alike_header D1 D2 h1 : same_but_time D1 D2 -> 64 <= zlen D1 -> readHeader D1 = Ok h1 ->
  exists h2, readHeader D2 = Ok h2 /\ header_alike h1 h2.
Proof.
  intros S L. assert (L2 : zlen D2 = zlen D1) by (destruct S; auto). unfold readHeader, readBytesAt, headerSize.
  change (64 <? 0) with false. change (0 <? 0) with false. change (64 =? 0) with false. change (0 + 64 >? max_int64) with false. cbv iota. cbn [negb rbind].
  assert (Z1 : zlen (slice D1 0 64) = 64) by (rewrite zlen_slice by lia; lia).
  assert (Z2 : zlen (slice D2 0 64) = 64) by (rewrite zlen_slice by lia; lia).
  rewrite Z1, Z2. change (zeros (64 - 64)) with (@nil Z). rewrite !app_nil_r.
  assert (B : forall n off, 0 <= n -> 0 <= off -> off + n <= 36 \/ 44 <= off -> off + n <= 64 -> readBuffered n (slice D1 0 64) off = readBuffered n (slice D2 0 64) off).
  { intros n off Hn Ho Hw Hl. unfold readBuffered. rewrite Z1, Z2. rewrite !slice_slice by lia. rewrite (alike_slice D1 D2) by (auto; lia). reflexivity. }
  unfold readBufferedUint64, readBufferedUint32. rewrite (B 8 0), (B 4 8), (B 4 12), (B 8 16), (B 4 24), (B 4 28), (B 4 32), (B 8 44), (B 8 52) by lia.
  unfold rbind.
  assert (C : forall n off, 0 <= n -> 0 <= off -> off + n <= 64 -> exists x, readBuffered n (slice D2 0 64) off = Ok x).
  { intros n off Hn Ho Hl. unfold readBuffered. rewrite Z2. destruct (_ || _) eqn:E; [lia|]. eexists; reflexivity. }
  destruct (C 8 0) as [m ->]; try lia. destruct (C 4 8) as [v ->]; try lia. destruct (C 4 12) as [ct ->]; try lia. destruct (C 8 16) as [bc ->]; try lia.
  destruct (C 4 24) as [bt ->]; try lia. destruct (C 4 28) as [cp ->]; try lia. destruct (C 4 32) as [en ->]; try lia.
  destruct (C 8 36) as [t2 ->]; try lia. destruct (C 8 44) as [bo ->]; try lia. destruct (C 8 52) as [bs ->]; try lia.
  assert (E1 : exists t1, readBuffered 8 (slice D1 0 64) 36 = Ok t1).
  { unfold readBuffered. rewrite Z1. cbn. eexists; reflexivity. }
  destruct E1 as [t1 ->]. destruct (negb (m =? MagicNumber)); [discriminate|]. destruct (negb (v =? Version)); [discriminate|].
  intros E. injection E as <-. eexists. split; [reflexivity|]. reflexivity.
Qed.
Lemma alike_footer D1 D2 h1 h2 h1' meta index : same_but_time D1 D2 -> 88 <= zlen D1 < two63 -> header_alike h1 h2 ->
  readFooter D1 h1 = Ok (h1', meta, index) -> exists h2', readFooter D2 h2 = Ok (h2', meta, index) /\ header_alike h1' h2'.
Proof.
  intros S L HA. assert (L2 : zlen D2 = zlen D1) by (destruct S; auto). unfold readFooter. rewrite L2. destruct (zlen D1 <? 24) eqn:E0; [discriminate|].
  rewrite (alike_read D1 D2) by (auto; lia). unfold rbind.
  destruct (readBytesAt D2 true (zlen D1 - 24) 24) as [buf|e|]; try discriminate.
  destruct (readBufferedUint64 buf 0) as [fs|e|]; try discriminate. destruct (readBufferedUint64 buf 8) as [ck|e|]; try discriminate.
  destruct (readBufferedUint64 buf 16) as [mg|e|]; try discriminate. destruct (negb (mg =? MagicNumber)); [discriminate|].
  destruct (i64 (zlen D1 - 24 - i64 fs) <? 64) eqn:E1; [discriminate|].
  rewrite (alike_read D1 D2) by (auto; lia).
  destruct (readBytesAt D2 true (i64 (zlen D1 - 24 - i64 fs)) 4) as [cb|e|]; try discriminate.
  destruct (readBufferedUint32 cb 0) as [bic|e|] eqn:Eb; try discriminate.
  set (fst0 := i64 (zlen D1 - 24 - i64 fs)) in *. pose proof (i64_range (zlen D1 - 24 - i64 fs)) as Rg.
  assert (K : readBytesAt D1 true (i64 (fst0 + 4)) (bic * 56) = readBytesAt D2 true (i64 (fst0 + 4)) (bic * 56)).
  { destruct (Z_lt_ge_dec (fst0 + 4) two63) as [Hs|Hs].
    - apply alike_read; [exact S|]. rewrite i64_id; unfold fst0, is_i64, two63 in *; lia.
    - assert (N : i64 (fst0 + 4) < 0).
      { subst fst0. revert Hs Rg. generalize (i64 (zlen D1 - 24 - i64 fs)). intros z Hs Rg. apply i64_wraps. unfold is_i64, two63, two64 in *. lia. }
      unfold readBytesAt. destruct (bic * 56 <? 0); [reflexivity|]. destruct (_ <? 0) eqn:E2; [reflexivity|lia]. }
  rewrite K. destruct (readBytesAt D2 true (i64 (fst0 + 4)) (bic * 56)) as [ib|e|]; try discriminate.
  destruct (readEntries ib (zseq bic)) as [es|e|]; try discriminate. intros E. injection E as <- <- <-.
  eexists. split; [reflexivity|]. red in HA. rewrite HA. cbn [h_blockCount]. destruct (bic >? h_blockCount h1); reflexivity.
Qed.

(** Readers that agree except for the creation time. *)
Record reader_alike (r1 r2 : reader) : Prop := {
  ra_data : same_but_time (r_data r1) (r_data r2);
  ra_header : header_alike (r_header r1) (r_header r2);
  ra_rest : r_open r2 = r_open r1 /\ r_meta r2 = r_meta r1 /\ r_index r2 = r_index r1
            /\ r_globalIDs r2 = r_globalIDs r1 /\ r_cacheGlobalIDs r2 = r_cacheGlobalIDs r1;
  ra_offsets : Forall (fun e => 64 <= e_offset e < two63) (r_index r1);
  ra_bitmap : 64 <= h_bitmapOffset (r_header r1) < two63 - 4
}.
Lemma ra_fields r1 r2 : reader_alike r1 r2 ->
  h_encodingType (r_header r2) = h_encodingType (r_header r1) /\ h_blockCount (r_header r2) = h_blockCount (r_header r1)
  /\ h_version (r_header r2) = h_version (r_header r1) /\ h_bitmapOffset (r_header r2) = h_bitmapOffset (r_header r1)
  /\ h_bitmapSize (r_header r2) = h_bitmapSize (r_header r1).
Proof. intros [_ H _ _ _]. red in H. rewrite H. cbn. auto. Qed.
Lemma alike_readBlock r1 r2 i : reader_alike r1 r2 -> readBlock r2 i = readBlock r1 i.
Proof.
  intros R. destruct (ra_fields _ _ R) as (He & _). destruct R as [S _ (Ho & _ & Hi & _) Hoff _].
  unfold readBlock. rewrite Hi, Ho, He. destruct (_ || _); [reflexivity|].
  destruct (nth_error (r_index r1) (Z.to_nat i)) as [e|] eqn:E; [|reflexivity].
  assert (O : 64 <= e_offset e < two63) by (rewrite Forall_forall in Hoff; apply Hoff; eapply nth_error_In; exact E).
  rewrite (i64_id (e_offset e)) by (unfold is_i64, two63 in *; lia).
  assert (K : 44 <= i64 (e_offset e + blockHeaderSize) \/ i64 (e_offset e + blockHeaderSize) < 0).
  { destruct (Z_lt_ge_dec (e_offset e + 64) two63) as [Hs|Hs].
    - left. unfold blockHeaderSize. rewrite i64_id; unfold is_i64, two63 in *; lia.
    - right. unfold blockHeaderSize in *. apply i64_wraps. unfold two63, two64 in *. lia. }
  destruct K as [K|K].
  - rewrite (alike_read (r_data r1) (r_data r2)) by (assumption). reflexivity.
  - assert (N : forall D1 D2 o n, readBytesAt D1 o (i64 (e_offset e + blockHeaderSize)) n = readBytesAt D2 o (i64 (e_offset e + blockHeaderSize)) n).
    { intros. unfold readBytesAt. destruct (n <? 0); [reflexivity|]. destruct (i64 _ <? 0) eqn:E2; [reflexivity|lia]. }
    rewrite (N (r_data r2) (r_data r1)). reflexivity.
Qed.

Section Answers.
Context {Srr : Sroar}.
Lemma alike_bitmap r1 r2 : reader_alike r1 r2 -> loadGlobalIDBitmap r2 = loadGlobalIDBitmap r1.
Proof.
  intros R. destruct (ra_fields _ _ R) as (_ & _ & _ & Hb & Hs). destruct R as [S _ (Ho & _) _ Hoff].
  unfold loadGlobalIDBitmap. rewrite Hb, Hs, Ho. destruct (_ || _); [reflexivity|].
  assert (E : i64 (h_bitmapOffset (r_header r1)) = h_bitmapOffset (r_header r1)) by (apply i64_id; unfold is_i64, two63 in *; lia).
  rewrite E. rewrite (i64_id (_ + 4)) by (unfold is_i64, two63 in *; lia).
  rewrite (alike_read (r_data r1) (r_data r2)) by (auto; lia). unfold rbind. destruct (readBytesAt _ _ _ 4); try reflexivity.
  destruct (readBufferedUint32 a 0); try reflexivity. rewrite (alike_read (r_data r1) (r_data r2)) by (auto; lia). reflexivity.
Qed.
Lemma alike_GetPairs r1 r2 i : reader_alike r1 r2 -> GetPairs r2 i = GetPairs r1 i.
Proof. intros R. apply alike_readBlock, R. Qed.
Lemma alike_filtered r1 r2 i a d : reader_alike r1 r2 -> readBlockFiltered r2 i a d = readBlockFiltered r1 i a d.
Proof. intros R. unfold readBlockFiltered. rewrite (alike_readBlock r1 r2) by exact R. reflexivity. Qed.
Lemma scan_ext g1 g2 idx : (forall i, g1 i = g2 i) -> forall a, scan g1 idx a = scan g2 idx a.
Proof. intros H. induction idx as [|i idx IH]; intros a; cbn [scan]; [reflexivity|]. rewrite H. unfold rbind. destruct (add_block a (g2 i)); auto. Qed.
Lemma alike_iter r1 r2 a d : reader_alike r1 r2 -> matchingBlocks r2 a d = matchingBlocks r1 a d.
Proof.
  intros R. destruct (ra_fields _ _ R) as (_ & Hb & _). destruct R as [_ _ (_ & _ & Hi & _) _ _].
  unfold matchingBlocks, BlockCount. rewrite Hb, Hi. reflexivity.
Qed.
Lemma alike_iterator r1 r2 a d : reader_alike r1 r2 -> FilteredBlockIterator r2 a d = FilteredBlockIterator r1 a d.
Proof.
  intros R. unfold FilteredBlockIterator. rewrite (alike_iter r1 r2) by exact R. destruct (ra_fields _ _ R) as (_ & Hb & _).
  unfold BlockCount. rewrite Hb. reflexivity.
Qed.
Lemma alike_sequential r1 r2 opts : reader_alike r1 r2 -> aggregateSequential r2 opts = aggregateSequential r1 opts.
Proof.
  intros R. destruct (ra_fields _ _ R) as (_ & Hb & _). assert (Hi : r_index r2 = r_index r1) by (destruct (ra_rest _ _ R); tauto).
  unfold aggregateSequential, aggregateWithFilter, BlockCount. rewrite Hb, Hi, (alike_iterator r1 r2) by exact R.
  unfold rbind. destruct (FilteredBlockIterator r1 _ _) as [l|e|].
  2,3: rewrite (scan_ext _ (GetPairs r1) _ (fun i => alike_GetPairs _ _ i R)); reflexivity.
  rewrite (scan_ext _ (fun i => readBlockFiltered r1 (i64 i) (o_filter opts) (o_deny opts)) _ (fun i => alike_filtered _ _ _ _ _ R)).
  rewrite (scan_ext _ (GetPairs r1) _ (fun i => alike_GetPairs _ _ i R)). reflexivity.
Qed.
Lemma run_ext (b1 b2 : Z -> acc -> res acc) idx n sched : (forall i a, b1 i a = b2 i a) ->
  forall s, run b1 idx n sched s = run b2 idx n sched s.
Proof.
  intros H. induction sched as [|t sched IH]; intros s; cbn [run]; [reflexivity|].
  replace (step b1 idx n s t) with (step b2 idx n s t); [apply IH|].
  unfold step. destruct (p_crashed s); [reflexivity|]. destruct t as [|w]; [reflexivity|]. unfold step_worker.
  destruct (nth_error (p_workers s) w) as [[| |[|i todo] a|r| |]|]; try reflexivity. rewrite H. reflexivity.
Qed.
Lemma alike_options g sched r1 r2 opts : reader_alike r1 r2 -> AggregateWithOptions g sched r2 opts = AggregateWithOptions g sched r1 opts.
Proof.
  intros R. destruct (ra_fields _ _ R) as (_ & Hb & _). assert (Hi : r_index r2 = r_index r1) by (destruct (ra_rest _ _ R); tauto).
  unfold AggregateWithOptions. rewrite (alike_sequential r1 r2) by exact R. destruct (_ =? 0); [reflexivity|].
  assert (P : parallelPlan g r2 opts = parallelPlan g r1 opts).
  { unfold parallelPlan, BlockCount. rewrite Hb, Hi, (alike_iterator r1 r2) by exact R. reflexivity. }
  rewrite P. destruct (parallelPlan g r1 opts); try reflexivity.
  - rewrite (run_ext (blk_footer r2) (blk_footer r1)); [reflexivity|]. intros i a. unfold blk_footer. rewrite Hi. reflexivity.
  - rewrite (run_ext (blk_read r2 opts) (blk_read r1 opts)); [reflexivity|]. intros i a. unfold blk_read.
    rewrite (alike_filtered r1 r2), (alike_GetPairs r1 r2) by exact R. reflexivity.
Qed.
Lemma alike_global r1 r2 hp : reader_alike r1 r2 ->
  exists p r1' r2' hp', GetGlobalIDBitmap r1 hp = (p, r1', hp') /\ GetGlobalIDBitmap r2 hp = (p, r2', hp') /\ reader_alike r1' r2'.
Proof.
  intros R. assert (R0 := R). destruct R0 as [S HA (H1 & H2 & H3 & H4 & H5) Ho Hb].
  unfold GetGlobalIDBitmap. rewrite (alike_bitmap r1 r2), H4, H5 by exact R.
  assert (C : forall p on, reader_alike (set_cache r1 p on) (set_cache r2 p on)) by (intros; constructor; cbn; auto).
  destruct (r_globalIDs r1) as [p|]; destruct (r_cacheGlobalIDs r1); destruct (loadGlobalIDBitmap r1); cbn [alloc];
    eexists _, _, _, _; (split; [reflexivity|]); (split; [reflexivity|]); auto.
Qed.

(** A file of a finished run, and any file that differs from it in bytes 36 to 43 only. *)
Theorem finished_alike options faults h now w data : finished_run options faults h now w ->
  same_but_time (bytes_of w) data ->
  exists r1 r2, NewReader (bytes_of w) = Ok r1 /\ NewReader data = Ok r2 /\ reader_alike r1 r2.
Proof.
  intros F S. destruct (finished_facts _ _ _ _ _ F) as (blocks & A & X & L & off & _ & HL & HF & HW & HX & _ & HN).
  destruct HF as [F1 F2 F3 F4 F5]. destruct HW as [W1 W2 W3 W4 W5].
  assert (LX : 68 <= zlen X).
  { destruct F4 as [? ?]. pose proof (zlen_nonneg (bm_ser (fold_left bm_set A bm_new))). unfold bitmap_bytes in *. rewrite zlen_app, zlen_le_bytes in *. lia. }
  assert (LF : zlen (bytes_of w) = zlen X + (28 + 56 * zlen L)) by (rewrite F1, zlen_app, zlen_footer; reflexivity).
  pose proof (zlen_nonneg L).
  unfold NewReader in HN. unfold rbind in HN.
  destruct (readHeader (bytes_of w)) as [h1|e|] eqn:E1; try discriminate.
  destruct (readFooter (bytes_of w) h1) as [[[h1' meta] index]|e|] eqn:E2; try discriminate.
  destruct (alike_header _ _ _ S ltac:(lia) E1) as (h2 & E3 & A1).
  destruct (alike_footer _ _ _ _ _ _ _ S ltac:(lia) A1 E2) as (h2' & E4 & A2).
  exists (mkReader (bytes_of w) true h1' meta index None false), (mkReader data true h2' meta index None false). split; [unfold NewReader, rbind; rewrite E1, E2; reflexivity|].
  split; [unfold NewReader, rbind; rewrite E3, E4; reflexivity|].
  assert (Hm : index = map (entry_of (encoding_of options)) L /\ h_bitmapOffset h1' = off).
  { split; [apply (f_equal (fun x => match x with Ok r => r_index r | _ => [] end)) in HN; exact HN|].
    apply (f_equal (fun x => match x with Ok r => h_bitmapOffset (r_header r) | _ => 0 end)) in HN. exact HN. }
  destruct Hm as [-> Hb]. constructor; cbn [r_data r_header r_open r_meta r_index r_globalIDs r_cacheGlobalIDs].
  - exact S.
  - exact A2.
  - auto.
  - rewrite Forall_map. eapply Forall_impl; [|exact F3]. intros x (_ & _ & P1 & P2 & _). cbn [entry_of e_offset].
    pose proof (zlen_nonneg (image_of (encoding_of options) x)). lia.
  - rewrite Hb. destruct F4 as [F4 F4']. unfold bitmap_bytes in F4'. rewrite zlen_app, zlen_le_bytes in F4'. pose proof (zlen_nonneg (bm_ser (fold_left bm_set A bm_new))). lia.
Qed.
End Answers.
