(** Aggregating a file whatever it contains. *)
From Coq Require Import Permutation.
From Verif Require Import Machine MachineFacts Encoding EncodingFacts FileIO Sroar Writer Reader Aggregate Parallel Spec MultiSpec AnySpec
  ArbFacts FinalFacts ReaderFacts WriterProps AggFacts ParallelFacts AggProps CloseFacts PowerFacts.
Ltac Zify.zify_post_hook ::= Z.div_mod_to_equations.

Section Any.
Context {Srr : Sroar}.

Lemma filterPairs_short f d : forall ids vals, (length ids <= length vals)%nat ->
  filterPairs f d ids vals = Ok (split (filter (fun p => passes f d (fst p)) (combine ids vals))).
Proof.
  induction ids as [|id ids IH]; intros vals H; [reflexivity|]. destruct vals as [|v vals]; [cbn in H; lia|]. cbn [length] in H.
  cbn [filterPairs combine filter tl fst]. rewrite keeps_passes, IH by lia. destruct (passes f d id); [|reflexivity].
  cbn [split]. destruct (split _) as [fi fv]. reflexivity.
Qed.

(** What one read of a scan gets. *)
Lemma got_taken r opts i : Forall (fun e => 0 <= e_count e) (r_index r) -> is_i64 i ->
  (o_filter opts = None \/ claimed_in_range r (o_filter opts) i = true) ->
  got (read_one r opts i) = taken r (o_filter opts) (o_deny opts) i.
Proof.
  intros HC Hi HR. unfold read_one, taken, has_filter, readBlockFiltered, GetPairs. rewrite (i64_id i Hi).
  destruct (readBlock r i) as [[ids vals]|e|] eqn:E; cbn [rbind].
  - pose proof (readBlock_len r i ids vals HC E) as (_ & e & _ & [L _] & _).
    assert (L' : (length ids <= length vals)%nat) by (unfold zlen in L; lia).
    destruct (o_filter opts) as [f|], (o_deny opts) as [d|]; cbn [got].
    1,2: destruct HR as [HR|HR]; [discriminate|]; rewrite HR.
    3: cbn [claimed_in_range].
    1-3: rewrite filterPairs_short by exact L'; unfold got; rewrite <- (snd_split (filter _ _)); destruct (split _); reflexivity.
    reflexivity.
  - destruct (o_filter opts), (o_deny opts); reflexivity.
  - destruct (o_filter opts), (o_deny opts); reflexivity.
Qed.

Lemma flat_map_filtered (P : Z -> bool) (g : Z -> list Z) l : (forall i, In i l -> P i = false -> g i = []) ->
  flat_map g (List.filter P l) = flat_map g l.
Proof.
  induction l as [|i l IH]; intros H; [reflexivity|]. cbn [List.filter flat_map].
  specialize (IH (fun j Hj => H j (or_intror Hj))). destruct (P i) eqn:E; cbn [flat_map]; rewrite IH; [reflexivity|].
  rewrite (H i (or_introl eq_refl) E). reflexivity.
Qed.

Lemma matching_numbers_gen (l : list footerEntry) (P : footerEntry -> bool) :
  map fst (List.filter (fun '(_, e) => P e) (combine (zseq (zlen l)) l))
  = List.filter (fun i => match nth_error l (Z.to_nat i) with Some e => P e | None => false end) (zseq (zlen l)).
Proof.
  unfold zseq, zlen. rewrite Nat2Z.id.
  induction l as [|e l IH] using rev_ind; [reflexivity|].
  rewrite app_length, Nat.add_1_r, seq_S, !map_app, !List.filter_app.
  rewrite combine_app' by (rewrite map_length, seq_length; reflexivity). rewrite List.filter_app, map_app, IH. f_equal.
  - apply filter_ext_in. intros i Hi. apply in_map_iff in Hi. destruct Hi as (k & <- & Hk). apply in_seq in Hk.
    rewrite Nat2Z.id, nth_error_app1 by lia. reflexivity.
  - cbn [map combine List.filter Nat.add]. rewrite Nat2Z.id, nth_error_app2 by lia. rewrite Nat.sub_diag. cbn [nth_error]. destruct (P e); reflexivity.
Qed.
Lemma matching_numbers r f d : matchingBlocks r (Some f) d
  = List.filter (claimed_in_range r (Some f)) (zseq (zlen (r_index r))).
Proof.
  cbn [matchingBlocks]. rewrite matching_numbers_gen. apply filter_ext_in. intros i _. cbn [claimed_in_range].
  destruct (nth_error (r_index r) (Z.to_nat i)) as [e|]; [|reflexivity].
  destruct (Z.ltb_spec (e_maxID e) (bm_min f)), (Z.gtb_spec (e_minID e) (bm_max f)), (Z.leb_spec (bm_min f) (e_maxID e)), (Z.leb_spec (e_minID e) (bm_max f)); cbn; lia.
Qed.

Lemma filter_none {A} (P : A -> bool) l : (forall x, In x l -> P x = false) -> List.filter P l = [].
Proof. induction l as [|x l IH]; intros H; [reflexivity|]. cbn [List.filter]. rewrite (H x (or_introl eq_refl)). apply IH. intros y Hy. apply H. right. exact Hy. Qed.
Lemma nth_error_Some' {A} (l : list A) k x : nth_error l k = Some x -> (k < length l)%nat.
Proof. intros H. apply nth_error_Some. congruence. Qed.
Lemma beyond_index r i : 0 <= i -> is_i64 i -> zlen (r_index r) <= i -> GetPairs r i = Err ErrIndex.
Proof.
  intros H0 Hi H. unfold GetPairs, readBlock. rewrite (i64_id i Hi). destruct (Z.ltb_spec i 0); [reflexivity|].
  destruct (Z.geb_spec i (zlen (r_index r))); [reflexivity|lia].
Qed.

Lemma NewReader_index data r : Forall is_byte data -> NewReader data = Ok r -> zlen (r_index r) <= BlockCount r.
Proof.
  intros HB H. unfold NewReader in H. destruct (readHeader data) as [h| |] eqn:EH; cbn [rbind] in H; try discriminate.
  destruct (readFooter data h) as [[[h' m] ix]| |] eqn:E; cbn [rbind] in H; try discriminate. injection H as <-. unfold BlockCount. cbn [r_header r_index].
  unfold readFooter in E. destruct (zlen data <? 24); [discriminate|].
  destruct (readBytesAt data true (zlen data - 24) 24) as [b| |]; cbn [rbind] in E; try discriminate.
  repeat match type of E with
  | context [readBufferedUint64 b ?o] => destruct (readBufferedUint64 b o); cbn [rbind] in E; try discriminate
  end.
  destruct (negb _); [discriminate E|]. destruct (_ <? 64); [discriminate E|].
  destruct (readBytesAt data true _ 4) as [cb| |] eqn:E4; cbn [rbind] in E; try discriminate.
  destruct (readBufferedUint32 cb 0) as [c| |] eqn:EC; cbn [rbind] in E; try discriminate.
  assert (0 <= c).
  { unfold readBufferedUint32 in EC. apply readBuffered_range in EC; [lia| |lia]. eapply readBytesAt_bytes; eassumption. }
  destruct (readBytesAt data true _ (c * 56)) as [ib| |]; cbn [rbind] in E; try discriminate.
  destruct (readEntries ib _) eqn:EE; cbn [rbind] in E; try discriminate. injection E as <- _ <-.
  rewrite (readEntries_len _ _ _ EE), zlen_zseq. destruct (Z.gtb_spec c (h_blockCount h)); cbn [set_blockCount h_blockCount]; lia.
Qed.

Lemma NewReader_data data r : NewReader data = Ok r -> r_data r = data.
Proof.
  unfold NewReader. destruct (readHeader data) as [h| |]; cbn [rbind]; try discriminate.
  destruct (readFooter data h) as [[[h' m] ix]| |]; cbn [rbind]; try discriminate. intros H. injection H as <-. reflexivity.
Qed.
Lemma NewReader_small data r : Forall is_byte data -> NewReader data = Ok r -> zlen (r_index r) <= 2 ^ 42.
Proof.
  intros HB H. unfold NewReader in H. destruct (readHeader data) as [h| |] eqn:EH; cbn [rbind] in H; try discriminate.
  destruct (readFooter data h) as [[[h' m] ix]| |] eqn:E; cbn [rbind] in H; try discriminate. injection H as <-. cbn [r_index].
  unfold readFooter in E. destruct (zlen data <? 24); [discriminate|].
  destruct (readBytesAt data true (zlen data - 24) 24) as [b| |]; cbn [rbind] in E; try discriminate.
  repeat match type of E with
  | context [readBufferedUint64 b ?o] => destruct (readBufferedUint64 b o); cbn [rbind] in E; try discriminate
  end.
  destruct (negb _); [discriminate E|]. destruct (_ <? 64); [discriminate E|].
  destruct (readBytesAt data true _ 4) as [cb| |] eqn:E4; cbn [rbind] in E; try discriminate.
  destruct (readBufferedUint32 cb 0) as [c| |] eqn:EC; cbn [rbind] in E; try discriminate.
  assert (0 <= c < 256 ^ 4).
  { unfold readBufferedUint32 in EC. apply readBuffered_range in EC; [lia| |lia]. eapply readBytesAt_bytes; eassumption. }
  destruct (readBytesAt data true _ (c * 56)) as [ib| |]; cbn [rbind] in E; try discriminate.
  destruct (readEntries ib _) eqn:EE; cbn [rbind] in E; try discriminate. injection E as _ _ <-.
  rewrite (readEntries_len _ _ _ EE), zlen_zseq. lia.
Qed.

(** The blocks that are not visited contribute nothing. *)
Lemma visited r opts : zlen (r_index r) <= BlockCount r -> BlockCount r < two63 ->
  flat_map (taken r (o_filter opts) (o_deny opts)) (blocks_to_read r opts) = all_taken r (o_filter opts) (o_deny opts).
Proof.
  intros HL HB. unfold all_taken, blocks_to_read. destruct (has_filter opts) eqn:EF; [|reflexivity].
  destruct (o_filter opts) as [f|] eqn:Ef; [|reflexivity]. rewrite matching_numbers.
  assert (P0 : List.filter (claimed_in_range r (Some f)) (zseq (zlen (r_index r)))
             = List.filter (claimed_in_range r (Some f)) (zseq (BlockCount r))).
  { pose proof (zlen_nonneg (r_index r)) as Hn. unfold zseq. replace (Z.to_nat (BlockCount r)) with (Z.to_nat (zlen (r_index r)) + Z.to_nat (BlockCount r - zlen (r_index r)))%nat by lia.
    rewrite seq_app, map_app, List.filter_app.
    replace (List.filter _ (map Z.of_nat (seq (0 + Z.to_nat (zlen (r_index r))) _))) with (@nil Z); [rewrite app_nil_r; reflexivity|].
    symmetry. apply filter_none. intros i Hi. apply in_map_iff in Hi. destruct Hi as (k & <- & Hk). apply in_seq in Hk.
    cbn [claimed_in_range]. rewrite Nat2Z.id. destruct (nth_error (r_index r) k) eqn:E; [|reflexivity].
    apply nth_error_Some' in E. unfold zlen in *. lia. }
  rewrite P0. apply flat_map_filtered. intros i _ Hi. unfold taken. destruct (GetPairs r i) as [[ids vals]| |]; try reflexivity.
  rewrite Hi. reflexivity.
Qed.

Lemma reads_no_footer r opts : reads_data r opts -> uses_footer r opts = false.
Proof.
  unfold reads_data, uses_footer, has_filter. intros [H|[H|[H|H]]].
  - destruct (o_filter opts); [rewrite andb_false_r; reflexivity|congruence].
  - destruct (o_filter opts), (o_deny opts); try congruence; rewrite andb_false_r; reflexivity.
  - rewrite H. cbn. rewrite andb_false_r. reflexivity.
  - rewrite H. reflexivity.
Qed.

Lemma flat_map_same {A B} (f g : A -> list B) l : (forall x, In x l -> f x = g x) -> flat_map f l = flat_map g l.
Proof. induction l as [|x l IH]; intros H; [reflexivity|]. cbn [flat_map]. rewrite (H x (or_introl eq_refl)), IH; [reflexivity|]. intros y Hy. apply H. right. exact Hy. Qed.
Lemma total_got (f : Z -> res (list Z * list Z)) idx : total f idx = zlen (flat_map (fun i => got (f i)) idx).
Proof.
  unfold total. induction idx as [|i idx IH]; [reflexivity|]. cbn [fold_right flat_map]. rewrite zlen_app, IH. f_equal.
  destruct (f i) as [[a b]| |]; reflexivity.
Qed.
Lemma acc_sum_got (f : Z -> res (list Z * list Z)) idx : zlen (flat_map (fun i => got (f i)) idx) < two63 ->
  (forall i, In i idx -> f i <> Panic) ->
  acc_sum (map (fun i => block_acc (f i)) idx) = acc_of (flat_map (fun i => got (f i)) idx).
Proof.
  intros H HP. pose proof (scan_sum f idx HP ltac:(rewrite total_got; exact H)) as S. rewrite acc0_of, scan_readable in S by exact HP.
  cbn [app] in S. injection S as S. symmetry. exact S.
Qed.

(** Either the answer does not depend on a schedule, or the machine runs, and meets what
    ParallelFacts.v asks of it. *)
Lemma any_plan r opts g :
  Forall (fun e => 0 <= e_count e) (r_index r) -> Forall (fun e => 80 <= e_size e) (r_index r) ->
  zlen (r_index r) <= BlockCount r -> BlockCount r <= 2 ^ 42 -> reads_data r opts ->
  zlen (all_taken r (o_filter opts) (o_deny opts)) < two63 ->
  let V := all_taken r (o_filter opts) (o_deny opts) in
  let c := fun i => block_acc (read_one r opts i) in
  let idx := blocks_to_read r opts in
  (exists res, (forall sched, AggregateWithOptions g sched r opts = Some (Ok res)) /\ aggregate_of V res)
  \/ exists n, (forall sched, AggregateWithOptions g sched r opts = outcome (run (blk_read r opts) idx n sched (pinit n)))
     /\ (0 < n)%nat /\ idx <> [] /\ (forall i, In i idx -> acc_ok (c i))
     /\ (forall i a, In i idx -> acc_ok a -> blk_read r opts i a = Ok (acc_plus a (c i)))
     /\ count_sum (map c idx) < two63 /\ aggregate_of V (result_of (acc_sum (map c idx))).
Proof.
  intros HC HS HL HB HU HT V c idx. pose proof (reads_no_footer r opts HU) as EF. pose proof (zlen_nonneg (r_index r)) as Hn.
  fold V in HT.
  assert (HR : forall i, In i (blocks_to_read r opts) -> 0 <= i < BlockCount r
             /\ (o_filter opts = None \/ claimed_in_range r (o_filter opts) i = true)).
  { intros i Hi. unfold blocks_to_read in Hi. destruct (has_filter opts) eqn:Eh.
    - destruct (o_filter opts) as [f|] eqn:Ef.
      + rewrite matching_numbers in Hi. apply filter_In in Hi. destruct Hi as [Hi1 Hi2]. apply in_zseq in Hi1. split; [lia|auto].
      + cbn [matchingBlocks] in Hi. apply in_zseq in Hi. auto.
    - apply in_zseq in Hi. split; [exact Hi|]. left. unfold has_filter in Eh. destruct (o_filter opts); [discriminate|reflexivity]. }
  assert (HV : flat_map (fun i => got (read_one r opts i)) (blocks_to_read r opts) = V).
  { unfold V. rewrite <- visited by (unfold two63; lia). apply flat_map_same. intros i Hi. destruct (HR i Hi) as [H1 H2]. apply got_taken; [exact HC| |exact H2].
    unfold is_i64, two63. lia. }
  assert (NP : forall i, In i (blocks_to_read r opts) -> read_one r opts i <> Panic).
  { intros i _. unfold read_one. destruct (has_filter opts); [apply readFiltered_no_panic; assumption|apply readBlock_no_panic; assumption]. }
  assert (Hi64 : Forall is_i64 V).
  { apply Forall_forall. intros v Hv. unfold V, all_taken in Hv. apply in_flat_map in Hv. destruct Hv as (i & _ & Hv).
    pose proof (got_i64 r (i64 i) HC) as G. rewrite Forall_forall in G. apply G. unfold taken, GetPairs in Hv.
    destruct (readBlock r (i64 i)) as [[ids vals]| |]; [|destruct Hv|destruct Hv]. cbn [got].
    destruct (o_filter opts), (o_deny opts); try exact Hv.
    1-3: destruct (claimed_in_range _ _ _); [|destruct Hv]; apply in_map_iff in Hv; destruct Hv as ([pa pb] & <- & Hv);
      apply filter_In in Hv; destruct Hv as [Hv _]; apply in_combine_r in Hv; exact Hv. }
  assert (AV : aggregate_of V (result_of (acc_of V))) by (apply result_aggregate; assumption).
  assert (A0 : V = [] -> aggregate_of V zeroResult)
    by (intros ->; unfold aggregate_of, zeroResult; cbn; repeat split; try reflexivity; congruence).
  assert (EI : FilteredBlockIterator r (o_filter opts) (o_deny opts) = Ok (matchingBlocks r (o_filter opts) (o_deny opts))).
  { unfold FilteredBlockIterator. destruct (o_filter opts); [reflexivity|]. rewrite (make_fine _ 8 (2 ^ 48)) by lia. reflexivity. }
  assert (VE : blocks_to_read r opts = [] -> V = []) by (intros E; rewrite <- HV, E; reflexivity).
  assert (SC : forall f, (forall i, f i = read_one r opts i) -> scan f (blocks_to_read r opts) acc0 = Ok (acc_of V)).
  { intros f Hf. rewrite acc0_of, scan_readable by (intros i Hi; rewrite Hf; apply NP; exact Hi). cbn [app].
    rewrite <- HV. f_equal. f_equal. apply flat_map_same. intros i _. rewrite Hf. reflexivity. }
  assert (SEQ : exists res, aggregateSequential r opts = Ok res /\ aggregate_of V res).
  { unfold aggregateSequential. unfold uses_footer in EF. unfold read_one, blocks_to_read in *. destruct (has_filter opts) eqn:Eh.
    - unfold aggregateWithFilter. rewrite EI. cbn [rbind]. destruct (zlen _ =? 0) eqn:E0.
      + eexists. split; [reflexivity|]. apply A0. apply VE. apply Z.eqb_eq in E0. destruct (matchingBlocks _ _ _); [reflexivity|].
        rewrite zlen_cons in E0. pose proof (zlen_nonneg l). lia.
      + rewrite SC by reflexivity. cbn [rbind]. eauto.
    - cbn [negb] in EF. rewrite andb_true_r in EF. rewrite EF. rewrite SC by reflexivity. cbn [rbind]. eauto. }
  destruct SEQ as (rs & SEQ & AS).
  unfold AggregateWithOptions. destruct (o_parallel opts =? 0); [left; exists rs; rewrite SEQ; auto|].
  unfold parallelPlan. rewrite (i64_id (BlockCount r)) by (unfold is_i64, two63; lia). cbv zeta.
  set (nw := if o_parallel opts <? 0 then g else o_parallel opts) in *. set (m := if nw >? BlockCount r then BlockCount r else nw) in *.
  assert (Hm : m <= BlockCount r) by (unfold m; destruct (Z.gtb_spec nw (BlockCount r)); lia).
  destruct (Z.leb_spec m 1) as [|Hm1]; [left; exists rs; cbn [orb]; rewrite SEQ; auto|].
  destruct (BlockCount r <=? 1); [left; exists rs; cbn [orb]; rewrite SEQ; auto|]. cbn [orb].
  rewrite (make_fine (BlockCount r) 8 (2 ^ 48)) by lia. rewrite (make_fine m 40 (2 ^ 48)) by lia.
  replace (if has_filter opts then FilteredBlockIterator r (o_filter opts) (o_deny opts) else @Ok (list Z) (zseq (BlockCount r)))
    with (@Ok (list Z) (blocks_to_read r opts)) by (unfold blocks_to_read; destruct (has_filter opts); [symmetry; exact EI|reflexivity]).
  destruct (zlen (blocks_to_read r opts) =? 0) eqn:E0.
  { left. eexists. split; [reflexivity|]. apply A0, VE. apply Z.eqb_eq in E0. destruct (blocks_to_read r opts); [reflexivity|].
    rewrite zlen_cons in E0. pose proof (zlen_nonneg l). lia. }
  replace ((zlen (r_index r) >? 0) && negb (o_skip opts) && negb (has_filter opts)) with false by (symmetry; exact EF).
  assert (T : total (read_one r opts) (blocks_to_read r opts) < two63) by (rewrite total_got, HV; exact HT).
  right. exists (Z.to_nat m). split; [reflexivity|]. split; [lia|]. split; [intros E; unfold idx in E; rewrite E in E0; discriminate|].
  split; [intros i Hi; unfold idx in Hi; apply block_acc_ok; pose proof (total_in (read_one r opts) _ i Hi); lia|].
  split; [intros i a Hi Ha; unfold blk_read; apply add_block_plus; [exact Ha|apply NP; exact Hi]|].
  split; [unfold c, idx; rewrite total_count; exact T|].
  unfold c, idx. rewrite acc_sum_got; [rewrite HV; exact AV|rewrite HV; exact HT|exact NP].
Qed.

Theorem any_scan r opts g sched x :
  Forall (fun e => 0 <= e_count e) (r_index r) -> Forall (fun e => 80 <= e_size e) (r_index r) ->
  zlen (r_index r) <= BlockCount r -> BlockCount r <= 2 ^ 42 -> reads_data r opts ->
  zlen (all_taken r (o_filter opts) (o_deny opts)) < two63 ->
  AggregateWithOptions g sched r opts = Some x ->
  exists res, x = Ok res /\ aggregate_of (all_taken r (o_filter opts) (o_deny opts)) res.
Proof.
  intros HC HS HL HB HU HT HX. destruct (any_plan r opts g HC HS HL HB HU HT) as [(res & H1 & H2)|(n & H1 & M1 & M2 & M3 & M4 & M5 & M6)].
  - rewrite H1 in HX. injection HX as <-. eauto.
  - rewrite H1 in HX. eexists. split; [|exact M6]. exact (parallel_result _ _ n _ M1 M3 M4 M5 sched x M2 HX).
Qed.

Theorem any_terminates r opts g :
  Forall (fun e => 0 <= e_count e) (r_index r) -> Forall (fun e => 80 <= e_size e) (r_index r) ->
  zlen (r_index r) <= BlockCount r -> BlockCount r <= 2 ^ 42 -> reads_data r opts ->
  zlen (all_taken r (o_filter opts) (o_deny opts)) < two63 ->
  (exists x, forall sched, AggregateWithOptions g sched r opts = Some x)
  \/ exists blk idx n,
       (forall sched, AggregateWithOptions g sched r opts = outcome (run blk idx n sched (pinit n)))
       /\ (forall ts s, execution blk idx n (pinit n) ts s ->
             p_crashed s = false /\ (outcome s = None -> exists t s', step blk idx n s t = Some s'))
       /\ (exists bound, forall ts s, execution blk idx n (pinit n) ts s -> (length ts <= bound)%nat).
Proof.
  intros HC HS HL HB HU HT. destruct (any_plan r opts g HC HS HL HB HU HT) as [(res & H1 & H2)|(n & H1 & M1 & M2 & M3 & M4 & M5 & M6)]; [left; eauto|].
  right. exists (blk_read r opts), (blocks_to_read r opts), n. split; [exact H1|].
  assert (E : forall ts s, execution (blk_read r opts) (blocks_to_read r opts) n (pinit n) ts s -> _)
    by (intros ts s X; exact (execution_inv _ _ n _ M1 M3 M4 M5 _ _ _ (pinit_inv _ n _ M1) X)).
  split.
  - intros ts s X. destruct (E ts s X) as [I _]. split; [apply I|]. apply (progress _ _ n _ M1 M3 M4 M5 s I).
  - exists (measure (blocks_to_read r opts) n (pinit n)). intros ts s X. destruct (E ts s X) as [_ L]. lia.
Qed.

(** True index ranges make the pruning harmless. *)
Theorem taken_exact {Laws : SroarLaws Srr} r allow deny :
  Forall is_byte (r_data r) -> Forall (fun e => 0 <= e_count e) (r_index r) -> BlockCount r < two63 ->
  allow <> None \/ deny <> None -> ranges_true r ->
  all_taken r allow deny = map snd (filter (fun p => passes allow deny (fst p)) (readable_pairs r)).
Proof.
  intros HB HC HN HU HR. unfold all_taken, readable_pairs.
  assert (G : forall l, (forall i, In i l -> 0 <= i < two63) ->
    flat_map (taken r allow deny) l = map snd (filter (fun p => passes allow deny (fst p))
      (flat_map (fun i => match GetPairs r i with Ok (ids, values) => combine ids values | _ => [] end) l))).
  2: { apply G. intros i Hi. apply in_zseq in Hi. lia. }
  induction l as [|i l IH]; intros Hl; [reflexivity|]. cbn [flat_map]. rewrite List.filter_app, map_app, IH by (intros j Hj; apply Hl; right; exact Hj).
  f_equal. specialize (Hl i (or_introl eq_refl)). unfold taken. destruct (GetPairs r i) as [[ids vals]| |] eqn:EG; [|reflexivity|reflexivity].
  assert (EE : (if claimed_in_range r allow i then map snd (filter (fun p => passes allow deny (fst p)) (combine ids vals)) else [])
               = map snd (filter (fun p => passes allow deny (fst p)) (combine ids vals))).
  { destruct (claimed_in_range r allow i) eqn:EC; [reflexivity|]. symmetry. replace (filter _ _) with (@nil (Z * Z)); [reflexivity|].
    symmetry. apply filter_none. intros [id v] Hp. apply in_combine_l in Hp. cbn [fst].
    destruct allow as [a|]; [|discriminate]. cbn [claimed_in_range] in EC.
    unfold GetPairs in EG. rewrite (i64_id i) in EG by (unfold is_i64; lia).
    pose proof (readBlock_len r i ids vals HC EG) as (Hr & e & En & _ & _ & _ & HU64 & _). rewrite En in EC.
    assert (Hid : is_u64 id) by (specialize (HU64 HB); rewrite Forall_forall in HU64; apply HU64; exact Hp).
    assert (Hin : e_minID e <= id <= e_maxID e).
    { apply (HR i ids vals e id); [unfold GetPairs; rewrite (i64_id i) by (unfold is_i64; lia); exact EG|exact En|exact Hp]. }
    unfold passes. destruct (bm_contains a id) eqn:Ea; [|reflexivity]. exfalso.
    pose proof (law_min a id Hid Ea). pose proof (law_max a id Hid Ea). lia. }
  destruct allow, deny; try exact EE. destruct HU; congruence.
Qed.
End Any.

(** ** The index alone *)
Lemma stat_value_spec x : is_u64 x -> uint64ToInt64 x = stat_value x.
Proof. apply uint64ToInt64_val. Qed.

Lemma footer_fold l : Forall entry_typed l -> forall a, is_i64 (c_count a) -> is_i64 (c_sum a) ->
  let a' := fold_left add_entry l a in
  c_count a' = i64 (c_count a + zsum (map e_count l))
  /\ c_sum a' = i64 (c_sum a + zsum (map (fun e => stat_value (e_sum e)) l))
  /\ c_min a' = fold_left Z.min (map (fun e => stat_value (e_minValue e)) l) (c_min a)
  /\ c_max a' = fold_left Z.max (map (fun e => stat_value (e_maxValue e)) l) (c_max a).
Proof.
  intros HT. induction HT as [|e l He _ IH]; intros a Hc Hs; cbn [fold_left map].
  - unfold zsum. cbn [fold_right]. rewrite !Z.add_0_r, !i64_id by assumption. auto.
  - destruct He as (_ & _ & _ & _ & T1 & T2 & T3 & _).
    destruct (IH (add_entry a e)) as (A & B & C & D); [apply i64_range|apply i64_range|]. cbv zeta. rewrite A, B, C, D.
    unfold add_entry, zsum. cbn [c_count c_sum c_min c_max fold_right]. rewrite !stat_value_spec by assumption. rewrite !i64_add_l, !Z.add_assoc.
    split; [reflexivity|]. split; [reflexivity|]. split; f_equal.
    + destruct (Z.ltb_spec (stat_value (e_minValue e)) (c_min a)); lia.
    + destruct (Z.gtb_spec (stat_value (e_maxValue e)) (c_max a)); lia.
Qed.
Lemma fold_min_is l : forall m, Forall (fun x => x <= m) l -> l <> [] -> is_minimum (fold_left Z.min l m) l.
Proof.
  intros m. revert l.
  assert (G : forall l m, (fold_left Z.min l m = m \/ In (fold_left Z.min l m) l) /\ fold_left Z.min l m <= m /\ forall x, In x l -> fold_left Z.min l m <= x).
  { clear m. induction l as [|y l IH]; intros m; cbn [fold_left]; [split; [auto|split; [lia|intros x []]]|].
    destruct (IH (Z.min m y)) as (A & B & C). split; [|split].
    - destruct A as [A|A]; [|right; right; exact A]. rewrite A. destruct (Z.min_spec m y) as [[_ ->]|[_ ->]]; [auto|right; left; reflexivity].
    - lia.
    - intros x [<-|Hx]; [lia|apply C; exact Hx]. }
  intros l HF Hne. destruct (G l m) as (A & B & C). split; [|intros x Hx; apply C; exact Hx].
  destruct A as [A|A]; [|exact A]. destruct l as [|y l]; [congruence|]. inversion HF; subst.
  pose proof (C y (or_introl eq_refl)). assert (E : fold_left Z.min (y :: l) m = y) by lia. rewrite E. left. reflexivity.
Qed.
Lemma fold_max_is l : forall m, Forall (fun x => m <= x) l -> l <> [] -> is_maximum (fold_left Z.max l m) l.
Proof.
  intros m. revert l.
  assert (G : forall l m, (fold_left Z.max l m = m \/ In (fold_left Z.max l m) l) /\ m <= fold_left Z.max l m /\ forall x, In x l -> x <= fold_left Z.max l m).
  { clear m. induction l as [|y l IH]; intros m; cbn [fold_left]; [split; [auto|split; [lia|intros x []]]|].
    destruct (IH (Z.max m y)) as (A & B & C). split; [|split].
    - destruct A as [A|A]; [|right; right; exact A]. rewrite A. destruct (Z.max_spec m y) as [[_ ->]|[_ ->]]; [right; left; reflexivity|auto].
    - lia.
    - intros x [<-|Hx]; [lia|apply C; exact Hx]. }
  intros l HF Hne. destruct (G l m) as (A & B & C). split; [|intros x Hx; apply C; exact Hx].
  destruct A as [A|A]; [|exact A]. destruct l as [|y l]; [congruence|]. inversion HF; subst.
  pose proof (C y (or_introl eq_refl)). assert (E : fold_left Z.max (y :: l) m = y) by lia. rewrite E. left. reflexivity.
Qed.
Lemma stat_range x : is_u64 x -> min_int64 <= stat_value x <= max_int64.
Proof. intros H. unfold stat_value, is_u64, two64, two63, min_int64, max_int64 in *. destruct (Z.ltb_spec x 9223372036854775808); lia. Qed.

Section Index.
Context {Srr : Sroar}.

Theorem index_claims r skip g sched : Forall entry_typed (r_index r) -> r_index r <> [] -> skip = false ->
  exists res, AggregateWithOptions g sched r (mkOpts skip None None 0) = Some (Ok res) /\ as_claimed (r_index r) res.
Proof.
  intros HT Hne ->. unfold AggregateWithOptions, aggregateSequential. cbn [o_parallel o_filter o_deny has_filter o_skip negb Z.eqb].
  replace (zlen (r_index r) >? 0) with true by (symmetry; apply Z.gtb_lt; destruct (r_index r); [congruence|rewrite zlen_cons; pose proof (zlen_nonneg l); lia]).
  cbn [andb]. eexists. split; [reflexivity|].
  destruct (footer_fold (r_index r) HT acc0) as (A & B & C & D); [unfold is_i64, acc0, two63; cbn; lia|unfold is_i64, acc0, two63; cbn; lia|].
  unfold as_claimed, result_of. cbn [a_count a_sum a_min a_max]. rewrite A, B, C, D. cbn [acc0 c_count c_sum c_min c_max]. rewrite !Z.add_0_l.
  split; [reflexivity|]. split; [reflexivity|].
  assert (HM : forall f : footerEntry -> Z, map f (r_index r) <> []) by (intros f E; apply map_eq_nil in E; congruence).
  split; [apply fold_min_is|apply fold_max_is]; try apply HM; apply Forall_map; (eapply Forall_impl; [|exact HT]); intros e (_ & _ & _ & _ & T1 & T2 & _); cbn;
    pose proof (stat_range _ T1); pose proof (stat_range _ T2); lia.
Qed.

Theorem index_parallel r g sched workers x :
  BlockCount r = zlen (r_index r) -> zlen (r_index r) <= 2 ^ 42 -> r_index r <> [] ->
  Forall (fun e => 0 < e_count e < two63) (r_index r) -> zsum (map e_count (r_index r)) < two63 ->
  AggregateWithOptions g sched r (mkOpts false None None workers) = Some x ->
  AggregateWithOptions g [] r (mkOpts false None None 0) = Some x.
Proof.
  intros HB HL Hne HP HC HX. set (opts := mkOpts false None None workers) in *.
  assert (NP : 0 < zlen (r_index r)) by (destruct (r_index r); [congruence|rewrite zlen_cons; pose proof (zlen_nonneg l); lia]).
  assert (SEQ : aggregateSequential r opts = Ok (result_of (fold_left add_entry (r_index r) acc0))).
  { unfold aggregateSequential. cbn [has_filter opts o_filter o_deny o_skip negb]. destruct (Z.gtb_spec (zlen (r_index r)) 0); [reflexivity|lia]. }
  change (AggregateWithOptions g [] r (mkOpts false None None 0)) with (Some (aggregateSequential r opts)).
  f_equal. unfold AggregateWithOptions in HX. destruct (o_parallel opts =? 0); [injection HX as <-; reflexivity|].
  unfold parallelPlan in HX. rewrite (i64_id (BlockCount r)) in HX by (unfold is_i64, two63; lia). cbv zeta in HX.
  set (nw := if o_parallel opts <? 0 then g else o_parallel opts) in *. set (m := if nw >? BlockCount r then BlockCount r else nw) in *.
  assert (Hm : m <= BlockCount r) by (unfold m; destruct (Z.gtb_spec nw (BlockCount r)); lia).
  destruct (Z.leb_spec m 1) as [|Hm1]; [injection HX as <-; reflexivity|]. destruct (BlockCount r <=? 1); [injection HX as <-; reflexivity|]. cbn [orb] in HX.
  change (has_filter opts) with false in HX. cbv iota in HX.
  rewrite (make_fine (BlockCount r) 8 (2 ^ 48)) in HX by lia. rewrite (make_fine m 40 (2 ^ 48)) in HX by lia.
  rewrite HB, zlen_zseq in HX. replace (Z.max 0 (zlen (r_index r)) =? 0) with false in HX by lia.
  replace ((zlen (r_index r) >? 0) && negb (o_skip opts) && negb false) with true in HX by (cbn; lia).
  set (cg := fun i => match nth_error (r_index r) (Z.to_nat i) with Some e => entry_acc e | None => acc0 end).
  assert (EM : map cg (zseq (zlen (r_index r))) = map entry_acc (r_index r)) by (apply map_nth_zseq).
  assert (EC : count_sum (map entry_acc (r_index r)) = zsum (map e_count (r_index r))).
  { clear. unfold count_sum, zsum. induction (r_index r) as [|e l IH]; [reflexivity|]. cbn [map fold_right]. rewrite IH. reflexivity. }
  assert (HN : forall i, In i (zseq (zlen (r_index r))) -> exists e, nth_error (r_index r) (Z.to_nat i) = Some e /\ 0 < e_count e < two63 /\ 0 <= i < zlen (r_index r)).
  { intros i Hi. apply in_zseq in Hi. destruct (nth_error (r_index r) (Z.to_nat i)) as [e|] eqn:En.
    - exists e. rewrite Forall_forall in HP. split; [reflexivity|]. split; [apply HP; eapply nth_error_In; exact En|exact Hi].
    - apply nth_error_None in En. unfold zlen in *. lia. }
  pose proof (parallel_result (blk_footer r) (zseq (zlen (r_index r))) (Z.to_nat m) cg ltac:(lia)) as PR.
  specialize (PR ltac:(intros i Hi; unfold cg; destruct (HN i Hi) as (e & -> & He & _); apply entry_acc_ok; exact He)).
  specialize (PR ltac:(intros i a Hi Ha; destruct (HN i Hi) as (e & En & He & Hr); unfold blk_footer, cg; rewrite En;
    destruct (Z.ltb_spec i 0); [lia|]; destruct (Z.geb_spec i (zlen (r_index r))); [lia|]; cbn [orb]; rewrite add_entry_plus by exact Ha; reflexivity)).
  rewrite EM, EC in PR. specialize (PR HC sched x).
  specialize (PR ltac:(intros E; apply (f_equal zlen) in E; rewrite zlen_zseq in E; cbn in E; lia) HX). subst x.
  rewrite SEQ. f_equal. f_equal. apply footer_sum; [exact HP|rewrite EC; exact HC].
Qed.
End Index.
