(** Aggregation properties, sequential and parallel, in the vocabulary of Spec.v. *)
From Coq Require Import Permutation Sorting.Sorted Floats.SpecFloat.
From Verif Require Import Machine MachineFacts Encoding EncodingFacts FileIO Sroar Writer Reader Aggregate Parallel Spec FileFacts
  WriterFacts BlockFacts FinalFacts ReaderFacts DecodeFacts HistoryFacts RunFacts ReachFacts WriterProps ArbFacts AggFacts ParallelFacts.
Ltac Zify.zify_post_hook ::= Z.div_mod_to_equations.

(** ** Both kinds of accumulation are additions *)
Lemma acc_of_ok vs : zlen vs < two63 -> acc_ok (acc_of vs).
Proof.
  intros H. pose proof (zlen_nonneg vs) as Hp. unfold acc_ok, acc_of. cbn [c_count c_min c_max c_sum].
  rewrite (i64_id (zlen vs)) by (unfold is_i64, two63 in *; lia). split; [lia|]. split; [apply i64_range|].
  split; [apply lmin_le|]. split; [apply lmax_ge|]. intros E. destruct vs as [|v vs]; [split; reflexivity|].
  rewrite zlen_cons in E. pose proof (zlen_nonneg vs). lia.
Qed.
Lemma add_values_plus a vs : acc_ok a -> add_values a vs = acc_plus a (acc_of vs).
Proof.
  intros (_ & A2 & A3 & A4 & _). unfold add_values, acc_plus, acc_of. cbn [c_count c_min c_max c_sum]. rewrite i64_add_r.
  generalize (i64 (c_count a + zlen vs)) as n. intros n.
  rewrite <- (i64_id (c_sum a)) at 1 by exact A2. generalize dependent (c_min a). intros mn Hmn. generalize dependent (c_max a). intros mx Hmx.
  rewrite i64_add_r. rewrite <- (i64_add_l (c_sum a)). rewrite (i64_id (c_sum a)) by exact A2. rewrite <- (i64_id (c_sum a)) at 1 by exact A2.
  generalize (c_sum a) as s. intros s. clear A2. revert mn mx s Hmn Hmx.
  induction vs as [|v vs IH]; intros mn mx s Hmn Hmx; cbn [fold_left].
  - unfold lmin, lmax. cbn [fold_right]. f_equal; [lia|lia|]. f_equal. cbn. lia.
  - unfold add_value at 2. cbn [c_count c_min c_max c_sum]. rewrite i64_add_l.
    replace (if v <? mn then v else mn) with (Z.min mn v) by (destruct (Z.ltb_spec v mn); lia).
    replace (if v >? mx then v else mx) with (Z.max mx v) by (destruct (Z.gtb_spec v mx); lia).
    rewrite IH by lia. unfold lmin, lmax, zsum. cbn [fold_right]. f_equal; [lia|lia|]. f_equal. lia.
Qed.

Definition entry_acc (e : footerEntry) : acc :=
  mkAcc (e_count e) (uint64ToInt64 (e_minValue e)) (uint64ToInt64 (e_maxValue e)) (i64 (uint64ToInt64 (e_sum e))).
Lemma add_entry_plus a e : acc_ok a -> add_entry a e = acc_plus a (entry_acc e).
Proof.
  intros _. unfold add_entry, acc_plus, entry_acc. cbn [c_count c_min c_max c_sum]. rewrite i64_add_r. f_equal.
  - destruct (Z.ltb_spec (uint64ToInt64 (e_minValue e)) (c_min a)); lia.
  - destruct (Z.gtb_spec (uint64ToInt64 (e_maxValue e)) (c_max a)); lia.
Qed.
Lemma entry_acc_ok e : 0 < e_count e < two63 -> acc_ok (entry_acc e).
Proof.
  intros H. unfold acc_ok, entry_acc. cbn [c_count c_min c_max c_sum].
  pose proof (uint64ToInt64_range (e_minValue e)). pose proof (uint64ToInt64_range (e_maxValue e)).
  unfold is_i64, max_int64, min_int64, two63 in *. split; [lia|]. split; [apply i64_range|]. lia.
Qed.

(** What one block contributes when it is read. *)
Definition block_acc (x : res (list Z * list Z)) : acc :=
  match x with Ok (_, vs) => acc_of vs | _ => acc0 end.
Definition pair_count (x : res (list Z * list Z)) : Z :=
  match x with Ok (_, vs) => zlen vs | _ => 0 end.
Lemma add_block_plus a x : acc_ok a -> x <> Panic -> add_block a x = Ok (acc_plus a (block_acc x)).
Proof.
  intros Ha Hx. destruct x as [[ids vs]|e|]; [| |congruence]; cbn [add_block block_acc].
  - rewrite add_values_plus by exact Ha. reflexivity.
  - rewrite acc_0_plus by exact Ha. reflexivity.
Qed.
Lemma block_acc_ok x : pair_count x < two63 -> acc_ok (block_acc x).
Proof. destruct x as [[ids vs]|e|]; cbn [pair_count block_acc]; intros; [apply acc_of_ok; assumption|apply acc0_ok|apply acc0_ok]. Qed.
Lemma block_acc_count x : pair_count x < two63 -> c_count (block_acc x) = pair_count x.
Proof.
  destruct x as [[ids vs]|e|]; cbn [pair_count block_acc acc_of c_count]; intros; [|reflexivity|reflexivity].
  apply i64_id. pose proof (zlen_nonneg vs). unfold is_i64, two63 in *. lia.
Qed.

Definition total (f : Z -> res (list Z * list Z)) (idx : list Z) : Z := fold_right (fun i n => pair_count (f i) + n) 0 idx.
Lemma pair_count_nonneg x : 0 <= pair_count x.
Proof. destruct x as [[ids vs]|e|]; cbn; [apply zlen_nonneg|lia|lia]. Qed.
Lemma total_nonneg f idx : 0 <= total f idx.
Proof. unfold total. induction idx as [|i idx IH]; cbn [fold_right]; [lia|]. pose proof (pair_count_nonneg (f i)). lia. Qed.
Lemma total_in f idx i : In i idx -> pair_count (f i) <= total f idx.
Proof.
  unfold total. induction idx as [|j idx IH]; intros H; [destruct H|]. cbn [fold_right]. pose proof (pair_count_nonneg (f j)).
  pose proof (total_nonneg f idx) as G. unfold total in G. destruct H as [->|H]; [lia|]. specialize (IH H). lia.
Qed.
Lemma total_count f idx : total f idx < two63 -> count_sum (map (fun i => block_acc (f i)) idx) = total f idx.
Proof.
  unfold total, count_sum. induction idx as [|i idx IH]; cbn [fold_right map]; [reflexivity|]. intros H.
  pose proof (total_nonneg f idx) as G. unfold total in G. pose proof (pair_count_nonneg (f i)).
  rewrite IH by lia. rewrite block_acc_count by lia. reflexivity.
Qed.

Lemma scan_sum f idx : (forall i, In i idx -> f i <> Panic) -> total f idx < two63 ->
  scan f idx acc0 = Ok (acc_sum (map (fun i => block_acc (f i)) idx)).
Proof.
  intros Hp Ht.
  assert (G : forall pre suf, idx = pre ++ suf ->
    scan f suf (acc_sum (map (fun i => block_acc (f i)) pre)) = Ok (acc_sum (map (fun i => block_acc (f i)) idx))).
  { intros pre suf. revert pre. induction suf as [|i suf IH]; intros pre E; [rewrite app_nil_r in E; subst; reflexivity|].
    assert (HF : Forall acc_ok (map (fun i => block_acc (f i)) idx)).
    { apply Forall_map, Forall_forall. intros j Hj. apply block_acc_ok. pose proof (total_in f idx j Hj). lia. }
    pose proof (total_count f idx Ht) as HC.
    assert (E' : idx = (pre ++ [i]) ++ suf) by (rewrite <- app_assoc; exact E).
    assert (HF' := HF). rewrite E', !map_app in HF, HC. rewrite !count_sum_app in HC.
    apply Forall_app in HF. destruct HF as [HF F3]. apply Forall_app in HF. destruct HF as [F1 F2].
    pose proof (count_sum_nonneg _ F1). pose proof (count_sum_nonneg _ F2). pose proof (count_sum_nonneg _ F3).
    cbn [scan]. rewrite add_block_plus; [|apply acc_sum_ok; [exact F1|]|apply Hp; rewrite E; apply in_or_app; right; left; reflexivity].
    2: { rewrite <- E' in HC. lia. }
    cbn [rbind]. rewrite <- (IH (pre ++ [i]) E'). f_equal. rewrite map_app. cbn [map] in *. inversion F2; subst.
    rewrite acc_sum_app; [|exact F2|rewrite <- E' in HC; lia]. cbn [acc_sum fold_right].
    rewrite acc_0_plus by assumption. reflexivity. }
  apply (G [] idx eq_refl).
Qed.

Lemma footer_sum (index : list footerEntry) : Forall (fun e => 0 < e_count e < two63) index ->
  count_sum (map entry_acc index) < two63 ->
  fold_left add_entry index acc0 = acc_sum (map entry_acc index).
Proof.
  intros Hp Ht.
  assert (HF : Forall acc_ok (map entry_acc index)).
  { apply Forall_map. eapply Forall_impl; [|exact Hp]. intros e He. apply entry_acc_ok. exact He. }
  assert (G : forall suf pre, index = pre ++ suf ->
    fold_left add_entry suf (acc_sum (map entry_acc pre)) = acc_sum (map entry_acc index)); [|apply (G index []); reflexivity].
  induction suf as [|e suf IH]; intros pre E; [rewrite app_nil_r in E; subst; reflexivity|].
  assert (E' : index = (pre ++ [e]) ++ suf) by (rewrite <- app_assoc; exact E).
  assert (HF1 := HF). assert (HC := Ht). rewrite E', !map_app in HF1, HC. rewrite !count_sum_app in HC.
  apply Forall_app in HF1. destruct HF1 as [HF1 F3]. apply Forall_app in HF1. destruct HF1 as [F1 F2].
  pose proof (count_sum_nonneg _ F1). pose proof (count_sum_nonneg _ F2). pose proof (count_sum_nonneg _ F3).
  cbn [fold_left]. rewrite add_entry_plus by (apply acc_sum_ok; [exact F1|lia]). rewrite <- (IH (pre ++ [e]) E'). f_equal.
  rewrite map_app. cbn [map] in *. inversion F2; subst. rewrite acc_sum_app; [|exact F2|lia]. cbn [acc_sum fold_right].
  rewrite acc_0_plus by assumption. reflexivity.
Qed.

(** ** Parallel equals sequential, for any opened file without damage *)
Section Par.
Context {Srr : Sroar}.

Definition read_one (r : reader) (opts : aggOptions) (i : Z) : res (list Z * list Z) :=
  if has_filter opts then readBlockFiltered r (i64 i) (o_filter opts) (o_deny opts) else GetPairs r i.
Definition blocks_to_read (r : reader) (opts : aggOptions) : list Z :=
  if has_filter opts then matchingBlocks r (o_filter opts) (o_deny opts) else zseq (BlockCount r).

(** What the theorem needs of the file. *)
Record sane (r : reader) (opts : aggOptions) : Prop := {
  sane_count : BlockCount r = zlen (r_index r);
  sane_small : zlen (r_index r) * 40 <= 2 ^ 48;
  sane_footer : Forall (fun e => 0 < e_count e < two63) (r_index r);
  sane_footer_total : count_sum (map entry_acc (r_index r)) < two63;
  sane_reads : forall i, In i (blocks_to_read r opts) -> read_one r opts i <> Panic;
  sane_reads_total : total (read_one r opts) (blocks_to_read r opts) < two63
}.

(** No [make] panics. *)
Lemma iterator_sane r opts : sane r opts ->
  FilteredBlockIterator r (o_filter opts) (o_deny opts) = Ok (matchingBlocks r (o_filter opts) (o_deny opts)).
Proof.
  intros [S1 S2 _ _ _ _]. unfold FilteredBlockIterator. destruct (o_filter opts); [reflexivity|].
  pose proof (zlen_nonneg (r_index r)). rewrite S1. rewrite (make_fine _ 8 (2 ^ 48)) by lia. reflexivity.
Qed.
Lemma plan_sane g r opts : sane r opts -> parallelPlan g r opts =
  let nw := if o_parallel opts <? 0 then g else o_parallel opts in
  let m := if nw >? BlockCount r then BlockCount r else nw in
  if (m <=? 1) || (BlockCount r <=? 1) then PlanSequential
  else if zlen (blocks_to_read r opts) =? 0 then PlanEmpty
  else if uses_footer r opts then PlanFooter (blocks_to_read r opts) (Z.to_nat m)
  else PlanReading (blocks_to_read r opts) (Z.to_nat m).
Proof.
  intros S. pose proof (iterator_sane r opts S) as EI. destruct S as [S1 S2 _ _ _ _]. pose proof (zlen_nonneg (r_index r)) as Hl.
  unfold parallelPlan. rewrite (i64_id (BlockCount r)) by (rewrite S1; unfold is_i64, two63 in *; lia). cbv zeta.
  set (nw := if o_parallel opts <? 0 then g else o_parallel opts). set (m := if nw >? BlockCount r then BlockCount r else nw).
  assert (Hm : m <= BlockCount r) by (unfold m; destruct (Z.gtb_spec nw (BlockCount r)); lia).
  destruct (Z.leb_spec m 1); [reflexivity|]. destruct (BlockCount r <=? 1); [reflexivity|]. cbn [orb].
  rewrite (make_fine (BlockCount r) 8 (2 ^ 48)) by (rewrite ?S1 in *; lia).
  rewrite (make_fine m 40 (2 ^ 48)) by (rewrite ?S1 in *; lia).
  unfold blocks_to_read, uses_footer. destruct (has_filter opts); [rewrite EI; cbv beta iota; reflexivity|reflexivity].
Qed.

(** Enough workers and blocks for the machine to be used: the machine's parameters. *)
Definition machine (g : Z) (r : reader) (opts : aggOptions) : option ((Z -> acc -> res acc) * list Z * nat) :=
  if o_parallel opts =? 0 then None
  else match parallelPlan g r opts with
       | PlanFooter idx n => Some (blk_footer r, idx, n)
       | PlanReading idx n => Some (blk_read r opts, idx, n)
       | _ => None
       end.

Definition contribution (r : reader) (opts : aggOptions) (i : Z) : acc :=
  if uses_footer r opts then match nth_error (r_index r) (Z.to_nat i) with Some e => entry_acc e | None => acc0 end
  else block_acc (read_one r opts i).

Lemma map_nth_zseq {A B} (l : list A) (f : A -> B) (d : B) :
  map (fun i => match nth_error l (Z.to_nat i) with Some e => f e | None => d end) (zseq (zlen l)) = map f l.
Proof.
  unfold zseq, zlen. rewrite Nat2Z.id, map_map. induction l as [|x l IH] using rev_ind; [reflexivity|].
  rewrite app_length, Nat.add_1_r, seq_S, !map_app. f_equal.
  - rewrite <- IH. apply map_ext_in. intros j Hj. apply in_seq in Hj. rewrite Nat2Z.id, nth_error_app1 by lia. reflexivity.
  - cbn [map Nat.add]. rewrite Nat2Z.id, nth_error_app2 by lia. rewrite Nat.sub_diag. reflexivity.
Qed.

Lemma machine_facts g r opts blk idx n : sane r opts -> machine g r opts = Some (blk, idx, n) ->
  (0 < n)%nat /\ idx <> []
  /\ (forall i, In i idx -> acc_ok (contribution r opts i))
  /\ (forall i a, In i idx -> acc_ok a -> blk i a = Ok (acc_plus a (contribution r opts i)))
  /\ count_sum (map (contribution r opts) idx) < two63
  /\ aggregateSequential r opts = Ok (result_of (acc_sum (map (contribution r opts) idx))).
Proof.
  intros S HM. pose proof (iterator_sane r opts S) as EI. unfold machine in HM. rewrite (plan_sane g r opts S) in HM. destruct S as [S1 S2 S3 S4 S5 S6].
  destruct (o_parallel opts =? 0); [discriminate|]. pose proof (zlen_nonneg (r_index r)) as Hl. cbv zeta in HM.
  set (nw := if o_parallel opts <? 0 then g else o_parallel opts) in *.
  set (m := if nw >? BlockCount r then BlockCount r else nw) in *.
  destruct ((m <=? 1) || (BlockCount r <=? 1)) eqn:E1; [discriminate|]. apply orb_false_iff in E1. destruct E1 as [E1 E2].
  destruct (zlen (blocks_to_read r opts) =? 0) eqn:E3; [discriminate|].
  assert (Hne : blocks_to_read r opts <> []) by (intros E; rewrite E in E3; discriminate).
  unfold contribution. unfold aggregateSequential.
  destruct (uses_footer r opts) eqn:EF; injection HM as <- <- <-; (split; [lia|]); (split; [exact Hne|]).
  - assert (Hf : has_filter opts = false) by (unfold uses_footer in EF; destruct (has_filter opts); [rewrite andb_false_r in EF; discriminate|reflexivity]).
    unfold blocks_to_read in *. rewrite Hf in *. rewrite S1 in *. rewrite map_nth_zseq.
    assert (Hnth : forall i, In i (zseq (zlen (r_index r))) -> exists e, nth_error (r_index r) (Z.to_nat i) = Some e /\ 0 < e_count e < two63 /\ 0 <= i < zlen (r_index r)).
    { intros i Hi. apply in_zseq in Hi. destruct (nth_error (r_index r) (Z.to_nat i)) as [e|] eqn:En.
      - exists e. rewrite Forall_forall in S3. split; [reflexivity|]. split; [apply S3; eapply nth_error_In; exact En|exact Hi].
      - apply nth_error_None in En. unfold zlen in *. lia. }
    split; [intros i Hi; destruct (Hnth i Hi) as (e & -> & He & _); apply entry_acc_ok; exact He|].
    split.
    { intros i a Hi Ha. destruct (Hnth i Hi) as (e & En & He & Hr). unfold blk_footer. rewrite En.
      destruct (Z.ltb_spec i 0); [lia|]. destruct (Z.geb_spec i (zlen (r_index r))); [lia|]. cbn [orb].
      rewrite add_entry_plus by exact Ha. reflexivity. }
    split; [exact S4|]. rewrite <- footer_sum by assumption. unfold uses_footer in EF. apply andb_true_iff in EF. destruct EF as [-> _]. reflexivity.
  - pose proof (total_count _ _ S6) as HC.
    split; [intros i Hi; apply block_acc_ok; pose proof (total_in (read_one r opts) _ i Hi); lia|].
    split; [intros i a Hi Ha; unfold blk_read; apply add_block_plus; [exact Ha|apply S5; exact Hi]|].
    split; [rewrite HC; exact S6|].
    pose proof (scan_sum _ _ S5 S6) as HS. revert HS. unfold aggregateWithFilter, blocks_to_read, read_one, uses_footer in *.
    destruct (has_filter opts).
    + rewrite EI. cbn [rbind]. rewrite E3. intros ->. reflexivity.
    + cbn [negb] in EF. rewrite andb_true_r in EF. rewrite EF. intros HS. change (fun i : Z => GetPairs r i) with (GetPairs r) in HS.
      rewrite HS. reflexivity.
Qed.

Lemma no_machine g r opts : sane r opts -> machine g r opts = None ->
  forall sched, AggregateWithOptions g sched r opts = Some (aggregateSequential r opts).
Proof.
  intros S HM sched. unfold machine, AggregateWithOptions in *. destruct (o_parallel opts =? 0); [reflexivity|].
  rewrite (plan_sane g r opts S) in *. cbv zeta in *.
  set (m := if (if o_parallel opts <? 0 then g else o_parallel opts) >? BlockCount r then BlockCount r else _) in *.
  destruct ((m <=? 1) || (BlockCount r <=? 1)) eqn:E1; [reflexivity|]. apply orb_false_iff in E1. destruct E1 as [_ E1].
  destruct (zlen (blocks_to_read r opts) =? 0) eqn:E2; [|destruct (uses_footer r opts); discriminate].
  unfold aggregateSequential, aggregateWithFilter. pose proof (iterator_sane r opts S) as EI. unfold blocks_to_read in E2.
  destruct (has_filter opts); [rewrite EI; cbn [rbind]; rewrite E2; reflexivity|].
  rewrite zlen_zseq in E2. lia.
Qed.

Lemma with_machine g r opts blk idx n : machine g r opts = Some (blk, idx, n) ->
  forall sched, AggregateWithOptions g sched r opts = outcome (run blk idx n sched (pinit n)).
Proof.
  intros HM sched. unfold machine, AggregateWithOptions in *. destruct (o_parallel opts =? 0); [discriminate|].
  destruct (parallelPlan g r opts); try discriminate; injection HM as <- <- <-; reflexivity.
Qed.

Theorem parallel_sequential g r opts sched x : sane r opts ->
  AggregateWithOptions g sched r opts = Some x -> x = aggregateSequential r opts.
Proof.
  intros HS H. destruct (machine g r opts) as [[[blk idx] n]|] eqn:EM.
  - destruct (machine_facts g r opts blk idx n HS EM) as (M1 & M2 & M3 & M4 & M5 & M6).
    rewrite (with_machine _ _ _ _ _ _ EM) in H. rewrite M6.
    exact (parallel_result blk idx n (contribution r opts) M1 M3 M4 M5 sched x M2 H).
  - rewrite (no_machine _ _ _ HS EM) in H. injection H as <-. reflexivity.
Qed.

End Par.

(** ** Statements about finished runs *)
Section Finished.
Context {Srr : Sroar}.

Lemma vals_at_length vs blocks i : (forall b, In b blocks -> zlen (vs b) <= max_items) -> zlen (vals_at vs blocks i) <= max_items.
Proof.
  intros H. unfold vals_at. destruct (nth_error blocks (Z.to_nat i)) as [b|] eqn:E; [apply H; eapply nth_error_In; exact E|].
  cbn. unfold max_items. lia.
Qed.

Lemma NoDup_zseq n : NoDup (zseq n).
Proof. unfold zseq. apply FinFun.Injective_map_NoDup; [intros x y H; lia|apply seq_NoDup]. Qed.
Lemma NoDup_map_fst_filter {A} (l : list Z) (m : list A) (P : Z * A -> bool) : NoDup l -> NoDup (map fst (filter P (combine l m))).
Proof.
  intros H. revert m. induction H as [|x l Hx H IH]; intros m; [constructor|]. destruct m as [|y m]; [constructor|]. cbn [combine filter].
  specialize (IH m). assert (N : ~ In x (map fst (filter P (combine l m)))).
  { intros Hin. apply in_map_iff in Hin. destruct Hin as ([a b] & <- & Hin). apply filter_In in Hin. destruct Hin as [Hin _].
    apply in_combine_l in Hin. contradiction. }
  destruct (P (x, y)); [constructor; assumption|exact IH].
Qed.
Lemma iterator_NoDup r f d : NoDup (matchingBlocks r f d).
Proof. destruct f; cbn [matchingBlocks]; [apply NoDup_map_fst_filter|]; apply NoDup_zseq. Qed.

Lemma blocks_to_read_range r blocks opts i : indexed r blocks -> In i (blocks_to_read r opts) -> 0 <= i < zlen blocks.
Proof.
  intros HI. unfold blocks_to_read. destruct (has_filter opts); [apply iterator_range; exact HI|].
  rewrite (v_count _ _ HI), in_zseq. auto.
Qed.
Lemma blocks_to_read_NoDup r opts : NoDup (blocks_to_read r opts).
Proof. unfold blocks_to_read. destruct (has_filter opts); [apply iterator_NoDup|apply NoDup_zseq]. Qed.
Lemma blocks_to_read_length r blocks opts : indexed r blocks -> zlen (blocks_to_read r opts) <= zlen blocks.
Proof.
  intros HI. pose proof (blocks_to_read_NoDup r opts) as HN.
  assert (Hin : incl (blocks_to_read r opts) (zseq (zlen blocks))).
  { intros i Hi. apply in_zseq. eapply blocks_to_read_range; eassumption. }
  pose proof (NoDup_incl_length HN Hin) as HL. pose proof (zlen_zseq (zlen blocks)) as Hz. pose proof (zlen_nonneg blocks).
  unfold zlen in *. lia.
Qed.

Lemma total_bound f idx k : (forall i, In i idx -> pair_count (f i) <= k) -> 0 <= k -> total f idx <= k * zlen idx.
Proof.
  intros H Hk. unfold total. induction idx as [|i idx IH]; cbn [fold_right]; [cbn; lia|]. rewrite zlen_cons.
  pose proof (H i (or_introl eq_refl)). specialize (IH (fun j Hj => H j (or_intror Hj))). lia.
Qed.

Lemma indexed_footer r blocks : indexed r blocks ->
  Forall (fun e => 0 < e_count e < two63) (r_index r) /\ count_sum (map entry_acc (r_index r)) < two63.
Proof.
  intros [_ Hs Hg Hx _].
  assert (G : Forall (fun e => 0 < e_count e < two63) (r_index r) /\ count_sum (map entry_acc (r_index r)) <= max_items * zlen blocks).
  { clear Hs. induction Hx as [|e b l1 l2 Ht _ IH]; [split; [constructor|cbn; lia]|]. inversion Hg as [|b' l' Hb Hg']; subst.
    destruct (IH Hg') as [J1 J2]. destruct Ht as (_ & _ & _ & _ & _ & T & _). destruct Hb as (_ & _ & _ & Hb).
    split; [constructor; [unfold max_items, two63 in *; lia|exact J1]|]. cbn [map]. rewrite count_sum_cons, zlen_cons.
    cbn [entry_acc c_count]. lia. }
  destruct G as [G1 G2]. split; [exact G1|]. unfold max_items, two32, two63 in *. lia.
Qed.

Lemma indexed_counts r blocks : indexed r blocks -> Forall (fun e => 0 <= e_count e) (r_index r).
Proof. intros HI. destruct (indexed_footer r blocks HI) as [F1 _]. eapply Forall_impl; [|exact F1]. intros e He. cbn in *. lia. Qed.
Lemma pair_count_filtered r f d i blocks : indexed r blocks -> pair_count (readBlockFiltered r i f d) <= max_items.
Proof.
  intros HI. unfold readBlockFiltered. destruct (readBlock r i) as [[ids vals]| |] eqn:E; cbn [rbind pair_count]; try (unfold max_items; lia).
  apply readBlock_len in E; [|eapply indexed_counts; exact HI]. destruct E as (_ & e & En & [L1 L2] & _).
  assert (Hm : e_count e <= max_items).
  { pose proof (v_index _ _ HI) as Hx. pose proof (v_good _ _ HI) as Hg. clear - Hx Hg En. revert En. generalize (Z.to_nat i) as n.
    induction Hx as [|e0 b l1 l2 Ht _ IH]; intros [|n] En; cbn in En; try discriminate; inversion Hg as [|b' l' Hb Hg']; subst; [|eapply IH; eassumption].
    injection En as <-. destruct Ht as (_ & _ & _ & _ & _ & T & _). destruct Hb as (_ & _ & _ & Hb). lia. }
  assert (G : forall x, filterPairs f d ids vals = x -> pair_count x <= max_items).
  { intros [[ids' vals']| |] Ex; cbn [pair_count]; try (unfold max_items; lia). apply filterPairs_len in Ex. lia. }
  destruct f, d; cbn [pair_count]; try (apply G; reflexivity). lia.
Qed.

Lemma indexed_sane r blocks opts : indexed r blocks -> sane r opts.
Proof.
  intros HI. destruct (indexed_footer r blocks HI) as [F1 F2].
  pose proof (index_length r blocks HI) as HL. pose proof (v_small _ _ HI) as Hs. pose proof (v_sizes _ _ HI) as HZ.
  pose proof (indexed_counts _ _ HI) as HC.
  constructor.
  - rewrite HL. apply HI.
  - rewrite HL. unfold two32, two63 in *. lia.
  - exact F1.
  - exact F2.
  - intros i Hi. unfold read_one. destruct (has_filter opts); [apply readFiltered_no_panic; assumption|apply readBlock_no_panic; exact HZ].
  - pose proof (blocks_to_read_length r blocks opts HI) as HB.
    pose proof (total_bound (read_one r opts) (blocks_to_read r opts) max_items) as HT.
    assert (total (read_one r opts) (blocks_to_read r opts) <= max_items * zlen (blocks_to_read r opts)).
    { apply HT; [|unfold max_items; lia]. intros i Hi. unfold read_one. destruct (has_filter opts); [eapply pair_count_filtered; exact HI|].
      pose proof (pair_count_filtered r None None (i64 i) blocks HI) as G. unfold readBlockFiltered in G. unfold GetPairs.
      destruct (readBlock r (i64 i)) as [[a b]| |]; exact G. }
    unfold max_items, two32, two63 in *. lia.
Qed.

(** C19 *)
Theorem footer_exact options faults h now w :
  finished_run options faults h now w ->
  exists r blocks, NewReader (bytes_of w) = Ok r /\ stored h blocks
    /\ (Forall no_min_stat blocks ->
        exists res, Aggregate r = Ok res /\ aggregate_of (map snd (all_pairs blocks)) res).
Proof.
  intros H. destruct (finished_indexed options faults h now w H) as (r & blocks & HR & Hs & HI & _).
  exists r, blocks. split; [exact HR|]. split; [exact Hs|]. intros Hn. rewrite all_pairs_snd by apply HI.
  exists (result_of (acc_of (flat_map snd blocks))). split.
  - unfold Aggregate, aggregateSequential. cbn [has_filter DefaultAggregateOptions o_filter o_deny o_skip negb].
    rewrite andb_true_r. destruct (zlen (r_index r) >? 0) eqn:E.
    + rewrite (footer_result r blocks HI Hn). reflexivity.
    + pose proof (index_length r blocks HI) as HL. pose proof (zlen_nonneg blocks). assert (blocks = []) as ->.
      { destruct blocks; [reflexivity|]. rewrite zlen_cons in *. pose proof (zlen_nonneg blocks). lia. }
      rewrite (v_count _ _ HI). reflexivity.
  - rewrite <- chosen_none by apply HI. apply result_aggregate; [apply chosen_i64|apply chosen_length]; apply HI.
Qed.

Context {Lw : SroarLaws Srr}.

(** C20 *)
Theorem footer_scan_agree options faults h now w :
  finished_run options faults h now w -> faithful (encoding_of options) ->
  exists r blocks, NewReader (bytes_of w) = Ok r /\ contents h r blocks
    /\ (Forall no_min_stat blocks -> Aggregate r = aggregateSequential r (mkOpts true None None 0))
    /\ exists res, aggregateSequential r (mkOpts true None None 0) = Ok res
         /\ aggregate_of (map snd (all_pairs blocks)) res.
Proof.
  intros H He. destruct (finished_indexed options faults h now w H) as (r & blocks & HR & Hs & HI & HV).
  destruct (HV He) as [V C]. exists r, blocks. split; [exact HR|]. split; [exact C|]. split.
  - intros Hn. unfold Aggregate. rewrite !(sequential_answer r blocks) by (try exact V; intros; exact Hn). reflexivity.
  - exists (answer r (mkOpts true None None 0) blocks). split.
    + apply sequential_answer; [exact V|]. unfold uses_footer. cbn. rewrite andb_false_r. discriminate.
    + rewrite all_pairs_snd, <- chosen_none by apply HI. exact (answer_aggregate r blocks (mkOpts true None None 0) HI).
Qed.

(** C21 *)
Theorem filtered_exact options faults h now w :
  finished_run options faults h now w -> faithful (encoding_of options) ->
  exists r blocks, NewReader (bytes_of w) = Ok r /\ contents h r blocks
    /\ forall skip allow deny, allow <> None \/ deny <> None ->
         exists res, aggregateSequential r (mkOpts skip allow deny 0) = Ok res
           /\ aggregate_of (chosen allow deny blocks) res.
Proof.
  intros H He. destruct (finished_indexed options faults h now w H) as (r & blocks & HR & Hs & HI & HV).
  destruct (HV He) as [V C]. exists r, blocks. split; [exact HR|]. split; [exact C|]. intros skip allow deny Hf.
  exists (answer r (mkOpts skip allow deny 0) blocks). split.
  - apply sequential_answer; [exact V|]. unfold uses_footer, has_filter. cbn.
    destruct allow, deny; try (rewrite andb_false_r; discriminate). destruct Hf; congruence.
  - exact (answer_aggregate r blocks (mkOpts skip allow deny 0) HI).
Qed.

(** C22 *)
Lemma zseq_sorted_filter {A} (m : list A) (P : Z * A -> bool) : forall k n,
  StronglySorted Z.lt (map fst (filter P (combine (map Z.of_nat (seq k n)) m)))
  /\ Forall (fun i => Z.of_nat k <= i) (map fst (filter P (combine (map Z.of_nat (seq k n)) m))).
Proof.
  induction m as [|x m IH]; intros k n; [destruct n; cbn; split; constructor|]. destruct n as [|n]; [cbn; split; constructor|].
  cbn [seq map combine filter]. destruct (IH (S k) n) as [I1 I2].
  assert (I3 : Forall (fun i => Z.of_nat k <= i) (map fst (filter P (combine (map Z.of_nat (seq (S k) n)) m)))).
  { eapply Forall_impl; [|exact I2]. intros i Hi. cbn in *. lia. }
  destruct (P (Z.of_nat k, x)); [|auto]. cbn [map fst]. split; constructor; auto; [|lia].
  eapply Forall_impl; [|exact I2]. intros i Hi. cbn in *. lia.
Qed.
Lemma iterator_sorted r f d : StronglySorted Z.lt (matchingBlocks r f d).
Proof.
  destruct f as [f|]; cbn [matchingBlocks]; unfold zseq.
  - apply zseq_sorted_filter.
  - set (n := Z.to_nat (BlockCount r)). pose proof (zseq_sorted_filter (repeat tt n) (fun _ => true) 0 n) as [G _].
    rewrite filter_true' in G by reflexivity. replace (map fst (combine (map Z.of_nat (seq 0 n)) (repeat tt n))) with (map Z.of_nat (seq 0 n)) in G; [exact G|].
    symmetry. generalize 0%nat. clear. induction n as [|n IH]; intros k; [reflexivity|]. cbn. f_equal. apply IH.
Qed.

Theorem pruning options faults h now w :
  finished_run options faults h now w ->
  exists r blocks, NewReader (bytes_of w) = Ok r /\ stored h blocks
    /\ forall allow deny, let l := matchingBlocks r allow deny in
         StronglySorted Z.lt l
         /\ (forall i, In i l -> 0 <= i < zlen blocks)
         /\ (forall i b id, nth_error blocks i = Some b -> In id (fst b) -> passes allow deny id = true -> In (Z.of_nat i) l)
         /\ (forall a, allow = Some a -> bm_nonempty a -> forall i, In i l ->
               exists b, nth_error blocks (Z.to_nat i) = Some b
                 /\ (exists id y, In id (fst b) /\ is_u64 y /\ bm_contains a y = true /\ y <= id)
                 /\ (exists id y, In id (fst b) /\ is_u64 y /\ bm_contains a y = true /\ id <= y)).
Proof.
  intros H. destruct (finished_indexed options faults h now w H) as (r & blocks & HR & Hs & HI & HV).
  exists r, blocks. split; [exact HR|]. split; [exact Hs|]. intros allow deny. cbv zeta. split; [apply iterator_sorted|].
  split; [intros i; apply iterator_range; exact HI|]. pose proof (index_length r blocks HI) as HL.
  assert (Hent : forall i b, nth_error blocks i = Some b -> exists e, nth_error (r_index r) i = Some e /\ true_entry b e).
  { pose proof (v_index _ _ HI) as Hx. clear - Hx. induction Hx as [|e b l1 l2 Ht _ IH]; intros [|i] b' Hb; cbn in *; try discriminate.
    - injection Hb as <-. eauto.
    - apply IH. exact Hb. }
  assert (Hcomb : forall i e, nth_error (r_index r) i = Some e -> In (Z.of_nat i, e) (combine (zseq (zlen (r_index r))) (r_index r))).
  { intros i e He. assert (i < length (r_index r))%nat by (apply nth_error_Some; congruence).
    apply nth_error_In with (n := i). assert (G : forall (l1 : list Z) (l2 : list footerEntry) i a b, nth_error l1 i = Some a -> nth_error l2 i = Some b -> nth_error (combine l1 l2) i = Some (a, b)).
    { clear. induction l1 as [|x l1 IH]; intros [|y l2] [|i] a b H1 H2; cbn in *; try discriminate; [congruence|auto]. }
    apply G; [|exact He]. apply nth_error_zseq. unfold zlen. lia. }
  split.
  - intros i b id Hb Hid Hp. destruct (Hent i b Hb) as (e & He & Ht). destruct allow as [a|]; cbn [matchingBlocks].
    + apply in_map_iff. exists (Z.of_nat i, e). split; [reflexivity|]. apply filter_In. split; [apply Hcomb; exact He|].
      destruct Ht as ((T1 & T2) & (T3 & T4) & _). unfold passes in Hp. apply andb_true_iff in Hp. destruct Hp as [Hp _].
      assert (is_u64 id).
      { pose proof (v_good _ _ HI) as G. rewrite Forall_forall in G. specialize (G b (nth_error_In _ _ Hb)). destruct G as (G & _).
        rewrite Forall_forall in G. apply G. exact Hid. }
      pose proof (law_min a id H0 Hp). pose proof (law_max a id H0 Hp). specialize (T2 id Hid). specialize (T4 id Hid).
      apply negb_true_iff, orb_false_iff. split; [apply Z.ltb_ge; lia|]. rewrite Z.gtb_ltb. apply Z.ltb_ge. lia.
    + rewrite (v_count _ _ HI). apply in_zseq. assert (i < length blocks)%nat by (apply nth_error_Some; congruence). unfold zlen. lia.
  - intros a -> Hne i Hi. cbn [matchingBlocks] in Hi. apply in_map_iff in Hi. destruct Hi as ([j e] & <- & Hi). cbn [fst].
    apply filter_In in Hi. destruct Hi as [Hi Hp]. apply negb_true_iff, orb_false_iff in Hp. destruct Hp as [P1 P2].
    rewrite Z.gtb_ltb in P2. apply Z.ltb_ge in P1, P2.
    assert (Hj : 0 <= j < zlen blocks) by (apply in_combine_l, in_zseq in Hi; lia).
    destruct (nth_error blocks (Z.to_nat j)) as [b|] eqn:Hb; [|apply nth_error_None in Hb; unfold zlen in *; lia].
    destruct (Hent _ _ Hb) as (e' & He' & Ht).
    assert (e' = e) as ->.
    { apply In_nth_error in Hi. destruct Hi as [m Hm].
      assert (G : forall (l1 : list Z) (l2 : list footerEntry) i a b, nth_error (combine l1 l2) i = Some (a, b) -> nth_error l1 i = Some a /\ nth_error l2 i = Some b).
      { clear. induction l1 as [|x l1 IH]; intros [|y l2] [|i] a b H; cbn in *; try discriminate; [|auto]. injection H as -> ->. auto. }
      apply G in Hm. destruct Hm as [M1 M2]. assert (m < length (r_index r))%nat by (apply nth_error_Some; congruence).
      rewrite nth_error_zseq in M1 by (unfold zlen; lia). injection M1 as <-. rewrite Nat2Z.id in He'. congruence. }
    exists b. split; [reflexivity|]. destruct Ht as ((T1 & T2) & (T3 & T4) & _).
    destruct (law_min_in a Hne) as [L1 L2]. destruct (law_max_in a Hne) as [L3 L4]. split.
    + exists (e_maxID e), (bm_min a). auto.
    + exists (e_minID e), (bm_max a). auto.
Qed.

(** C23 *)
Definition agg_split (vs v1 v2 : list Z) : Prop :=
  zlen vs = zlen v1 + zlen v2 /\ zsum vs = zsum v1 + zsum v2
  /\ lmin vs = Z.min (lmin v1) (lmin v2) /\ lmax vs = Z.max (lmax v1) (lmax v2).
Lemma filter_split (f f1 f2 : Z * Z -> bool) l :
  (forall p, In p l -> f p = f1 p || f2 p) -> (forall p, In p l -> f1 p && f2 p = false) ->
  agg_split (map snd (filter f l)) (map snd (filter f1 l)) (map snd (filter f2 l)).
Proof.
  intros H1 H2. induction l as [|p l IH]; [repeat split|].
  destruct IH as (I1 & I2 & I3 & I4); [intros q Hq; apply H1; right; exact Hq|intros q Hq; apply H2; right; exact Hq|].
  specialize (H1 p (or_introl eq_refl)). specialize (H2 p (or_introl eq_refl)). cbn [filter]. rewrite H1. clear H1.
  unfold agg_split, lmin, lmax, zsum in *.
  destruct (f1 p), (f2 p); cbn [andb orb] in *; try discriminate; cbn [map fold_right]; rewrite ?zlen_cons, ?I1, ?I2, ?I3, ?I4;
    repeat split; lia.
Qed.
Lemma all_pairs_ids blocks p : Forall good_block blocks -> In p (all_pairs blocks) -> is_u64 (fst p).
Proof.
  intros HG Hp. unfold all_pairs in Hp. apply in_flat_map in Hp. destruct Hp as (b & Hb & Hp). rewrite Forall_forall in HG.
  destruct (HG b Hb) as (G & _). rewrite Forall_forall in G. apply G. destruct p as [i v]. cbn. eapply in_combine_l. exact Hp.
Qed.

Lemma filtered_answer r blocks skip a deny res : view r blocks -> aggregateSequential r (mkOpts skip (Some a) deny 0) = Ok res ->
  aggregate_of (chosen (Some a) deny blocks) res /\ res = answer r (mkOpts skip (Some a) deny 0) blocks.
Proof.
  intros V E. rewrite (sequential_answer r blocks) in E; [|exact V|unfold uses_footer; cbn; rewrite andb_false_r; discriminate].
  injection E as <-. split; [|reflexivity]. exact (answer_aggregate r blocks (mkOpts skip (Some a) deny 0) (v_indexed _ _ V)).
Qed.
Lemma aggregate_lmin vs res : Forall is_i64 vs -> aggregate_of vs res -> 0 < a_count res -> a_min res = lmin vs /\ a_max res = lmax vs.
Proof.
  intros Hi (A1 & _ & A3 & _) Hc. assert (vs <> []) as Hn by (intros ->; change (zlen (@nil Z)) with 0 in A1; lia).
  destruct (A3 Hn) as [B1 B2]. split.
  - eapply is_minimum_unique; [exact B1|]. apply lmin_spec; assumption.
  - eapply is_maximum_unique; [exact B2|]. apply lmax_spec; assumption.
Qed.

Lemma nonempty_dec a : bm_nonempty a \/ ~ bm_nonempty a.
Proof.
  destruct (bm_contains a (bm_min a)) eqn:E.
  - destruct (Z_le_dec 0 (bm_min a)) as [L|L], (Z_lt_dec (bm_min a) two64) as [M|M];
      [left; exists (bm_min a); split; [split; assumption|exact E]|..];
      right; intros N; destruct (law_min_in a N) as [[A B] _]; lia.
  - right. intros N. destruct (law_min_in a N) as [_ B]. congruence.
Qed.
Lemma answer_ext r blocks skip a a' d d' : Forall good_block blocks ->
  matchingBlocks r a d = matchingBlocks r a' d' ->
  has_filter (mkOpts skip a d 0) = has_filter (mkOpts skip a' d' 0) ->
  (forall y, is_u64 y -> passes a d y = passes a' d' y) ->
  answer r (mkOpts skip a d 0) blocks = answer r (mkOpts skip a' d' 0) blocks.
Proof.
  intros HG H1 H2 H3. unfold answer. rewrite H2. cbn [o_filter o_deny]. rewrite H1. replace (chosen a d blocks) with (chosen a' d' blocks); [reflexivity|].
  unfold chosen. f_equal. apply filter_ext_in. intros p Hp. symmetry. apply H3. eapply all_pairs_ids; eassumption.
Qed.

Theorem filter_algebra options faults h now w :
  finished_run options faults h now w -> faithful (encoding_of options) ->
  exists r, NewReader (bytes_of w) = Ok r
    /\ (forall skip deny a1 a2 a res1 res2 res,
          (forall y, is_u64 y -> bm_contains a y = bm_contains a1 y || bm_contains a2 y) ->
          (forall y, is_u64 y -> bm_contains a1 y && bm_contains a2 y = false) ->
          aggregateSequential r (mkOpts skip (Some a1) deny 0) = Ok res1 ->
          aggregateSequential r (mkOpts skip (Some a2) deny 0) = Ok res2 ->
          aggregateSequential r (mkOpts skip (Some a) deny 0) = Ok res ->
          a_count res = a_count res1 + a_count res2
          /\ a_sum res = i64 (a_sum res1 + a_sum res2)
          /\ (0 < a_count res1 -> 0 < a_count res2 ->
              a_min res = Z.min (a_min res1) (a_min res2) /\ a_max res = Z.max (a_max res1) (a_max res2))
          /\ (0 < a_count res1 -> a_count res2 = 0 -> a_min res = a_min res1 /\ a_max res = a_max res1)
          /\ (a_count res1 = 0 -> 0 < a_count res2 -> a_min res = a_min res2 /\ a_max res = a_max res2))
    /\ (forall skip deny a1 a2 res1 res2,
          (forall y, is_u64 y -> bm_contains a1 y = true -> bm_contains a2 y = true) ->
          aggregateSequential r (mkOpts skip (Some a1) deny 0) = Ok res1 ->
          aggregateSequential r (mkOpts skip (Some a2) deny 0) = Ok res2 ->
          a_count res1 <= a_count res2)
    /\ (forall skip a a' d d', bm_equiv a a' -> bm_equiv d d' ->
          aggregateSequential r (mkOpts skip (Some a) None 0) = aggregateSequential r (mkOpts skip (Some a') None 0)
          /\ aggregateSequential r (mkOpts skip None (Some d) 0) = aggregateSequential r (mkOpts skip None (Some d') 0)
          /\ aggregateSequential r (mkOpts skip (Some a) (Some d) 0) = aggregateSequential r (mkOpts skip (Some a') (Some d') 0)).
Proof.
  intros H He. destruct (finished_indexed options faults h now w H) as (r & blocks & HR & Hs & HI & HV).
  destruct (HV He) as [V C]. exists r. split; [exact HR|]. pose proof (v_good _ _ HI) as HG. split; [|split].
  - intros skip deny a1 a2 a res1 res2 res HU HD E1 E2 E.
    destruct (filtered_answer r blocks skip a1 deny res1 V E1) as [G1 _].
    destruct (filtered_answer r blocks skip a2 deny res2 V E2) as [G2 _].
    destruct (filtered_answer r blocks skip a deny res V E) as [G _].
    assert (HS : agg_split (chosen (Some a) deny blocks) (chosen (Some a1) deny blocks) (chosen (Some a2) deny blocks)).
    { unfold chosen. apply filter_split; intros p Hp; pose proof (all_pairs_ids blocks p HG Hp) as Hu; unfold passes.
      - rewrite (HU _ Hu), <- andb_orb_distrib_l. reflexivity.
      - specialize (HD _ Hu). destruct (bm_contains a1 (fst p)), (bm_contains a2 (fst p)); cbn in *; try discriminate; rewrite ?andb_false_r; reflexivity. }
    destruct HS as (S1 & S2 & S3 & S4).
    assert (Hp1 : 0 <= a_count res1) by (destruct G1 as (-> & _); apply zlen_nonneg).
    assert (Hp2 : 0 <= a_count res2) by (destruct G2 as (-> & _); apply zlen_nonneg).
    assert (HC : a_count res = a_count res1 + a_count res2).
    { destruct G as (-> & _), G1 as (-> & _), G2 as (-> & _). exact S1. }
    split; [exact HC|]. split.
    { destruct G as (_ & -> & _), G1 as (_ & -> & _), G2 as (_ & -> & _). rewrite S2, i64_add_l, i64_add_r. reflexivity. }
    pose proof (aggregate_lmin _ _ (chosen_i64 _ _ _ HG) G) as M. pose proof (aggregate_lmin _ _ (chosen_i64 _ _ _ HG) G1) as M1.
    pose proof (aggregate_lmin _ _ (chosen_i64 _ _ _ HG) G2) as M2.
    assert (HZ : forall x res, aggregate_of x res -> a_count res = 0 -> x = []).
    { intros x rs (Hx & _) Hz. destruct x as [|y x]; [reflexivity|]. rewrite zlen_cons in Hx. pose proof (zlen_nonneg x). lia. }
    split; [|split].
    + intros P1 P2. destruct M as [-> ->]; [lia|]. destruct (M1 P1) as [-> ->], (M2 P2) as [-> ->]. auto.
    + intros P1 P2. destruct M as [-> ->]; [lia|]. destruct (M1 P1) as [-> ->]. rewrite S3, S4, (HZ _ _ G2 P2).
      pose proof (lmin_le (chosen (Some a1) deny blocks)). pose proof (lmax_ge (chosen (Some a1) deny blocks)).
      unfold lmin at 2, lmax at 2. cbn [fold_right]. split; lia.
    + intros P1 P2. destruct M as [-> ->]; [lia|]. destruct (M2 P2) as [-> ->]. rewrite S3, S4, (HZ _ _ G1 P1).
      pose proof (lmin_le (chosen (Some a2) deny blocks)). pose proof (lmax_ge (chosen (Some a2) deny blocks)).
      unfold lmin at 1, lmax at 1. cbn [fold_right]. split; lia.
  - intros skip deny a1 a2 res1 res2 HU E1 E2.
    destruct (filtered_answer r blocks skip a1 deny res1 V E1) as [(-> & _) _].
    destruct (filtered_answer r blocks skip a2 deny res2 V E2) as [(-> & _) _].
    unfold chosen. rewrite !zlen_map. assert (G : forall l, (forall p, In p l -> is_u64 (fst p)) ->
       zlen (filter (fun p : Z * Z => passes (Some a1) deny (fst p)) l) <= zlen (filter (fun p => passes (Some a2) deny (fst p)) l)).
    { induction l as [|p l IH]; intros Hu; [cbn; lia|]. cbn [filter]. specialize (IH (fun q Hq => Hu q (or_intror Hq))).
      specialize (HU (fst p) (Hu p (or_introl eq_refl))). 
      destruct (passes (Some a1) deny (fst p)) eqn:P1.
      - assert (passes (Some a2) deny (fst p) = true) as ->.
        { unfold passes in *. apply andb_true_iff in P1. destruct P1 as [P1 ->]. rewrite HU by exact P1. reflexivity. }
        rewrite !zlen_cons. lia.
      - destruct (passes (Some a2) deny (fst p)); rewrite ?zlen_cons; lia. }
    apply G. intros p Hp. eapply all_pairs_ids; eassumption.
  - intros skip a a' d d' Ha Hd.
    assert (Hmm : bm_min a = bm_min a' /\ bm_max a = bm_max a').
    { destruct (nonempty_dec a) as [Hn|Hn].
      - assert (Hn' : bm_nonempty a') by (destruct Hn as (y & Hy & Hc); exists y; split; [exact Hy|rewrite <- Ha by exact Hy; exact Hc]).
        destruct (law_min_in a Hn) as [A1 A2], (law_max_in a Hn) as [A3 A4], (law_min_in a' Hn') as [B1 B2], (law_max_in a' Hn') as [B3 B4].
        rewrite Ha in A2, A4 by assumption. rewrite <- Ha in B2, B4 by assumption.
        pose proof (law_min a _ B1 B2). pose proof (law_max a _ B3 B4). pose proof (law_min a' _ A1 A2). pose proof (law_max a' _ A3 A4).
        split; lia.
      - assert (Hn' : ~ bm_nonempty a') by (intros (y & Hy & Hc); apply Hn; exists y; split; [exact Hy|rewrite Ha by exact Hy; exact Hc]).
        destruct (law_empty a Hn) as [-> ->], (law_empty a' Hn') as [-> ->]. auto. }
    assert (HF : forall d1 d2, matchingBlocks r (Some a) d1 = matchingBlocks r (Some a') d2).
    { intros d1 d2. cbn [matchingBlocks]. destruct Hmm as [-> ->]. reflexivity. }
    assert (NF : forall sk x y, x <> None \/ y <> None -> uses_footer r (mkOpts sk x y 0) = true -> Forall no_min_stat blocks).
    { intros sk x y Hxy. unfold uses_footer, has_filter. cbn. destruct x, y; try (rewrite andb_false_r; discriminate). destruct Hxy; congruence. }
    assert (SA : forall x y, x <> None \/ y <> None -> aggregateSequential r (mkOpts skip x y 0) = Ok (answer r (mkOpts skip x y 0) blocks)).
    { intros x y Hxy. apply sequential_answer; [exact V|apply NF; exact Hxy]. }
    rewrite !SA by (first [left; discriminate|right; discriminate]).
    split; [|split]; f_equal; apply answer_ext; try exact HG; try apply HF; try reflexivity;
      intros y Hy; unfold passes; rewrite ?(Ha y Hy), ?(Hd y Hy); reflexivity.
Qed.

(** C24 *)
Theorem parallel_same options faults h now w :
  finished_run options faults h now w ->
  exists r, NewReader (bytes_of w) = Ok r
    /\ forall gomaxprocs sched opts x, AggregateWithOptions gomaxprocs sched r opts = Some x ->
         AggregateWithOptions gomaxprocs [] r (sequential opts) = Some x /\ x <> Panic.
Proof.
  intros H. destruct (finished_indexed options faults h now w H) as (r & blocks & HR & Hs & HI & HV).
  exists r. split; [exact HR|]. intros g sched opts x Hx. pose proof (indexed_sane r blocks opts HI) as S.
  apply (parallel_sequential _ _ _ _ _ S) in Hx. subst x. split; [reflexivity|].
  apply aggregate_no_panic; [eapply indexed_counts; exact HI|apply HI|].
  intros _ _. pose proof (v_count _ _ HI) as Hc. pose proof (v_small _ _ HI). rewrite Hc. pose proof (zlen_nonneg blocks). unfold two32 in *. lia.
Qed.

(** C25 *)
Theorem parallel_terminates options faults h now w :
  finished_run options faults h now w ->
  exists r, NewReader (bytes_of w) = Ok r
    /\ forall gomaxprocs opts,
      (exists x, forall sched, AggregateWithOptions gomaxprocs sched r opts = Some x)
      \/ exists blk n, let idx := blocks_needed r opts in
           (forall sched, AggregateWithOptions gomaxprocs sched r opts = outcome (run blk idx n sched (pinit n)))
           /\ (forall ts s, execution blk idx n (pinit n) ts s ->
                 p_crashed s = false
                 /\ (outcome s = None -> exists t s', step blk idx n s t = Some s')
                 /\ (forall w a, nth_error (p_workers s) w = Some (WSend a) -> exists s', step blk idx n s (S w) = Some s'))
           /\ (exists bound, forall ts s, execution blk idx n (pinit n) ts s -> (length ts <= bound)%nat)
           /\ concat (map (workerBlocks idx n) (seq 0 n)) = idx /\ NoDup idx.
Proof.
  intros H. destruct (finished_indexed options faults h now w H) as (r & blocks & HR & Hs & HI & HV).
  exists r. split; [exact HR|]. intros g opts. pose proof (indexed_sane r blocks opts HI) as S.
  destruct (machine g r opts) as [[[blk idx] n]|] eqn:EM.
  - right. exists blk, n. cbv zeta. assert (Ei : idx = blocks_needed r opts).
    { unfold machine in EM. destruct (o_parallel opts =? 0); [discriminate|]. rewrite (plan_sane g r opts S) in EM. cbv zeta in EM.
      destruct (_ || _) in EM; [discriminate|].
      destruct (zlen _ =? 0) in EM; [discriminate|]. destruct (uses_footer r opts) in EM; injection EM as _ <- _;
        unfold blocks_needed, blocks_to_read, has_filter; destruct (o_filter opts), (o_deny opts); reflexivity. }
    destruct (machine_facts g r opts blk idx n S EM) as (M1 & M2 & M3 & M4 & M5 & M6).
    pose proof (with_machine g r opts blk idx n EM) as W. rewrite <- Ei. split; [exact W|]. split; [|split; [|split]].
    + intros ts s E. destruct (execution_inv blk idx n (contribution r opts) M1 M3 M4 M5 _ _ _ (pinit_inv idx n (contribution r opts) M1) E) as [I _].
      split; [apply I|]. split.
      * apply (progress blk idx n (contribution r opts) M1 M3 M4 M5 s I).
      * intros k a. apply (send_enabled blk idx n (contribution r opts) M1 M3 M4 M5 s k a I).
    + exists (measure idx n (pinit n)). intros ts s E.
      destruct (execution_inv blk idx n (contribution r opts) M1 M3 M4 M5 _ _ _ (pinit_inv idx n (contribution r opts) M1) E) as [_ L]. lia.
    + apply workerBlocks_all. exact M1.
    + rewrite Ei. replace (blocks_needed r opts) with (blocks_to_read r opts); [apply blocks_to_read_NoDup|].
      unfold blocks_needed, blocks_to_read, has_filter. destruct (o_filter opts), (o_deny opts); reflexivity.
  - left. exists (aggregateSequential r opts). apply no_machine; assumption.
Qed.

(** C26 *)
Theorem empty_results options faults h now w :
  finished_run options faults h now w -> faithful (encoding_of options) ->
  exists r blocks, NewReader (bytes_of w) = Ok r /\ contents h r blocks
    /\ forall gomaxprocs sched opts x, chosen (o_filter opts) (o_deny opts) blocks = [] ->
         AggregateWithOptions gomaxprocs sched r opts = Some x ->
         exists res, x = Ok res /\ a_count res = 0 /\ a_sum res = 0 /\ a_avg res = S754_zero false
           /\ ((a_min res = 0 /\ a_max res = 0) \/ (a_min res = max_int64 /\ a_max res = min_int64)).
Proof.
  intros H He. destruct (finished_indexed options faults h now w H) as (r & blocks & HR & Hs & HI & HV).
  destruct (HV He) as [V C]. exists r, blocks. split; [exact HR|]. split; [exact C|]. intros g sched opts x Hc Hx.
  apply (parallel_sequential _ _ _ _ _ (indexed_sane r blocks opts HI)) in Hx. subst x.
  rewrite (sequential_answer r blocks).
  - eexists. split; [reflexivity|]. unfold answer. rewrite Hc. destruct (_ && _); cbn; tauto.
  - exact V.
  - intros U. unfold uses_footer in U. destruct (has_filter opts) eqn:F; [rewrite andb_false_r in U; discriminate|].
    unfold has_filter in F. destruct (o_filter opts), (o_deny opts); try discriminate.
    rewrite chosen_none in Hc by apply HI. destruct blocks as [|b blocks]; [constructor|].
    pose proof (v_good _ _ HI) as G. inversion G as [|b' l' Gb _]; subst. destruct Gb as (_ & _ & G3 & G4). cbn in Hc.
    apply app_eq_nil in Hc. destruct Hc as [Hc _]. rewrite Hc in G3. change (zlen (@nil Z)) with 0 in G3. lia.
Qed.
End Finished.
