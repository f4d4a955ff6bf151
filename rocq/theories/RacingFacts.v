(** Aggregations during which reads stop working: every block is read once, so the flags
    of the reads are a function of the block, and the run is one of Parallel.v. *)
From Coq Require Import Permutation.
From Verif Require Import Machine MachineFacts Encoding EncodingFacts FileIO Sroar Writer Reader Aggregate Parallel Shared Spec MultiSpec AnySpec Racing RacingSpec
  ArbFacts WriterFacts FinalFacts ReaderFacts WriterProps AggFacts ParallelFacts AggProps CloseFacts PowerFacts AnyFacts.
From Coq Require Import Lia ZifyBool.
Local Open Scope Z_scope.

Section Machine.
Variable blk : bool -> Z -> acc -> res acc.
Variable idx : list Z.
Variable n : nat.
Hypothesis Hn : (0 < n)%nat.
Hypothesis fine : forall ok i a, In i idx -> exists a', blk ok i a = Ok a'.
Notation wb := (workerBlocks idx n).

(** ** The blocks that are left to be read *)
Definition left_of (w : nat) (x : worker) : list Z :=
  match x with WIdle | WStart => wb w | WLoop todo _ => todo | _ => [] end.
Fixpoint left_list (w : nat) (ws : list worker) : list Z :=
  match ws with [] => [] | x :: ws' => left_of w x ++ left_list (S w) ws' end.
Definition left_in (s : pstate) : list Z := left_list 0 (p_workers s).
Lemma left_set ws : forall w i x y pre, nth_error ws i = Some y -> left_of (w + i) y = pre ++ left_of (w + i) x ->
  Permutation (left_list w ws) (pre ++ left_list w (set_nth i x ws)).
Proof using.
  induction ws as [|z ws IH]; intros w [|i] x y pre H E; cbn [nth_error] in H; try discriminate; cbn [left_list set_nth].
  - injection H as ->. rewrite Nat.add_0_r in E. rewrite E, app_assoc. reflexivity.
  - replace (w + S i)%nat with (S w + i)%nat in E by (clear; lia). rewrite (IH (S w) i x y pre H E). apply Permutation_app_swap_app.
Qed.
Lemma left_init : left_list 0 (repeat WIdle n) = idx.
Proof using Hn.
  transitivity (concat (map wb (seq 0 n))); [|apply (workerBlocks_all idx n Hn)].
  assert (X : forall m w, left_list w (repeat WIdle m) = concat (map wb (seq w m))); [|apply X].
  induction m as [|m IH]; intros w; [reflexivity|]. cbn [repeat left_list seq map concat left_of]. rewrite IH. reflexivity.
Qed.

(** Workers that were not started yet are idle. *)
Definition idle_from (s : pstate) : Prop :=
  match p_main s with
  | MAdd k | MGo k => forall w x, (k <= w)%nat -> nth_error (p_workers s) w = Some x -> x = WIdle
  | _ => True
  end.
Lemma step_left s t ok s' : idle_from s -> (forall i, In i (left_in s) -> In i idx) -> step (blk ok) idx n s t = Some s' -> p_crashed s = false ->
  idle_from s' /\ Permutation (left_in s) (match reads_next s t with Some i => [i] | None => [] end ++ left_in s')
  /\ (p_crashed s' = true -> reads_next s t = None).
Proof using fine Hn.
  intros J HI H Hc. unfold step in H. rewrite Hc in H. unfold reads_next. rewrite Hc. destruct t as [|w].
  - unfold step_main in H. unfold idle_from in *. destruct (p_main s) as [k|k| | |fin tc ts|r] eqn:Em.
    + destruct (Nat.ltb k n); injection H as <-; (split; [cbn; auto|]); (split; [reflexivity|reflexivity]).
    + injection H as <-. split.
      * cbn [set_main set_worker p_main p_workers]. intros w x Hw Hx. destruct (Nat.eq_dec w k) as [->|Hne]; [lia|].
        rewrite nth_set_nth_neq in Hx by lia. eapply J; [|exact Hx]. lia.
      * split; [|reflexivity]. unfold left_in. cbn [set_main set_worker p_workers app]. destruct (nth_error (p_workers s) k) as [y|] eqn:Ey.
        -- apply (left_set _ 0 k WStart y []); [exact Ey|]. rewrite (J k y (le_n k) Ey). reflexivity.
        -- assert (X : set_nth k WStart (p_workers s) = p_workers s); [|rewrite X; reflexivity].
           clear - Ey. revert k Ey. induction (p_workers s) as [|z ws IH]; intros [|k] E; cbn in *; try discriminate; auto. rewrite IH; auto.
    + destruct (p_wg s =? 0); [|discriminate]. injection H as <-. cbn. auto.
    + injection H as <-. cbn. auto.
    + destruct (p_chan s) as [|r c].
      * destruct (p_closed s); [|discriminate]. injection H as <-. cbn. auto.
      * destruct (merge_result fin r tc ts) as [[fin' tc'] ts']. injection H as <-. cbn. auto.
    + discriminate.
  - unfold step_worker in H. destruct (nth_error (p_workers s) w) as [x|] eqn:Ex; [|discriminate].
    assert (JW : forall y s1, x <> WIdle -> p_main s1 = p_main s -> p_workers s1 = set_nth w y (p_workers s) -> idle_from s1).
    { intros y s1 Hx Hm Hs. unfold idle_from in *. rewrite Hm, Hs. destruct (p_main s) as [k|k| | | |]; auto.
      - intros v z Hv Hz. destruct (Nat.eq_dec v w) as [->|Hne]; [destruct (Hx (J w x Hv Ex))|]. rewrite nth_set_nth_neq in Hz by lia. eapply J; eassumption.
      - intros v z Hv Hz. destruct (Nat.eq_dec v w) as [->|Hne]; [destruct (Hx (J w x Hv Ex))|]. rewrite nth_set_nth_neq in Hz by lia. eapply J; eassumption. }
    assert (LP : forall y s1 pre, p_workers s1 = set_nth w y (p_workers s) -> left_of w x = pre ++ left_of w y -> Permutation (left_in s) (pre ++ left_in s1)).
    { intros y s1 pre Hs E. unfold left_in. rewrite Hs. apply (left_set _ 0 w y x pre Ex). exact E. }
    destruct x as [| |[|i todo] a|r| |]; try discriminate.
    + destruct (wb w) as [|b l] eqn:Ew; injection H as <-; (split; [eapply JW; [discriminate|reflexivity|reflexivity]|]);
        (split; [|reflexivity]); (apply (LP WDefer (set_worker s w WDefer) [] eq_refl) || apply (LP (WLoop (b :: l) acc0) (set_worker s w (WLoop (b :: l) acc0)) [] eq_refl));
        cbn [left_of]; rewrite Ew; reflexivity.
    + injection H as <-. split; [eapply JW; [discriminate|reflexivity|reflexivity]|]. split; [|reflexivity]. apply (LP (WSend (result_of a)) (set_worker s w (WSend (result_of a))) [] eq_refl). reflexivity.
    + assert (Hi : In i idx).
      { apply HI. unfold left_in. assert (X : forall ws v k, nth_error ws k = Some (WLoop (i :: todo) a) -> In i (left_list v ws)).
        { induction ws as [|z ws IH]; intros v [|k] E; cbn [nth_error] in E; try discriminate; cbn [left_list]; apply in_or_app.
          - injection E as ->. left. left. reflexivity.
          - right. eapply IH. exact E. }
        eapply X. exact Ex. }
      destruct (fine ok i a Hi) as [a' Ea]. rewrite Ea in H. injection H as <-.
      split; [eapply JW; [discriminate|reflexivity|reflexivity]|]. split; [apply (LP (WLoop todo a') (set_worker s w (WLoop todo a')) [i] eq_refl); reflexivity|].
      cbn [set_worker p_crashed]. congruence.
    + destruct (p_closed s).
      { injection H as <-. split; [exact J|]. split; [reflexivity|reflexivity]. }
      destruct (Nat.ltb _ n); [|discriminate]. injection H as <-. split; [eapply JW; [discriminate|reflexivity|reflexivity]|]. split; [|reflexivity].
      eapply (LP WDefer _ []); reflexivity.
    + destruct (p_wg s <=? 0); injection H as <-.
      * split; [exact J|]. split; reflexivity.
      * split; [eapply JW; [discriminate|reflexivity|reflexivity]|]. split; [|reflexivity]. eapply (LP WExit _ []); reflexivity.
Qed.
Lemma blocked_reads s t ok : step (blk ok) idx n s t = None -> reads_next s t = None.
Proof using.
  unfold step, reads_next. destruct (p_crashed s); [reflexivity|]. destruct t as [|w]; [reflexivity|]. unfold step_worker.
  destruct (nth_error (p_workers s) w) as [[| |[|i todo] a|r| |]|]; try reflexivity. destruct (blk ok i a); discriminate.
Qed.
Lemma reads_left sched : forall s, idle_from s -> (forall i, In i (left_in s) -> In i idx) ->
  Permutation (left_in s) (map fst (reads_at blk idx n sched s) ++ left_in (run_at blk idx n sched s)).
Proof using fine Hn.
  induction sched as [|[t ok] sched IH]; intros s J HI; cbn [reads_at run_at]; [reflexivity|]. unfold step_at. cbn [fst snd].
  destruct (p_crashed s) eqn:Hc.
  { unfold step, reads_next. rewrite Hc. cbn [app]. apply IH; assumption. }
  destruct (step (blk ok) idx n s t) as [s'|] eqn:E; [|rewrite (blocked_reads s t ok E); cbn [app]; apply IH; assumption].
  destruct (step_left s t ok s' J HI E Hc) as (J' & P & _).
  assert (HI' : forall i, In i (left_in s') -> In i idx).
  { intros i Hi. apply HI. eapply Permutation_in; [symmetry; exact P|]. apply in_or_app. right. exact Hi. }
  rewrite P. rewrite map_app. destruct (reads_next s t); cbn [map fst app]; rewrite (IH s' J' HI') at 1; reflexivity.
Qed.

(** ** The same run with flags chosen by block *)
Definition by_block (f : Z -> bool) (i : Z) (a : acc) : res acc := blk (f i) i a.
Lemma step_by_block f s t ok : (forall i, reads_next s t = Some i -> f i = ok) -> step (blk ok) idx n s t = step (by_block f) idx n s t.
Proof using.
  intros H. unfold step, reads_next in *. destruct (p_crashed s); [reflexivity|]. destruct t as [|w]; [reflexivity|]. unfold step_worker, by_block.
  destruct (nth_error (p_workers s) w) as [[| |[|i todo] a|r| |]|]; try reflexivity. rewrite (H i eq_refl). reflexivity.
Qed.
Lemma run_by_block f sched : forall s, (forall i ok, In (i, ok) (reads_at blk idx n sched s) -> f i = ok) ->
  run_at blk idx n sched s = run (by_block f) idx n (map fst sched) s.
Proof using.
  induction sched as [|[t ok] sched IH]; intros s H; cbn [reads_at run_at map run fst]; [reflexivity|]. unfold step_at in *. cbn [fst snd reads_at] in *.
  rewrite <- (step_by_block f s t ok).
  - apply IH. intros i b Hi. apply H. apply in_or_app. right. exact Hi.
  - intros i Hi. apply H. apply in_or_app. left. rewrite Hi. left. reflexivity.
Qed.
Lemma exec_by_block f s es s' : execution_at blk idx n s es s' -> (forall i ok, In (i, ok) (reads_at blk idx n es s) -> f i = ok) ->
  execution (by_block f) idx n s (map fst es) s'.
Proof using.
  intros E. induction E as [s|s [t ok] es s1 s2 Hs _ IH]; intros H; cbn [map fst]; [constructor|].
  cbn [reads_at] in H. unfold step_at in *. cbn [fst snd] in *. rewrite Hs in H. econstructor.
  - rewrite <- (step_by_block f s t ok); [exact Hs|]. intros i Hi. apply H. apply in_or_app. left. rewrite Hi. left. reflexivity.
  - apply IH. intros i b Hi. apply H. apply in_or_app. right. exact Hi.
Qed.
End Machine.

Lemma NoDup_front {A} (l1 l2 : list A) : NoDup (l1 ++ l2) -> NoDup l1.
Proof.
  induction l1 as [|x l1 IH]; intros H; [constructor|]. cbn [app] in H. inversion H as [|? ? H1 H2]; subst. constructor; [|apply IH; exact H2].
  intros X. apply H1. apply in_or_app. left. exact X.
Qed.
Lemma worked_in reads i ok : NoDup (map fst reads) -> In (i, ok) reads -> worked reads i = ok.
Proof.
  induction reads as [|[j b] reads IH]; intros N H; [destruct H|]. cbn [map fst] in N. inversion N as [|? ? N1 N2]; subst.
  unfold worked. cbn [existsb fst snd]. fold (worked reads i). destruct H as [H|H].
  - injection H as -> ->. rewrite Z.eqb_refl. cbn [andb]. destruct ok; [reflexivity|]. cbn [orb].
    unfold worked. clear - N1. induction reads as [|[j c] reads IH]; [reflexivity|]. cbn [existsb fst snd map] in *.
    destruct (Z.eqb_spec j i) as [->|_]; [destruct N1; left; reflexivity|]. cbn. apply IH. intros X. apply N1. right. exact X.
  - destruct (Z.eqb_spec j i) as [->|_]; [destruct N1; apply in_map_iff; exists (i, ok); auto|]. cbn. apply IH; assumption.
Qed.

(** ** Readers *)
Section Readers.
Context {Srr : Sroar}.
Variable r : reader.
Variable opts : aggOptions.
Hypothesis Ho : r_open r = true.
Hypothesis HC : Forall (fun e => 0 <= e_count e) (r_index r).
Hypothesis HS : Forall (fun e => 80 <= e_size e) (r_index r).
Hypothesis HL : zlen (r_index r) <= BlockCount r.
Hypothesis HB : BlockCount r <= 2 ^ 42.
Hypothesis HU : reads_data r opts.
Notation tk := (taken r (o_filter opts) (o_deny opts)).
Hypothesis HT : zlen (all_taken r (o_filter opts) (o_deny opts)) < two63.
Notation idx := (blocks_to_read r opts).

Lemma open_same : at_open r true = r.
Proof using Ho. clear - Ho. destruct r. cbn in *. subst. reflexivity. Qed.
Lemma read_closed i : exists e, read_one (at_open r false) opts i = Err e.
Proof.
  unfold read_one, GetPairs, readBlockFiltered. destruct (closed_block (at_open r false) (i64 i) eq_refl HS) as [e E].
  destruct (has_filter opts); rewrite E; cbn [rbind]; eauto.
Qed.
Lemma got_at ok i : got (read_one (at_open r ok) opts i) = if ok then got (read_one r opts i) else [].
Proof. destruct ok; [rewrite open_same; reflexivity|]. destruct (read_closed i) as [e ->]. reflexivity. Qed.
Lemma no_panic_at ok i : read_one (at_open r ok) opts i <> Panic.
Proof.
  destruct ok; [rewrite open_same|destruct (read_closed i) as [e ->]; discriminate].
  unfold read_one. destruct (has_filter opts); [apply readFiltered_no_panic; assumption|apply readBlock_no_panic; assumption].
Qed.
Lemma to_read : exists c, idx = List.filter c (zseq (BlockCount r))
  /\ (forall i, In i (zseq (BlockCount r)) -> c i = false -> tk i = [])
  /\ (forall i, In i idx -> 0 <= i < BlockCount r /\ (o_filter opts = None \/ claimed_in_range r (o_filter opts) i = true)).
Proof.
  unfold blocks_to_read. pose proof (zlen_nonneg (r_index r)) as Hn.
  assert (ALL : forall l : list Z, l = List.filter (fun _ => true) l) by (induction l as [|x l IH]; cbn; congruence).
  destruct (has_filter opts) eqn:EF.
  - destruct (o_filter opts) as [f|] eqn:Ef.
    + rewrite matching_numbers. exists (claimed_in_range r (Some f)). split; [|split].
      * unfold zseq. replace (Z.to_nat (BlockCount r)) with (Z.to_nat (zlen (r_index r)) + Z.to_nat (BlockCount r - zlen (r_index r)))%nat by (clear - HL Hn; lia).
        rewrite seq_app, map_app, List.filter_app.
        replace (List.filter _ (map Z.of_nat (seq (0 + Z.to_nat (zlen (r_index r))) _))) with (@nil Z); [rewrite app_nil_r; reflexivity|].
        symmetry. apply filter_none. intros i Hi. apply in_map_iff in Hi. destruct Hi as (k & <- & Hk). apply in_seq in Hk.
        cbn [claimed_in_range]. rewrite Nat2Z.id. destruct (nth_error (r_index r) k) eqn:E; [|reflexivity].
        apply nth_error_Some' in E. unfold zlen in *. clear - E Hk. lia.
      * intros i _ Hi. unfold taken. destruct (GetPairs r i) as [[ids vals]| |]; try reflexivity. rewrite Hi. reflexivity.
      * intros i Hi. apply filter_In in Hi. destruct Hi as [Hi1 Hi2]. apply in_zseq in Hi1. clear - Hi1 Hi2 HL Hn. split; [lia|auto].
    + exists (fun _ => true). split; [apply ALL|]. split; [discriminate|]. intros i Hi. apply in_zseq in Hi. auto.
  - exists (fun _ => true). split; [apply ALL|]. split; [discriminate|]. intros i Hi. apply in_zseq in Hi. split; [exact Hi|].
    left. unfold has_filter in EF. destruct (o_filter opts); [discriminate|reflexivity].
Qed.
Lemma idx_nodup : NoDup idx.
Proof.
  destruct to_read as (c & -> & _). apply NoDup_filter. unfold zseq. apply FinFun.Injective_map_NoDup; [|apply seq_NoDup]. intros a b H. lia.
Qed.
Lemma got_taken_at f : flat_map (fun i => got (read_one (at_open r (f i)) opts i)) idx = flat_map tk (List.filter f (zseq (BlockCount r))).
Proof.
  transitivity (flat_map tk (List.filter f idx)).
  - destruct to_read as (c & _ & _ & H). assert (G : forall i, In i idx -> got (read_one r opts i) = tk i).
    { intros i Hi. destruct (H i Hi) as [H1 H2]. apply got_taken; [exact HC| |exact H2]. clear - H1 HB. unfold is_i64, two63. lia. }
    clear - G Ho HS. induction (blocks_to_read r opts) as [|i l IH]; [reflexivity|]. cbn [flat_map List.filter]. rewrite got_at.
    rewrite (IH (fun j Hj => G j (or_intror Hj))), (G i (or_introl eq_refl)). destruct (f i); reflexivity.
  - destruct to_read as (c & E & H & _). rewrite E. clear - H. induction (zseq (BlockCount r)) as [|i l IH]; [reflexivity|]. cbn [List.filter].
    specialize (IH (fun j Hj => H j (or_intror Hj))). destruct (c i) eqn:Ec; cbn [List.filter]; destruct (f i); cbn [flat_map]; rewrite IH; try reflexivity.
    rewrite (H i (or_introl eq_refl) Ec). reflexivity.
Qed.
Lemma part_small f : zlen (flat_map tk (List.filter f (zseq (BlockCount r)))) < two63.
Proof.
  eapply Z.le_lt_trans; [|exact HT]. unfold all_taken. clear. induction (zseq (BlockCount r)) as [|i l IH]; [reflexivity|]. cbn [List.filter flat_map].
  rewrite zlen_app. pose proof (zlen_nonneg (tk i)). destruct (f i); cbn [flat_map]; [rewrite zlen_app|]; lia.
Qed.
Lemma part_i64 f : Forall is_i64 (flat_map tk (List.filter f (zseq (BlockCount r)))).
Proof.
  apply Forall_forall. intros v Hv. apply in_flat_map in Hv. destruct Hv as (i & _ & Hv).
  pose proof (got_i64 r (i64 i) HC) as G. rewrite Forall_forall in G. apply G. unfold taken, GetPairs in Hv.
  destruct (readBlock r (i64 i)) as [[ids vals]| |]; [|destruct Hv|destruct Hv]. cbn [got].
  destruct (o_filter opts), (o_deny opts); try exact Hv.
  1-3: destruct (claimed_in_range _ _ _); [|destruct Hv]; apply in_map_iff in Hv; destruct Hv as ([pa pb] & <- & Hv);
    apply filter_In in Hv; destruct Hv as [Hv _]; apply in_combine_r in Hv; exact Hv.
Qed.
Lemma part_result f : aggregate_of (flat_map tk (List.filter f (zseq (BlockCount r)))) (result_of (acc_of (flat_map tk (List.filter f (zseq (BlockCount r)))))).
Proof. apply result_aggregate; [apply part_i64|apply part_small]. Qed.

Lemma blk_at_fine ok i a : exists a', blk_at r opts ok i a = Ok a'.
Proof.
  unfold blk_at, blk_read. pose proof (no_panic_at ok i) as N. unfold read_one in N. destruct (if has_filter opts then _ else _) as [[ids vs]|e|]; cbn [add_block]; eauto. congruence.
Qed.

(** What the machine needs, with the flags chosen by block. *)
Section Flags.
Variable f : Z -> bool.
Definition read_by (i : Z) : res (list Z * list Z) := read_one (at_open r (f i)) opts i.
Definition c_by (i : Z) : acc := block_acc (read_by i).
Lemma by_total : total read_by idx < two63.
Proof. rewrite total_got. unfold read_by. rewrite got_taken_at. apply part_small. Qed.
Lemma by_ok i : In i idx -> acc_ok (c_by i).
Proof. intros Hi. apply block_acc_ok. pose proof (total_in read_by _ i Hi). pose proof by_total. lia. Qed.
Lemma by_blk i a : In i idx -> acc_ok a -> by_block (blk_at r opts) f i a = Ok (acc_plus a (c_by i)).
Proof. intros Hi Ha. unfold by_block, blk_at, blk_read. apply add_block_plus; [exact Ha|apply no_panic_at]. Qed.
Lemma by_count : count_sum (map c_by idx) < two63.
Proof. unfold c_by. rewrite total_count; apply by_total. Qed.
Lemma by_sum : acc_sum (map c_by idx) = acc_of (flat_map tk (List.filter f (zseq (BlockCount r)))).
Proof.
  unfold c_by. rewrite acc_sum_got; [unfold read_by; rewrite got_taken_at; reflexivity|rewrite <- total_got; apply by_total|intros i _; apply no_panic_at].
Qed.
End Flags.

Lemma init_left n : (0 < n)%nat -> left_in idx n (pinit n) = idx.
Proof. intros Hn. apply left_init. exact Hn. Qed.
Lemma init_idle n : idle_from (pinit n).
Proof. unfold idle_from, pinit. cbn [p_main p_workers]. intros w x _ H. apply nth_error_In, repeat_spec in H. exact H. Qed.
Lemma machine_reads n sched : (0 < n)%nat ->
  Permutation idx (map fst (reads_at (blk_at r opts) idx n sched (pinit n)) ++ left_in idx n (run_at (blk_at r opts) idx n sched (pinit n))).
Proof.
  intros Hn. rewrite <- (init_left n Hn) at 1. apply reads_left; [exact Hn|intros; apply blk_at_fine|apply init_idle|].
  intros i. rewrite init_left by exact Hn. auto.
Qed.
Lemma machine_nodup n sched : (0 < n)%nat -> NoDup (map fst (reads_at (blk_at r opts) idx n sched (pinit n))).
Proof.
  intros Hn. pose proof (Permutation_NoDup (machine_reads n sched Hn) idx_nodup) as N. apply NoDup_front in N. exact N.
Qed.
Lemma machine_by n sched : (0 < n)%nat ->
  run_at (blk_at r opts) idx n sched (pinit n)
  = run (by_block (blk_at r opts) (worked (reads_at (blk_at r opts) idx n sched (pinit n)))) idx n (map fst sched) (pinit n).
Proof. intros Hn. apply run_by_block. intros i ok H. apply worked_in; [apply machine_nodup; exact Hn|exact H]. Qed.

Lemma machine_result n sched x : (0 < n)%nat -> idx <> [] ->
  outcome (run_at (blk_at r opts) idx n sched (pinit n)) = Some x ->
  let reads := reads_at (blk_at r opts) idx n sched (pinit n) in
  Permutation (map fst reads) idx
  /\ exists res, x = Ok res /\ aggregate_of (taken_when reads r (o_filter opts) (o_deny opts)) res.
Proof.
  intros Hn Hne HX reads. pose proof (machine_reads n sched Hn) as P. fold reads in P. rewrite (machine_by n sched Hn) in HX, P. fold reads in HX, P.
  set (f := worked reads) in *. split.
  - pose proof (run_inv (by_block (blk_at r opts) f) idx n (c_by f) Hn (by_ok f) (by_blk f) (by_count f) (map fst sched) _ (pinit_inv _ n _ Hn)) as (I1 & _ & _ & I4).
    unfold outcome in HX. rewrite I1 in HX. unfold main_ok in I4. destruct (p_main _); try discriminate. destruct I4 as (done & _ & _ & AE & _).
    assert (E : left_in idx n (run (by_block (blk_at r opts) f) idx n (map fst sched) (pinit n)) = []).
    { unfold left_in. unfold all_exit in AE. clear - AE. generalize 0%nat as w. revert AE. generalize (p_workers (run (by_block (blk_at r opts) f) idx n (map fst sched) (pinit n))) as ws.
      induction ws as [|z ws IH]; intros AE w; [reflexivity|]. cbn [left_list]. rewrite (AE 0%nat z eq_refl). cbn [left_of app]. apply IH. intros v y Hv. exact (AE (S v) y Hv). }
    rewrite E, app_nil_r in P. symmetry. exact P.
  - eexists. split; [exact (parallel_result _ idx n (c_by f) Hn (by_ok f) (by_blk f) (by_count f) _ _ Hne HX)|].
    rewrite by_sum. apply part_result.
Qed.
Lemma machine_progress n es s : (0 < n)%nat -> execution_at (blk_at r opts) idx n (pinit n) es s ->
  p_crashed s = false /\ (outcome s = None -> exists t, forall ok, exists s', step_at (blk_at r opts) idx n s (t, ok) = Some s')
  /\ (length es <= measure idx n (pinit n))%nat.
Proof.
  intros Hn E. assert (R : reads_at (blk_at r opts) idx n es (pinit n) = reads_at (blk_at r opts) idx n es (pinit n)) by reflexivity.
  set (f := worked (reads_at (blk_at r opts) idx n es (pinit n))).
  assert (EX : execution (by_block (blk_at r opts) f) idx n (pinit n) (map fst es) s).
  { apply exec_by_block; [exact E|]. intros i ok H. apply worked_in; [apply machine_nodup; exact Hn|exact H]. }
  destruct (execution_inv _ idx n (c_by f) Hn (by_ok f) (by_blk f) (by_count f) _ _ _ (pinit_inv _ n _ Hn) EX) as [I1 I2].
  split; [apply I1|]. split.
  - intros O. destruct (progress _ idx n (c_by f) Hn (by_ok f) (by_blk f) (by_count f) s I1 O) as (t & s' & H). exists t. intros ok.
    unfold step_at. cbn [fst snd]. unfold step in *. destruct (p_crashed s); [discriminate|]. destruct t as [|w]; [eauto|]. unfold step_worker in *.
    destruct (nth_error (p_workers s) w) as [[| |[|i todo] a|rr| |]|]; eauto. destruct (blk_at_fine ok i a) as [a' ->]. eauto.
  - rewrite map_length in I2. lia.
Qed.

(** ** The sequential loops *)
Lemma scan_at_reads : forall l sched xs x, scan_at (blk_at r opts) l sched (acc_of xs) = Some x ->
  map fst (combine l (map snd sched)) = l
  /\ x = Ok (result_of (acc_of (xs ++ flat_map (fun p => got (read_one (at_open r (snd p)) opts (fst p))) (combine l (map snd sched))))).
Proof.
  induction l as [|i l IH]; intros sched xs x H; cbn [scan_at] in H.
  - injection H as <-. cbn. rewrite app_nil_r. auto.
  - destruct sched as [|[t ok] sched]; [discriminate|]. cbn [map snd combine fst flat_map].
    assert (E : blk_at r opts ok i (acc_of xs) = Ok (acc_of (xs ++ got (read_one (at_open r ok) opts i)))).
    { unfold blk_at, blk_read. fold (read_one (at_open r ok) opts i). pose proof (no_panic_at ok i) as N.
      destruct (read_one (at_open r ok) opts i) as [[ids vs]|e|]; cbn [add_block got]; [rewrite add_values_acc; reflexivity|rewrite app_nil_r; reflexivity|congruence]. }
    rewrite E in H. destruct (IH sched _ x H) as [H1 H2]. split; [rewrite H1; reflexivity|]. rewrite H2, app_assoc. reflexivity.
Qed.
Lemma by_reads reads (h : Z -> bool -> list Z) : NoDup (map fst reads) ->
  flat_map (fun p => h (fst p) (snd p)) reads = flat_map (fun i => h i (worked reads i)) (map fst reads).
Proof using.
  intros N. assert (H : forall p, In p reads -> worked reads (fst p) = snd p) by (intros [i ok] Hp; apply worked_in; assumption).
  revert H. generalize (worked reads) as w. clear N. induction reads as [|p reads IH]; intros w H; [reflexivity|]. cbn [flat_map map].
  rewrite (H p (or_introl eq_refl)), (IH w); [reflexivity|]. intros q Hq. apply H. right. exact Hq.
Qed.
Lemma scan_result sched x : scan_at (blk_at r opts) idx sched acc0 = Some x ->
  let reads := combine idx (map snd sched) in
  Permutation (map fst reads) idx
  /\ exists res, x = Ok res /\ aggregate_of (taken_when reads r (o_filter opts) (o_deny opts)) res.
Proof.
  intros H reads. rewrite acc0_of in H. destruct (scan_at_reads idx sched [] x H) as [H1 H2]. fold reads in H1, H2.
  split; [rewrite H1; reflexivity|]. cbn [app] in H2.
  rewrite (by_reads reads (fun i ok => got (read_one (at_open r ok) opts i))) in H2 by (rewrite H1; exact idx_nodup).
  rewrite H1 in H2. cbv beta in H2. rewrite (got_taken_at (worked reads)) in H2. eexists. split; [exact H2|]. apply part_result.
Qed.

Lemma during_plan g :
  (exists res, (forall sched, AggregateDuring g sched r opts = Some (Ok res) /\ reads_during g sched r opts = []) /\ idx = [] /\ aggregate_of [] res)
  \/ (forall sched, AggregateDuring g sched r opts = scan_at (blk_at r opts) idx sched acc0 /\ reads_during g sched r opts = combine idx (map snd sched))
  \/ exists n, (0 < n)%nat /\ idx <> []
     /\ forall sched, AggregateDuring g sched r opts = outcome (run_at (blk_at r opts) idx n sched (pinit n))
                   /\ reads_during g sched r opts = reads_at (blk_at r opts) idx n sched (pinit n).
Proof.
  pose proof (reads_no_footer r opts HU) as EF. pose proof (zlen_nonneg (r_index r)) as Hn.
  assert (A0 : aggregate_of [] zeroResult) by (unfold aggregate_of, zeroResult; cbn; repeat split; try reflexivity; congruence).
  assert (EI : FilteredBlockIterator r (o_filter opts) (o_deny opts) = Ok (matchingBlocks r (o_filter opts) (o_deny opts))).
  { unfold FilteredBlockIterator. destruct (o_filter opts); [reflexivity|]. rewrite (make_fine _ 8 (2 ^ 48)) by lia. reflexivity. }
  assert (Z0 : forall l : list Z, zlen l =? 0 = true -> l = []) by (intros l E; apply Z.eqb_eq in E; destruct l as [|y l]; [reflexivity|rewrite zlen_cons in E; pose proof (zlen_nonneg l); lia]).
  set (seqr := fun sched : list (nat * bool) => if has_filter opts then combine (matchingBlocks r (o_filter opts) (o_deny opts)) (map snd sched)
    else if (zlen (r_index r) >? 0) && negb (o_skip opts) then [] else combine (zseq (BlockCount r)) (map snd sched)).
  assert (SEQ : (exists res, (forall sched, sequential_at sched r opts = Some (Ok res) /\ seqr sched = []) /\ idx = [] /\ aggregate_of [] res)
    \/ (forall sched, sequential_at sched r opts = scan_at (blk_at r opts) idx sched acc0 /\ seqr sched = combine idx (map snd sched))).
  { unfold sequential_at, seqr, uses_footer, blocks_to_read in *. destruct (has_filter opts).
    - rewrite EI. destruct (zlen (matchingBlocks r (o_filter opts) (o_deny opts)) =? 0) eqn:E0; [|right; auto].
      left. apply Z0 in E0. rewrite E0. exists zeroResult. split; [intros sched; split; reflexivity|]. split; [reflexivity|exact A0].
    - cbn [negb] in EF. rewrite andb_true_r in EF. rewrite EF. right. auto. }
  assert (FIN : forall (D : list (nat * bool) -> option (res aggResult)) (R : list (nat * bool) -> list (Z * bool)),
      (forall sched, D sched = sequential_at sched r opts) -> (forall sched, R sched = seqr sched) ->
      (exists res, (forall sched, D sched = Some (Ok res) /\ R sched = []) /\ idx = [] /\ aggregate_of [] res)
      \/ (forall sched, D sched = scan_at (blk_at r opts) idx sched acc0 /\ R sched = combine idx (map snd sched))).
  { intros D R HD HR. destruct SEQ as [(res & S1 & S2)|S]; [left; exists res; split; [|exact S2]|right]; intros sched; rewrite HD, HR; auto. }
  assert (FIN' : forall (D : list (nat * bool) -> option (res aggResult)) (R : list (nat * bool) -> list (Z * bool)),
      (forall sched, D sched = sequential_at sched r opts) -> (forall sched, R sched = seqr sched) ->
      (exists res, (forall sched, D sched = Some (Ok res) /\ R sched = []) /\ idx = [] /\ aggregate_of [] res)
      \/ (forall sched, D sched = scan_at (blk_at r opts) idx sched acc0 /\ R sched = combine idx (map snd sched))
      \/ exists n, (0 < n)%nat /\ idx <> []
         /\ forall sched, D sched = outcome (run_at (blk_at r opts) idx n sched (pinit n)) /\ R sched = reads_at (blk_at r opts) idx n sched (pinit n)).
  { intros D R HD HR. destruct (FIN D R HD HR) as [X|X]; auto. }
  unfold AggregateDuring, reads_during. fold seqr. destruct (o_parallel opts =? 0); [apply FIN'; reflexivity|].
  unfold parallelPlan. rewrite (i64_id (BlockCount r)) by (unfold is_i64, two63; lia). cbv zeta.
  set (nw := if o_parallel opts <? 0 then g else o_parallel opts) in *. set (m := if nw >? BlockCount r then BlockCount r else nw) in *.
  assert (Hm : m <= BlockCount r) by (unfold m; destruct (Z.gtb_spec nw (BlockCount r)); lia).
  destruct (Z.leb_spec m 1) as [|Hm1]; [apply FIN'; reflexivity|].
  destruct (BlockCount r <=? 1); [apply FIN'; reflexivity|]. cbn [orb].
  rewrite (make_fine (BlockCount r) 8 (2 ^ 48)) by lia. rewrite (make_fine m 40 (2 ^ 48)) by lia.
  replace (if has_filter opts then FilteredBlockIterator r (o_filter opts) (o_deny opts) else @Ok (list Z) (zseq (BlockCount r)))
    with (@Ok (list Z) idx) by (unfold blocks_to_read; destruct (has_filter opts); [symmetry; exact EI|reflexivity]).
  destruct (zlen idx =? 0) eqn:E0.
  { left. exists zeroResult. split; [intros sched; split; reflexivity|]. split; [apply Z0; exact E0|exact A0]. }
  replace ((zlen (r_index r) >? 0) && negb (o_skip opts) && negb (has_filter opts)) with false by (symmetry; exact EF).
  right. right. exists (Z.to_nat m). split; [lia|]. split; [intros E; rewrite E in E0; discriminate|]. intros sched. split; reflexivity.
Qed.

Theorem during g sched x : AggregateDuring g sched r opts = Some x ->
  Permutation (map fst (reads_during g sched r opts)) idx
  /\ exists res, x = Ok res /\ aggregate_of (taken_when (reads_during g sched r opts) r (o_filter opts) (o_deny opts)) res.
Proof.
  intros HX. destruct (during_plan g) as [(res & H1 & H2 & H3)|[H|(n & Hn & Hne & H)]].
  - destruct (H1 sched) as [A B]. rewrite A in HX. injection HX as <-. rewrite B. split; [rewrite H2; reflexivity|]. exists res. split; [reflexivity|].
    unfold taken_when. replace (List.filter (worked []) (zseq (BlockCount r))) with (@nil Z); [exact H3|].
    symmetry. apply filter_none. reflexivity.
  - destruct (H sched) as [A B]. rewrite A in HX. rewrite B. apply scan_result. exact HX.
  - destruct (H sched) as [A B]. rewrite A in HX. rewrite B. apply machine_result; assumption.
Qed.
End Readers.

(** ** Files of this library *)
Section Views.
Context {Srr : Sroar} {Laws : SroarLaws Srr}.
Lemma taken_block r blocks f d k b : view r blocks -> nth_error blocks k = Some b -> taken r f d (Z.of_nat k) = picked f d b.
Proof.
  intros [[Hc Hs Hg Hx _] Hp] Hk. assert (HK : (k < length blocks)%nat) by (apply nth_error_Some; congruence).
  unfold taken. rewrite Hp by (unfold is_u64, two64, two32, zlen in *; lia). rewrite Nat2Z.id, Hk. destruct b as [ids vals].
  assert (G : good_block (ids, vals)) by (rewrite Forall_forall in Hg; apply Hg; eapply nth_error_In; exact Hk).
  assert (EE : (if claimed_in_range r f (Z.of_nat k) then map snd (filter (fun p => passes f d (fst p)) (combine ids vals)) else []) = picked f d (ids, vals)).
  { unfold picked. cbn [fst snd]. destruct (claimed_in_range r f (Z.of_nat k)) eqn:E; [reflexivity|]. symmetry.
    replace (filter _ _) with (@nil (Z * Z)); [reflexivity|]. symmetry. apply filter_none. intros [id v] Hin. apply in_combine_l in Hin. cbn [fst].
    destruct f as [a|]; [|discriminate]. cbn [claimed_in_range] in E. rewrite Nat2Z.id in E.
    assert (X : exists e, nth_error (r_index r) k = Some e /\ true_entry (ids, vals) e).
    { clear - Hx Hk. revert k Hk. induction Hx as [|e b l l' H _ IH]; intros [|k] Hk; cbn [nth_error] in *; try discriminate; [injection Hk as ->; eauto|apply IH; exact Hk]. }
    destruct X as (e & X & (_ & Mn) & (_ & Mx) & _). rewrite X in E. cbn [fst] in Mn, Mx. specialize (Mn id Hin). specialize (Mx id Hin).
    assert (Hid : is_u64 id) by (destruct G as (G & _); rewrite Forall_forall in G; apply G; exact Hin).
    unfold passes. destruct (bm_contains a id) eqn:Ea; [|reflexivity]. exfalso.
    pose proof (law_min a id Hid Ea). pose proof (law_max a id Hid Ea). lia. }
  destruct f as [f|], d as [d|]; try exact EE. rewrite picked_none by exact G. reflexivity.
Qed.
Lemma taken_where r blocks f d ok : view r blocks ->
  flat_map (taken r f d) (List.filter ok (zseq (BlockCount r))) = chosen f d (blocks_where ok blocks).
Proof.
  intros V. rewrite chosen_picked. pose proof (v_count _ _ (v_indexed _ _ V)) as Hc. rewrite Hc. unfold blocks_where, zseq, zlen. rewrite Nat2Z.id.
  assert (G : forall l k, (forall j b, nth_error l j = Some b -> nth_error blocks (k + j) = Some b) ->
    flat_map (taken r f d) (List.filter ok (map Z.of_nat (seq k (length l))))
    = flat_map (picked f d) (map snd (List.filter (fun p => ok (fst p)) (combine (map Z.of_nat (seq k (length l))) l)))).
  { induction l as [|b l IH]; intros k H; [reflexivity|]. cbn [length seq map combine List.filter fst].
    assert (Hk : nth_error blocks k = Some b) by (specialize (H 0%nat b eq_refl); rewrite Nat.add_0_r in H; exact H).
    assert (Hl : forall j b, nth_error l j = Some b -> nth_error blocks (S k + j) = Some b).
    { intros j c Hj. replace (S k + j)%nat with (k + S j)%nat by lia. apply H. exact Hj. }
    destruct (ok (Z.of_nat k)); cbn [flat_map map snd]; rewrite (IH (S k) Hl); [rewrite (taken_block r blocks f d k b V Hk)|]; reflexivity. }
  apply G. auto.
Qed.
Lemma where_all blocks : blocks_where (fun _ => true) blocks = blocks.
Proof.
  unfold blocks_where. replace (List.filter _ _) with (combine (zseq (zlen blocks)) blocks).
  - unfold zseq, zlen. rewrite Nat2Z.id. generalize 0%nat as k. induction blocks as [|b l IH]; intros k; [reflexivity|]. cbn. rewrite IH. reflexivity.
  - cbn. induction (combine _ _) as [|x l IH]; [reflexivity|]. cbn. rewrite <- IH. reflexivity.
Qed.
End Views.
