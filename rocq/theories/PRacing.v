(** Aggregations during which reads stop working (C77).  Only statements and concrete
    cases; proofs are in RacingFacts.v. *)
From Coq Require Import Permutation.
From Verif Require Import Machine MachineFacts Encoding FileIO Sroar SroarFacts Writer Reader Aggregate Parallel Shared Spec MultiSpec AnySpec Racing RacingSpec
  ArbFacts AggFacts AggProps AnyFacts RacingFacts Examples PAggregate PReader PMulti PShared.

Section Props.
Context {Srr : Sroar}.

(** Any accepted bytes, any aggregation that reads the data, sequential or with any number
    of workers, any schedule, and any moments at which reads work or not: every block that
    could contribute is read exactly once, and the result, never a crash or an error, is
    the aggregate of what the blocks contribute whose read worked. *)
Theorem C77_any_moment data r opts gomaxprocs sched x : Forall is_byte data -> NewReader data = Ok r ->
  Forall (fun e => 80 <= e_size e) (r_index r) -> BlockCount r <= 2 ^ 42 -> reads_data r opts ->
  zlen (all_taken r (o_filter opts) (o_deny opts)) < two63 ->
  AggregateDuring gomaxprocs sched r opts = Some x ->
  let reads := reads_during gomaxprocs sched r opts in
  NoDup (map fst reads)
  /\ (forall i, 0 <= i < BlockCount r -> taken r (o_filter opts) (o_deny opts) i <> [] -> In i (map fst reads))
  /\ exists res, x = Ok res /\ aggregate_of (taken_when reads r (o_filter opts) (o_deny opts)) res.
Proof.
  intros HB HR HS HN HU HT HX reads. pose proof (NewReader_index data r HB HR) as HL. destruct (opens_fresh data r HR) as (Ho & _).
  pose proof (typed_counts _ (NewReader_typed data r HB HR)) as HC.
  destruct (during r opts Ho HC HS HL HN HU HT gomaxprocs sched x HX) as [P R]. fold reads in P, R.
  split; [eapply Permutation_NoDup; [symmetry; exact P|apply idx_nodup; [exact Ho|exact HL|exact HT]]|]. split; [|exact R].
  intros i Hi Ht. destruct (to_read r opts HL HT) as (c & E & H & _). eapply Permutation_in; [symmetry; exact P|]. rewrite E. apply filter_In.
  assert (Hz : In i (zseq (BlockCount r))) by (apply in_zseq; exact Hi).
  split; [exact Hz|]. destruct (c i) eqn:Ec; [reflexivity|]. destruct (Ht (H i Hz Ec)).
Qed.

(** If all reads worked, nothing is missing. *)
Theorem C77_nothing_lost data r opts gomaxprocs sched x : Forall is_byte data -> NewReader data = Ok r ->
  Forall (fun e => 80 <= e_size e) (r_index r) -> BlockCount r <= 2 ^ 42 -> reads_data r opts ->
  zlen (all_taken r (o_filter opts) (o_deny opts)) < two63 ->
  AggregateDuring gomaxprocs sched r opts = Some x ->
  (forall i, ~ In (i, false) (reads_during gomaxprocs sched r opts)) ->
  exists res, x = Ok res /\ aggregate_of (all_taken r (o_filter opts) (o_deny opts)) res.
Proof.
  intros HB HR HS HN HU HT HX HF. destruct (C77_any_moment data r opts gomaxprocs sched x HB HR HS HN HU HT HX) as (N & T & res & E & A).
  exists res. split; [exact E|]. unfold taken_when in A. rewrite flat_map_filtered in A; [exact A|]. intros i Hi Hw.
  destruct (taken r (o_filter opts) (o_deny opts) i) as [|v l] eqn:Et; [reflexivity|exfalso].
  assert (Hin : In i (map fst (reads_during gomaxprocs sched r opts))) by (apply T; [apply in_zseq; exact Hi|rewrite Et; discriminate]).
  apply in_map_iff in Hin. destruct Hin as ([j ok] & Ej & Hin). cbn [fst] in Ej. subst j.
  rewrite (worked_in _ _ _ N Hin) in Hw. subst ok. destruct (HF i Hin).
Qed.

(** The flags are those of the schedule: a Close between two steps, or before the call. *)
Lemma flags_at blk idx n sched : forall s i ok, In (i, ok) (reads_at blk idx n sched s) -> In ok (map snd sched).
Proof.
  induction sched as [|[t b] sched IH]; intros s i ok H; cbn [reads_at map snd fst] in *; [destruct H|]. apply in_app_or in H. destruct H as [H|H].
  - left. destruct (reads_next s t); [|destruct H]. destruct H as [H|[]]. congruence.
  - right. eapply IH. exact H.
Qed.
Lemma flags_from g sched r opts i ok : In (i, ok) (reads_during g sched r opts) -> In ok (map snd sched).
Proof.
  unfold reads_during. cbv zeta. assert (C : forall l : list Z, In (i, ok) (combine l (map snd sched)) -> In ok (map snd sched)) by (intros l H; eapply in_combine_r; exact H).
  destruct (o_parallel opts =? 0); [|destruct (parallelPlan g r opts)]; try (intros H; destruct H; fail);
    try (destruct (has_filter opts); [apply C|]; destruct (_ && _); [intros []|apply C]). apply flags_at.
Qed.
Theorem C77_closed_before data r opts gomaxprocs sched x : Forall is_byte data -> NewReader data = Ok r ->
  Forall (fun e => 80 <= e_size e) (r_index r) -> BlockCount r <= 2 ^ 42 -> reads_data r opts ->
  zlen (all_taken r (o_filter opts) (o_deny opts)) < two63 ->
  AggregateDuring gomaxprocs (after_close sched) r opts = Some x ->
  exists res, x = Ok res /\ aggregate_of [] res.
Proof.
  intros HB HR HS HN HU HT HX. destruct (C77_any_moment data r opts gomaxprocs _ x HB HR HS HN HU HT HX) as (_ & _ & res & E & A).
  exists res. split; [exact E|]. unfold taken_when in A. rewrite filter_none in A; [exact A|]. intros i _.
  unfold worked. destruct (existsb _ _) eqn:Ex; [|reflexivity]. apply existsb_exists in Ex. destruct Ex as ([j ok] & Hin & H). cbn [fst snd] in H.
  apply andb_true_iff in H. destruct H as [_ ->]. apply flags_from in Hin. unfold after_close in Hin. rewrite map_map in Hin. apply in_map_iff in Hin.
  destruct Hin as (t & X & _). discriminate.
Qed.
Theorem C77_never_closed data r opts gomaxprocs sched x : Forall is_byte data -> NewReader data = Ok r ->
  Forall (fun e => 80 <= e_size e) (r_index r) -> BlockCount r <= 2 ^ 42 -> reads_data r opts ->
  zlen (all_taken r (o_filter opts) (o_deny opts)) < two63 ->
  AggregateDuring gomaxprocs (while_open sched) r opts = Some x ->
  exists res, x = Ok res /\ aggregate_of (all_taken r (o_filter opts) (o_deny opts)) res.
Proof.
  intros HB HR HS HN HU HT HX. eapply C77_nothing_lost; try eassumption. intros i Hi. apply flags_from in Hi.
  unfold while_open in Hi. rewrite map_map in Hi. apply in_map_iff in Hi. destruct Hi as (t & X & _). discriminate.
Qed.

(** The call always returns: it needs one step per block, or it is a machine that never
    crashes, in which some goroutine can move until the call has returned, whether reads
    work or not, and whose executions are bounded. *)
Theorem C77_terminates data r opts gomaxprocs : Forall is_byte data -> NewReader data = Ok r ->
  Forall (fun e => 80 <= e_size e) (r_index r) -> BlockCount r <= 2 ^ 42 -> reads_data r opts ->
  zlen (all_taken r (o_filter opts) (o_deny opts)) < two63 ->
  (exists steps, forall sched, (steps <= length sched)%nat -> AggregateDuring gomaxprocs sched r opts <> None)
  \/ exists blk idx n,
       (forall sched, AggregateDuring gomaxprocs sched r opts = outcome (run_at blk idx n sched (pinit n)))
       /\ (forall es s, execution_at blk idx n (pinit n) es s ->
             p_crashed s = false /\ (outcome s = None -> exists t, forall ok, exists s', step_at blk idx n s (t, ok) = Some s'))
       /\ (exists bound, forall es s, execution_at blk idx n (pinit n) es s -> (length es <= bound)%nat).
Proof.
  intros HB HR HS HN HU HT. pose proof (NewReader_index data r HB HR) as HL. destruct (opens_fresh data r HR) as (Ho & _).
  pose proof (typed_counts _ (NewReader_typed data r HB HR)) as HC.
  destruct (during_plan r opts Ho HL HN HU HT gomaxprocs) as [(res & H1 & _)|[H|(n & Hn & Hne & H)]].
  - left. exists 0%nat. intros sched _. rewrite (proj1 (H1 sched)). discriminate.
  - left. exists (length (blocks_to_read r opts)). intros sched Hl. rewrite (proj1 (H sched)). clear H. revert sched Hl. generalize acc0 as a.
    induction (blocks_to_read r opts) as [|i l IH]; intros a sched Hl; cbn [scan_at]; [discriminate|]. destruct sched as [|[t ok] sched]; [cbn in Hl; lia|].
    destruct (blk_at_fine r opts Ho HC HS ok i a) as [a' ->]. apply IH. cbn [length] in Hl. lia.
  - right. exists (blk_at r opts), (blocks_to_read r opts), n. split; [intros sched; apply H|].
    pose proof (machine_progress r opts Ho HC HS HL HN HT n) as MP. split.
    + intros es s E. destruct (MP es s Hn E) as (A & B & _). auto.
    + eexists. intros es s E. destruct (MP es s Hn E) as (_ & _ & B). exact B.
Qed.
End Props.
Print Assumptions C77_any_moment.
Print Assumptions C77_nothing_lost.
Print Assumptions C77_closed_before.
Print Assumptions C77_never_closed.
Print Assumptions C77_terminates.

(** For a file that a Writer finalized: the aggregate of the pairs that pass and lie in
    blocks whose read worked. *)
Theorem C77_read_back {Srr : Sroar} {Laws : SroarLaws Srr} options faults h now w :
  finished_run options faults h now w -> faithful (encoding_of options) ->
  exists r blocks, NewReader (bytes_of w) = Ok r /\ contents h r blocks
    /\ forall opts gomaxprocs sched x, reads_data r opts -> AggregateDuring gomaxprocs sched r opts = Some x ->
         let reads := reads_during gomaxprocs sched r opts in
         NoDup (map fst reads)
         /\ exists res, x = Ok res /\ aggregate_of (chosen (o_filter opts) (o_deny opts) (blocks_where (worked reads) blocks)) res.
Proof.
  intros HF He. destruct (finished_indexed options faults h now w HF) as (r & blocks & HR & Hs & HI & HV). destruct (HV He) as [V C].
  exists r, blocks. split; [exact HR|]. split; [exact C|]. intros opts g sched x HU HX reads.
  destruct (opens_fresh _ r HR) as (Ho & _). pose proof (v_count _ _ HI) as Hc. pose proof (v_small _ _ HI) as Hsm.
  assert (HL : zlen (r_index r) <= BlockCount r) by (rewrite (index_length r blocks HI), Hc; lia).
  assert (HCn : Forall (fun e => 0 <= e_count e) (r_index r)).
  { pose proof (v_index _ _ HI) as X. clear - X. induction X as [|e b l l' H _ IH]; constructor; [|exact IH].
    destruct H as (_ & _ & _ & _ & _ & -> & _). apply zlen_nonneg. }
  assert (HN : BlockCount r <= 2 ^ 42) by (rewrite Hc; unfold two32 in Hsm; lia).
  assert (HT : zlen (all_taken r (o_filter opts) (o_deny opts)) < two63).
  { unfold all_taken. rewrite <- (flat_map_filtered (fun _ => true)) by discriminate. rewrite (taken_where r blocks _ _ _ V), where_all.
    apply chosen_length; [apply HI|exact Hsm]. }
  destruct (during r opts Ho HCn (v_sizes _ _ HI) HL HN HU HT g sched x HX) as [P (res & E & A)]. fold reads in P, A.
  split; [eapply Permutation_NoDup; [symmetry; exact P|apply idx_nodup; [exact Ho|exact HL|exact HT]]|]. exists res. split; [exact E|].
  unfold taken_when in A. rewrite (taken_where r blocks _ _ _ V) in A. exact A.
Qed.
Print Assumptions C77_read_back.

(** ** Cases *)
(** Two workers on the two blocks of C19_case; the reader is closed after one block was
    read, and the aggregate of that block is reported, without an error. *)
Definition race_opts : aggOptions := mkOpts true None None (-1).
Definition race_order : list nat := [0; 0; 1; 0; 0; 2; 0; 2; 1; 2; 1; 2; 2; 1; 1; 0; 0; 0; 0; 0]%nat.
Definition race_sched (k : nat) : list (nat * bool) := while_open (firstn k race_order) ++ after_close (skipn k race_order).
Example C77_case : finished_run agg_options [] agg_history 12 agg_writer /\ NewReader (bytes_of agg_writer) = Ok agg_reader
  /\ Forall is_byte (bytes_of agg_writer) /\ Forall (fun e => 80 <= e_size e) (r_index agg_reader) /\ reads_data agg_reader race_opts
  /\ reads_during 4 (race_sched 8) agg_reader race_opts = [(1, true); (0, false)]
  /\ option_map counts (AggregateDuring 4 (race_sched 8) agg_reader race_opts) = Some (Some (1, 4, 4, 4))
  /\ option_map counts (AggregateDuring 4 (while_open race_order) agg_reader race_opts) = Some (Some (3, -3, 10, 11))
  /\ option_map counts (AggregateDuring 4 (after_close race_order) agg_reader race_opts) = Some (Some (0, max_int64, min_int64, 0)).
Proof.
  split; [apply agg_finished|]. split; [apply agg_finished|].
  split; [apply bytesb_sound; vm_compute; reflexivity|]. split; [apply sizesb_sound; vm_compute; reflexivity|].
  split; [right; right; left; reflexivity|]. vm_compute. tauto.
Qed.

(** "Without an error, the result covers the file" is false, with any number of workers, as
    soon as a Close may come in between (C51 has the sequential case). *)
Lemma one_of_three {Srr : Sroar} g sched r opts : option_map counts (AggregateDuring g sched r opts) = Some (Some (1, 4, 4, 4)) ->
  zlen (all_taken r (o_filter opts) (o_deny opts)) = 3 ->
  exists x, AggregateDuring g sched r opts = Some (Ok x) /\ ~ aggregate_of (all_taken r (o_filter opts) (o_deny opts)) x.
Proof.
  intros E M. destruct (AggregateDuring g sched r opts) as [[x|e|]|]; try discriminate. exists x. split; [reflexivity|]. intros (N & _).
  rewrite M in N. cbn [option_map counts] in E. rewrite N in E. discriminate.
Qed.
Theorem C77_covers_refuted : exists r opts gomaxprocs sched x,
  NewReader (bytes_of agg_writer) = Ok r /\ reads_data r opts
  /\ AggregateDuring gomaxprocs sched r opts = Some (Ok x)
  /\ ~ aggregate_of (all_taken r (o_filter opts) (o_deny opts)) x.
Proof.
  exists agg_reader, race_opts, 4, (race_sched 8).
  destruct (one_of_three 4 (race_sched 8) agg_reader race_opts) as (x & E & N); [vm_compute; reflexivity|vm_compute; reflexivity|].
  exists x. split; [apply agg_finished|]. split; [right; right; left; reflexivity|]. split; [exact E|exact N].
Qed.
Print Assumptions C77_covers_refuted.
