(** One Reader used by several goroutines at once (C51).  Only statements and concrete
    cases; proofs are in SharedFacts.v. *)
From Verif Require Import Machine MachineFacts Encoding FileIO Sroar SroarFacts Writer Reader Aggregate Shared Spec SharedSpec
  ArbFacts WriterProps AggProps SharedFacts Examples PAggregate.

Section Props.
Context {Srr : Sroar}.

Lemma opens_fresh data r : NewReader data = Ok r -> r_open r = true /\ r_globalIDs r = None /\ r_cacheGlobalIDs r = false.
Proof.
  unfold NewReader. destruct (readHeader data) as [h|e|]; try discriminate. cbn [rbind].
  destruct (readFooter data h) as [[[h' m] ix]|e|]; try discriminate. cbn [rbind]. intros H. injection H as <-. auto.
Qed.

(** Any number of goroutines make any calls (GetPairs, aggregations, GetGlobalIDBitmap,
    EnableGlobalIDBitmapCaching) on one reader of any accepted bytes, interleaved in any
    way at every access to what they share: every answer is the one the call gets when
    it is made alone, and the bitmaps that were returned still hold what the file holds. *)
Theorem C51_shared_reader data r programs sched ts s :
  NewReader data = Ok r -> no_close programs -> no_disable programs ->
  together r programs sched = (ts, s) ->
  forall t c a, In t ts -> In (c, a) (t_log t) -> right_answer r (s_heap s) c a.
Proof.
  intros HN HC HD HT t c a Ht Hc. destruct (opens_fresh _ _ HN) as (Ho & Hp & Hf).
  pose proof (together_answers r Ho false false true programs sched Hp Hf eq_refl (fun _ => HC) (fun _ => HD)) as T. rewrite HT in T.
  rewrite Forall_forall in T. specialize (T t Ht). rewrite Forall_forall in T. specialize (T (c, a) Hc).
  destruct T as [oc [T|[[X _]|[X _]]]]; [exact T|discriminate|discriminate].
Qed.

(** Nobody waits for anybody: there is a number of steps, which depends only on the
    reader and on the goroutine's own calls, after which the goroutine has finished,
    whatever the others do; and the answers come in the order of its calls. *)
Theorem C51_wait_free r programs n p : nth_error programs n = Some p ->
  exists bound, forall sched, (bound <= count_occ Nat.eq_dec sched n)%nat ->
  exists t, nth_error (fst (together r programs sched)) n = Some t /\ map fst (t_log t) = p.
Proof. exact (wait_free r programs n p). Qed.
Theorem C51_in_order r programs sched n p : nth_error programs n = Some p ->
  exists t rest, nth_error (fst (together r programs sched)) n = Some t /\ p = map fst (t_log t) ++ rest.
Proof. exact (in_order r programs sched n p). Qed.

(** If some goroutines also call Close or DisableGlobalIDBitmapCaching, then every answer
    is still the right one, or (only if Close is called) an error or an aggregate of some
    first blocks, or (only if DisableGlobalIDBitmapCaching is called) a nil bitmap. *)
Theorem C51_close_and_disable data r programs sched ts s :
  NewReader data = Ok r -> together r programs sched = (ts, s) ->
  forall t c a, In t ts -> In (c, a) (t_log t) ->
  right_answer r (s_heap s) c a
  \/ (In OClose (concat programs) /\ cut_short r c a)
  \/ (In ODisable (concat programs) /\ c = OGetGlobalIDBitmap /\ a = ABitmap (Ok None)).
Proof.
  intros HN HT t c a Ht Hc. destruct (opens_fresh _ _ HN) as (Ho & Hp & Hf).
  assert (D : forall x : op, (x = OClose \/ x = ODisable) -> {In x (concat programs)} + {~ In x (concat programs)}).
  { intros x Hx. induction (concat programs) as [|y l IH]; [right; intros []|]. destruct IH as [I1|I1]; [left; right; exact I1|].
    destruct y, x; try (right; intros [E|E]; [discriminate|auto]; fail); try (left; left; reflexivity); exfalso; destruct Hx; discriminate. }
  set (cl := if D OClose (or_introl eq_refl) then true else false).
  set (dis := if D ODisable (or_intror eq_refl) then true else false).
  assert (E1 : cl = false -> no_close programs) by (unfold cl; destruct (D OClose _); [discriminate|auto]).
  assert (E2 : dis = false -> no_disable programs) by (unfold dis; destruct (D ODisable _); [discriminate|auto]).
  assert (E3 : cl = true -> In OClose (concat programs)) by (unfold cl; destruct (D OClose _); [auto|discriminate]).
  assert (E4 : dis = true -> In ODisable (concat programs)) by (unfold dis; destruct (D ODisable _); [auto|discriminate]).
  pose proof (together_answers r Ho cl dis true programs sched Hp Hf eq_refl E1 E2) as T. rewrite HT in T.
  rewrite Forall_forall in T. specialize (T t Ht). rewrite Forall_forall in T. specialize (T (c, a) Hc).
  destruct T as [oc [T|[(X & _ & T)|[X T]]]]; [left; exact T|right; left; auto|right; right; auto].
Qed.
End Props.
Print Assumptions C51_shared_reader.
Print Assumptions C51_wait_free.
Print Assumptions C51_in_order.
Print Assumptions C51_close_and_disable.

(** For a file that a Writer finalized: whatever the goroutines do, GetPairs returns the
    pairs that were written, an aggregation with filters the aggregate of exactly the
    pairs that pass, and GetGlobalIDBitmap the IDs that were written. *)
Theorem C51_read_back {Srr : Sroar} {Laws : SroarLaws Srr} options faults h now w :
  finished_run options faults h now w -> faithful (encoding_of options) ->
  exists r blocks, NewReader (bytes_of w) = Ok r /\ stored h blocks
    /\ forall programs sched ts s t c a, no_close programs -> no_disable programs ->
         together r programs sched = (ts, s) -> In t ts -> In (c, a) (t_log t) ->
         (forall i, c = OGetPairs i -> is_u64 i ->
            a = APairs (match nth_error blocks (Z.to_nat i) with Some b => Ok b | None => Err ErrIndex end))
         /\ (forall skip allow deny, c = OAggregate (mkOpts skip allow deny 0) -> allow <> None \/ deny <> None ->
            exists res, a = AAggregate (Ok res) /\ aggregate_of (chosen allow deny blocks) res).
Proof.
  intros HF He. destruct (filtered_exact options faults h now w HF He) as (r & blocks & HR & (Hs & _ & HP) & HG).
  exists r, blocks. split; [exact HR|]. split; [exact Hs|]. intros programs sched ts s t c a HC HD HT Ht Hc.
  pose proof (C51_shared_reader _ _ _ _ _ _ HR HC HD HT _ _ _ Ht Hc) as A. split.
  - intros i -> Hi. cbn [right_answer] in A. rewrite A, (HP i Hi). reflexivity.
  - intros skip allow deny -> Hf. cbn [right_answer] in A. destruct (HG skip allow deny Hf) as (res & H1 & H2). exists res. rewrite A, H1. auto.
Qed.
Print Assumptions C51_read_back.
Theorem C51_global_ids {Srr : Sroar} {Laws : SroarLaws Srr} options faults h now w :
  finished_run options faults h now w ->
  exists r blocks, NewReader (bytes_of w) = Ok r /\ stored h blocks
    /\ forall programs sched ts s t a, no_close programs -> no_disable programs ->
         together r programs sched = (ts, s) -> In t ts -> In (OGetGlobalIDBitmap, a) (t_log t) ->
         exists p b, a = ABitmap (Ok (Some p)) /\ nth_error (s_heap s) p = Some b
           /\ (forall id, is_u64 id -> In id (flat_map fst blocks) -> bm_contains b id = true)
           /\ (no_torn_block h -> forall id, is_u64 id -> bm_contains b id = true -> In id (flat_map fst blocks)).
Proof.
  intros HF. destruct (global_ids options faults h now w [] HF) as (r & blocks & p & r' & hp' & b & Hs & HR & HG & Hn & I1 & I2).
  exists r, blocks. split; [exact HR|]. split; [exact Hs|]. intros programs sched ts s t a HC HD HT Ht Hc.
  pose proof (C51_shared_reader _ _ _ _ _ _ HR HC HD HT _ _ _ Ht Hc) as A. cbn [right_answer] in A.
  destruct (opens_fresh _ _ HR) as (_ & Hp & Hcache). unfold GetGlobalIDBitmap in HG. rewrite Hp, Hcache in HG.
  destruct (loadGlobalIDBitmap r) as [b'|e|]; [|discriminate|discriminate]. cbn in HG. injection HG as <- <- <-. cbn in Hn. injection Hn as <-.
  destruct A as (q & A1 & A2). exists q, b'. auto.
Qed.
Print Assumptions C51_global_ids.

(** Two goroutines on the file of C19_case, switching at every step. *)
Definition share_programs : list (list op) :=
  [ [OEnable; OGetGlobalIDBitmap; OGetPairs 1]; [OGetGlobalIDBitmap; OAggregate (mkOpts true None None 0); OGetPairs 7] ].
Definition alternate (n : nat) : list nat := concat (repeat [0%nat; 1%nat] n).
Definition summary (x : answer) : option (list Z * list Z) :=
  match x with
  | APairs (Ok p) => Some p
  | AAggregate (Ok res) => Some ([a_count res; a_sum res], [])
  | ABitmap (Ok (Some p)) => Some ([Z.of_nat p], [])
  | ABitmap (Ok None) => Some ([], [-1])
  | _ => None
  end.
Definition summaries (x : list thread * shared) : list (list (option (list Z * list Z))) := map (fun t => map (fun p => summary (snd p)) (t_log t)) (fst x).
Example C51_case : NewReader (bytes_of agg_writer) = Ok agg_reader /\ no_close share_programs /\ no_disable share_programs
  /\ summaries (together agg_reader share_programs (alternate 30))
     = [[None; Some ([1], []); Some ([7], [4])]; [Some ([0], []); Some ([3; 11], []); None]]
  /\ s_heap (snd (together agg_reader share_programs (alternate 30))) = [[7; 2; 5]; [7; 2; 5]].
Proof.
  split; [apply agg_finished|]. split; [intros H; cbn in H; repeat destruct H as [H|H]; try discriminate; contradiction|].
  split; [intros H; cbn in H; repeat destruct H as [H|H]; try discriminate; contradiction|]. split; vm_compute; reflexivity.
Qed.

Definition entry (ts : list thread) (n k : nat) : option (op * answer) :=
  match nth_error ts n with Some t => nth_error (t_log t) k | None => None end.
Lemma logged ts n k x : entry ts n k = Some x -> exists t, In t ts /\ In x (t_log t).
Proof.
  unfold entry. destruct (nth_error ts n) as [t|] eqn:E; [|discriminate]. intros H.
  exists t. split; eapply nth_error_In; eassumption.
Qed.
Definition nil_answer (x : option (op * answer)) : bool :=
  match x with Some (OGetGlobalIDBitmap, ABitmap (Ok None)) => true | _ => false end.
Lemma nil_answer_sound x : nil_answer x = true -> x = Some (OGetGlobalIDBitmap, ABitmap (Ok None)).
Proof. destruct x as [[[] [| |[[|]| |] | |]]|]; cbn; congruence. Qed.
(** Count, minimum, maximum and sum of an unfiltered scan. *)
Definition scan_answer (x : option (op * answer)) : option (Z * Z * Z * Z) :=
  match x with
  | Some (OAggregate (mkOpts true None None 0), AAggregate (Ok (mkAgg n mn mx sm avg))) => Some (n, mn, mx, sm)
  | _ => None
  end.
Lemma scan_answer_sound x n mn mx sm : scan_answer x = Some (n, mn, mx, sm) ->
  exists avg, x = Some (OAggregate (mkOpts true None None 0), AAggregate (Ok (mkAgg n mn mx sm avg))).
Proof.
  destruct x as [[[|[[] [|] [|] []]| | | |] [|[[]| |] | | |]]|]; cbn; try discriminate. intros H. injection H as <- <- <- <-. eauto.
Qed.
(** "GetGlobalIDBitmap returns a bitmap or an error" fails if another goroutine disables
    caching between the test of the pointer and its use. *)
Theorem C51_nil_bitmap_refuted : exists data r programs sched,
  NewReader data = Ok r /\ no_close programs
  /\ exists t, In t (fst (together r programs sched)) /\ In (OGetGlobalIDBitmap, ABitmap (Ok None)) (t_log t).
Proof.
  exists (bytes_of agg_writer), agg_reader, [[OEnable; OGetGlobalIDBitmap; OGetGlobalIDBitmap]; [ODisable]],
    (repeat 0%nat 14 ++ repeat 1%nat 4 ++ repeat 0%nat 4).
  split; [apply agg_finished|]. split; [intros H; cbn in H; repeat destruct H as [H|H]; try discriminate; contradiction|].
  apply (logged _ 0 2). apply nil_answer_sound. vm_compute. reflexivity.
Qed.
Print Assumptions C51_nil_bitmap_refuted.
(** "An aggregation is right or fails" is false if another goroutine closes the reader
    meanwhile: the file holds three values, the aggregation reports two, and no error. *)
Theorem C51_close_refuted : exists data r programs sched,
  NewReader data = Ok r
  /\ (exists avg, aggregateSequential r (mkOpts true None None 0) = Ok (mkAgg 3 (-3) 10 11 avg))
  /\ exists avg t, In t (fst (together r programs sched)) /\ In (OAggregate (mkOpts true None None 0), AAggregate (Ok (mkAgg 2 (-3) 10 7 avg))) (t_log t).
Proof.
  exists (bytes_of agg_writer), agg_reader, [[OAggregate (mkOpts true None None 0)]; [OClose]], [0%nat; 0%nat; 1%nat; 1%nat; 1%nat; 0%nat; 0%nat; 0%nat].
  split; [apply agg_finished|]. split; [eexists; vm_compute; reflexivity|].
  edestruct scan_answer_sound as [avg E]; [|exists avg; eapply (logged _ 0 0); exact E]. vm_compute. reflexivity.
Qed.
Print Assumptions C51_close_refuted.
