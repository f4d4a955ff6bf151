(** More about filters: any partition of the IDs, and a file's own bitmap. *)
From Verif Require Import Machine MachineFacts Encoding EncodingFacts FileIO Sroar SroarFacts Writer Spec FileFacts
  WriterFacts BlockFacts FinalFacts Reader ReaderFacts DecodeFacts HistoryFacts RunFacts ReachFacts WriterProps Aggregate Parallel ParallelFacts AggFacts AggProps.
Ltac Zify.zify_post_hook ::= Z.div_mod_to_equations.

Section Algebra.
Context {Srr : Sroar} {Lw : SroarLaws Srr}.

Lemma reading_answer r blocks skip x d res : view r blocks -> skip = true \/ x <> None \/ d <> None ->
  aggregateSequential r (mkOpts skip x d 0) = Ok res -> aggregate_of (chosen x d blocks) res.
Proof.
  intros V Hx E.
  assert (U : uses_footer r (mkOpts skip x d 0) = false).
  { unfold uses_footer, has_filter. cbn [o_filter o_deny o_skip]. destruct x, d; try apply andb_false_r.
    destruct Hx as [->|[H|H]]; [|congruence|congruence]. cbn. rewrite ?andb_false_r. reflexivity. }
  rewrite (sequential_answer r blocks (mkOpts skip x d 0) V) in E by (rewrite U; discriminate). injection E as <-.
  pose proof (answer_aggregate r blocks (mkOpts skip x d 0) (v_indexed _ _ V)) as H. exact H.
Qed.

Theorem partition options faults h now w :
  finished_run options faults h now w -> faithful (encoding_of options) ->
  exists r, NewReader (bytes_of w) = Ok r
    /\ forall x d x1 d1 x2 d2 res res1 res2,
         (forall y, is_u64 y -> passes x d y = passes x1 d1 y || passes x2 d2 y) ->
         (forall y, is_u64 y -> passes x1 d1 y && passes x2 d2 y = false) ->
         aggregateSequential r (mkOpts true x d 0) = Ok res ->
         aggregateSequential r (mkOpts true x1 d1 0) = Ok res1 ->
         aggregateSequential r (mkOpts true x2 d2 0) = Ok res2 ->
         a_count res = a_count res1 + a_count res2
         /\ a_sum res = i64 (a_sum res1 + a_sum res2)
         /\ (0 < a_count res1 -> 0 < a_count res2 ->
             a_min res = Z.min (a_min res1) (a_min res2) /\ a_max res = Z.max (a_max res1) (a_max res2))
         /\ (0 < a_count res1 -> a_count res2 = 0 -> a_min res = a_min res1 /\ a_max res = a_max res1).
Proof.
  intros H He. destruct (finished_indexed options faults h now w H) as (r & blocks & HR & Hs & HI & HV).
  destruct (HV He) as [V C]. exists r. split; [exact HR|]. pose proof (v_good _ _ HI) as HG.
  intros x d x1 d1 x2 d2 res res1 res2 HU HD E E1 E2.
  pose proof (reading_answer r blocks true x d res V (or_introl eq_refl) E) as G.
  pose proof (reading_answer r blocks true x1 d1 res1 V (or_introl eq_refl) E1) as G1.
  pose proof (reading_answer r blocks true x2 d2 res2 V (or_introl eq_refl) E2) as G2.
  assert (HS : agg_split (chosen x d blocks) (chosen x1 d1 blocks) (chosen x2 d2 blocks)).
  { unfold chosen. apply filter_split; intros p Hp; pose proof (all_pairs_ids blocks p HG Hp) as Hu; [apply HU|apply HD]; exact Hu. }
  destruct HS as (S1 & S2 & S3 & S4).
  assert (Hp1 : 0 <= a_count res1) by (destruct G1 as (-> & _); apply zlen_nonneg).
  assert (Hp2 : 0 <= a_count res2) by (destruct G2 as (-> & _); apply zlen_nonneg).
  assert (HC : a_count res = a_count res1 + a_count res2).
  { destruct G as (-> & _), G1 as (-> & _), G2 as (-> & _). exact S1. }
  split; [exact HC|]. split.
  { destruct G as (_ & -> & _), G1 as (_ & -> & _), G2 as (_ & -> & _). rewrite S2, i64_add_l, i64_add_r. reflexivity. }
  pose proof (aggregate_lmin _ _ (chosen_i64 _ _ _ HG) G) as M. pose proof (aggregate_lmin _ _ (chosen_i64 _ _ _ HG) G1) as M1.
  pose proof (aggregate_lmin _ _ (chosen_i64 _ _ _ HG) G2) as M2.
  split.
  + intros P1 P2. destruct M as [-> ->]; [lia|]. destruct (M1 P1) as [-> ->], (M2 P2) as [-> ->]. auto.
  + intros P1 P2. destruct M as [-> ->]; [lia|]. destruct (M1 P1) as [-> ->]. rewrite S3, S4.
    assert (Hz : chosen x2 d2 blocks = []).
    { destruct G2 as (Hx & _). destruct (chosen x2 d2 blocks) as [|y l]; [reflexivity|]. rewrite zlen_cons in Hx. pose proof (zlen_nonneg l). lia. }
    rewrite Hz. pose proof (lmin_le (chosen x1 d1 blocks)). pose proof (lmax_ge (chosen x1 d1 blocks)).
    unfold lmin at 2, lmax at 2. cbn [fold_right]. split; lia.
Qed.

(** A file's own bitmap. *)
Theorem own_bitmap options faults h now w :
  finished_run options faults h now w -> faithful (encoding_of options) ->
  exists r blocks, NewReader (bytes_of w) = Ok r /\ contents h r blocks
    /\ forall hp, exists p r' hp' b, GetGlobalIDBitmap r hp = (Ok p, r', hp') /\ nth_error hp' p = Some b
       /\ forall skip allow deny,
            (exists res, aggregateSequential r (mkOpts skip (Some b) deny 0) = Ok res /\ aggregate_of (chosen None deny blocks) res)
            /\ (exists res, aggregateSequential r (mkOpts skip allow (Some b) 0) = Ok res /\ aggregate_of [] res).
Proof.
  intros H He. assert (Hty : Forall (fun p => typed_call (fst p)) h).
  { destruct H as [now0 w0 f0 cs outs w1 fin n _ _ Hty _ -> _ _ _ _]. clear - Hty. revert outs.
    induction Hty as [|c cs Hc _ IH]; intros [|o outs]; cbn [combine]; constructor; auto. }
  destruct (finished_facts options faults h now w H) as (blocks & A & X & L & off & Hef & HL & HF & Hlim & HX & _ & HR).
  pose proof (finalized_indexed _ _ _ _ _ _ _ _ HF Hlim) as HI. pose proof (finalized_view _ _ _ _ _ _ _ _ HF Hlim He) as V. rewrite HL in HI, V.
  set (bb := fold_left bm_set A bm_new) in *.
  pose proof (loadGlobalIDBitmap_finalized _ _ _ _ _ _ _ _ HF Hlim) as HB.
  destruct (law_ser bb) as (b' & Hb' & Heq). rewrite Hb' in HB.
  pose proof (v_good _ _ HI) as HG.
  assert (In_b : forall p, In p (all_pairs blocks) -> bm_contains b' (fst p) = true).
  { intros p Hp. pose proof (all_pairs_ids blocks p HG Hp) as Hu. rewrite (Heq _ Hu). destruct (effects_typed _ _ _ Hef Hty) as [HA _].
    unfold bb. apply bm_fold_contains; [assumption|assumption|]. left. eapply effects_ids; [exact Hef|].
    unfold all_pairs in Hp. apply in_flat_map in Hp. destruct Hp as (b & Hb & Hp). apply in_flat_map. exists b. split; [exact Hb|].
    unfold pairs_of in Hp. destruct p as [id v]. apply in_combine_l in Hp. exact Hp. }
  eexists _, blocks. split; [exact HR|].
  split. { split; [eapply effects_stored; exact Hef|]. split; [apply HI|exact (v_pairs _ _ V)]. }
  intros hp. exists (length hp), (the_reader (bytes_of w) now (encoding_of options) (target_of options) L bb off), (hp ++ [b']), b'.
  split; [unfold GetGlobalIDBitmap; cbn [the_reader r_globalIDs r_cacheGlobalIDs]; rewrite HB; reflexivity|].
  split; [rewrite nth_error_app2 by lia; rewrite Nat.sub_diag; reflexivity|].
  intros skip allow deny.
  assert (SA : forall x y, x <> None \/ y <> None -> exists res, aggregateSequential (the_reader (bytes_of w) now (encoding_of options) (target_of options) L bb off) (mkOpts skip x y 0) = Ok res /\ aggregate_of (chosen x y blocks) res).
  { intros x y Hxy. eexists. split.
    - apply (sequential_answer _ blocks (mkOpts skip x y 0) V). unfold uses_footer, has_filter. cbn [o_filter o_deny].
      destruct x, y; try (rewrite andb_false_r; discriminate). destruct Hxy; congruence.
    - exact (answer_aggregate _ blocks (mkOpts skip x y 0) HI). }
  split.
  - destruct (SA (Some b') deny ltac:(left; discriminate)) as (res & E & G). exists res. split; [exact E|].
    replace (chosen None deny blocks) with (chosen (Some b') deny blocks); [exact G|]. unfold chosen. f_equal. apply filter_ext_in. intros p Hp.
    unfold passes. rewrite (In_b p Hp). reflexivity.
  - destruct (SA allow (Some b') ltac:(right; discriminate)) as (res & E & G). exists res. split; [exact E|].
    replace (@nil Z) with (chosen allow (Some b') blocks); [exact G|]. unfold chosen.
    assert (Z0 : forall l : list (Z * Z), (forall p, In p l -> bm_contains b' (fst p) = true) -> filter (fun p => passes allow (Some b') (fst p)) l = []).
    { induction l as [|q l IH]; intros Hq; [reflexivity|]. cbn [filter]. unfold passes at 1. rewrite (Hq q (or_introl eq_refl)). rewrite andb_false_r.
      apply IH. intros q' Hq'. apply Hq. right. exact Hq'. }
    rewrite Z0 by exact In_b. reflexivity.
Qed.
End Algebra.
