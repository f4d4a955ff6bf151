(** More about filters (C23).  Only statements and concrete cases; proofs are in
    AlgebraFacts.v. *)
From Verif Require Import Machine Encoding FileIO Sroar SroarFacts Writer Reader Aggregate Spec MachineFacts AlgebraFacts Examples PAggregate PReader PMulti.

(** C23: whichever allow and deny sets are used, if the IDs that pass one pair of them are
    split among two others, the results add up. *)
Theorem C23_partition : forall {Srr : Sroar} {Laws : SroarLaws Srr} options faults h now w,
  finished_run options faults h now w -> faithful (encoding_of options) ->
  exists r, NewReader (bytes_of w) = Ok r
    /\ forall x d x1 d1 x2 d2 res res1 res2,
         (forall y, is_u64 y -> passes x d y = passes x1 d1 y || passes x2 d2 y) ->
         (forall y, is_u64 y -> passes x1 d1 y && passes x2 d2 y = false) ->
         aggregateSequential r (mkOpts true x d 0) = Ok res ->
         aggregateSequential r (mkOpts true x1 d1 0) = Ok res1 ->
         aggregateSequential r (mkOpts true x2 d2 0) = Ok res2 ->
         a_count res = a_count res1 + a_count res2
         /\ a_sum res = i64 (a_sum res1 + a_sum res2)
         /\ (0 < a_count res1 -> 0 < a_count res2 ->
             a_min res = Z.min (a_min res1) (a_min res2) /\ a_max res = Z.max (a_max res1) (a_max res2))
         /\ (0 < a_count res1 -> a_count res2 = 0 -> a_min res = a_min res1 /\ a_max res = a_max res1).
Proof. exact @partition. Qed.
Print Assumptions C23_partition.

(** So allowing a set and denying it together give the whole. *)
Theorem C23_complement : forall {Srr : Sroar} {Laws : SroarLaws Srr} options faults h now w,
  finished_run options faults h now w -> faithful (encoding_of options) ->
  exists r, NewReader (bytes_of w) = Ok r
    /\ forall a all inside outside,
         aggregateSequential r (mkOpts true None None 0) = Ok all ->
         aggregateSequential r (mkOpts true (Some a) None 0) = Ok inside ->
         aggregateSequential r (mkOpts true None (Some a) 0) = Ok outside ->
         a_count all = a_count inside + a_count outside /\ a_sum all = i64 (a_sum inside + a_sum outside).
Proof.
  intros Srr Laws options faults h now w H He. destruct (partition options faults h now w H He) as (r & HR & HP). exists r. split; [exact HR|].
  intros a all inside outside E E1 E2.
  destruct (HP None None (Some a) None None (Some a) all inside outside) as (A & B & _); try assumption.
  - intros y _. unfold passes. cbn [negb]. rewrite andb_true_r. destruct (bm_contains a y); reflexivity.
  - intros y _. unfold passes. cbn [negb]. rewrite andb_true_r. destruct (bm_contains a y); reflexivity.
  - split; assumption.
Qed.
Print Assumptions C23_complement.

(** A file's own ID bitmap as allow set is no filter at all; as deny set it leaves nothing. *)
Theorem C23_own_bitmap : forall {Srr : Sroar} {Laws : SroarLaws Srr} options faults h now w,
  finished_run options faults h now w -> faithful (encoding_of options) ->
  exists r blocks, NewReader (bytes_of w) = Ok r /\ contents h r blocks
    /\ forall hp, exists p r' hp' b, GetGlobalIDBitmap r hp = (Ok p, r', hp') /\ nth_error hp' p = Some b
       /\ forall skip allow deny,
            (exists res, aggregateSequential r (mkOpts skip (Some b) deny 0) = Ok res /\ aggregate_of (chosen None deny blocks) res)
            /\ (exists res, aggregateSequential r (mkOpts skip allow (Some b) 0) = Ok res /\ aggregate_of [] res).
Proof. exact @own_bitmap. Qed.
Print Assumptions C23_own_bitmap.

Example C23_more_case : SroarLaws list_sroar /\ finished_run agg_options [] agg_history 12 agg_writer /\ faithful (encoding_of agg_options)
  /\ NewReader (bytes_of agg_writer) = Ok agg_reader
  /\ counts (aggregateSequential agg_reader (mkOpts true None None 0)) = Some (3, -3, 10, 11)
  /\ counts (aggregateSequential agg_reader (mkOpts true (Some [2; 7; 9]) None 0)) = Some (2, -3, 4, 1)
  /\ counts (aggregateSequential agg_reader (mkOpts true None (Some [2; 7; 9]) 0)) = Some (1, 10, 10, 10)
  /\ (let '(p, _, hp) := GetGlobalIDBitmap agg_reader [] in p = Ok 0%nat /\ hp = [[7; 2; 5]])
  /\ counts (aggregateSequential agg_reader (mkOpts false (Some [7; 2; 5]) None 0)) = Some (3, -3, 10, 11)
  /\ counts (aggregateSequential agg_reader (mkOpts false None (Some [7; 2; 5]) 0)) = Some (0, max_int64, min_int64, 0).
Proof.
  split; [exact list_sroar_laws|]. split; [apply agg_finished|]. split; [exact agg_faithful|]. split; [apply agg_finished|].
  vm_compute. tauto.
Qed.
