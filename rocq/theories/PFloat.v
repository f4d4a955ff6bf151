(** Property C43: the average.  Only statements and concrete cases; proofs are in
    AvgFacts.v and FloatFacts.v, the specification of rounding in FloatSpec.v. *)
From Coq Require Import ZArith Reals Lra Lia Floats.SpecFloat.
From Verif Require Import Machine Encoding FileIO Sroar SroarFacts Writer Reader Aggregate Parallel Multi Spec FloatSpec AvgFacts FloatFacts Examples PAggregate.

Lemma nearest_of res : coherent res -> 0 < a_count res <= 2 ^ 53 -> Z.abs (a_sum res) <= 2 ^ 53 ->
  nearest_double (IZR (a_sum res) / IZR (a_count res)) (a_avg res).
Proof. intros (_ & _ & ->) Hc Hs. apply average_nearest; assumption. Qed.
Lemma general_of res : coherent res -> 0 < a_count res ->
  exists s c, nearest_to_integer (a_sum res) s /\ nearest_to_integer (a_count res) c /\ nearest_double (value s / value c) (a_avg res).
Proof.
  intros (Hs & Hn & ->) Hc. unfold is_i64, two63 in *. apply average_nearest_general; lia.
Qed.

(** C43: whatever the file, the options, the number of workers and their schedule, the
    average is the double nearest to the sum divided by the count, both as reported,
    when these are at most 2^53. *)
Theorem C43_average_nearest : forall {Srr : Sroar} gomaxprocs sched r opts res,
  AggregateWithOptions gomaxprocs sched r opts = Some (Ok res) ->
  0 < a_count res <= 2 ^ 53 -> Z.abs (a_sum res) <= 2 ^ 53 ->
  nearest_double (IZR (a_sum res) / IZR (a_count res)) (a_avg res).
Proof. intros Srr g sched r opts res H. apply nearest_of. eapply coherent_options, H. Qed.
Print Assumptions C43_average_nearest.
Theorem C43_multi_average_nearest : forall {Srr : Sroar} opts readers hp res readers' hp',
  MultiAggregate opts readers hp = (Ok res, readers', hp') ->
  0 < a_count res <= 2 ^ 53 -> Z.abs (a_sum res) <= 2 ^ 53 ->
  nearest_double (IZR (a_sum res) / IZR (a_count res)) (a_avg res).
Proof. intros Srr opts readers hp res readers' hp' H. apply nearest_of. eapply coherent_multi, H. Qed.
Print Assumptions C43_multi_average_nearest.

(** Beyond 2^53 there are three roundings: of the sum, of the count and of their
    quotient; *)
Theorem C43_average_general : forall {Srr : Sroar} gomaxprocs sched r opts res,
  AggregateWithOptions gomaxprocs sched r opts = Some (Ok res) -> 0 < a_count res ->
  exists s c, nearest_to_integer (a_sum res) s /\ nearest_to_integer (a_count res) c
    /\ nearest_double (value s / value c) (a_avg res).
Proof. intros Srr g sched r opts res H. apply general_of. eapply coherent_options, H. Qed.
Print Assumptions C43_average_general.

Definition big_values : list wcall := [CWriteBlock [1; 2; 3] [2 ^ 53 - 1; 1; 1]].
Definition big_writer : writer := final [] [] big_values 5.
Definition big_reader : reader := opened (NewReader (bytes_of big_writer)).
(** ... and the result need not be the nearest double: the average of 2^53-1, 1 and 1
    is an integer that is itself a double, and is not what is reported. *)
Theorem C43_large_refuted : exists h w r res, finished_run [] [] h 5 w /\ NewReader (bytes_of w) = Ok r
  /\ Aggregate r = Ok res /\ a_sum res = 2 ^ 53 + 1 /\ a_count res = 3
  /\ ~ nearest_double (IZR (a_sum res) / IZR (a_count res)) (a_avg res).
Proof.
  exists (hist [] [] big_values), big_writer, big_reader, (mkAgg 3 1 (2 ^ 53 - 1) (2 ^ 53 + 1) (S754_finite false 6004799503160661 (-1))).
  split; [unfold big_writer; apply check_finished_sound; vm_compute; reflexivity|].
  split; [unfold big_reader; apply opened_ok; vm_compute; reflexivity|].
  split; [vm_compute; reflexivity|]. split; [reflexivity|]. split; [reflexivity|].
  intros (_ & _ & N & _). cbn [a_sum a_count a_avg] in N.
  specialize (N 3002399751580331 0). assert (B : binary64 3002399751580331 0) by (split; cbn; lia). specialize (N B). clear B.
  change (2 ^ 53 + 1)%Z with (3 * 3002399751580331)%Z in N. rewrite mult_IZR in N.
  replace (3 * IZR 3002399751580331 / 3)%R with (IZR 3002399751580331) in N by field.
  unfold value in N. cbn [powerRZ pow] in N. change (Pos.to_nat 1) with 1%nat in N. cbn [pow] in N.
  rewrite !Rmult_1_r in N. rewrite (Rminus_diag_eq 3002399751580331 _ eq_refl), Rabs_R0 in N.
  assert (D : (6004799503160661 * / 2 - 3002399751580331 <> 0)%R) by lra.
  apply Rabs_pos_lt in D. lra.
Qed.
Print Assumptions C43_large_refuted.

(** The average of 10, -3 and 4 is not a double, and is rounded. *)
Example C43_case : exists res, AggregateWithOptions 4 [] agg_reader (mkOpts false None None 0) = Some (Ok res)
  /\ 0 < a_count res <= 2 ^ 53 /\ Z.abs (a_sum res) <= 2 ^ 53
  /\ a_avg res = S754_finite false 8256599316845909 (-51).
Proof. eexists. split; [vm_compute; reflexivity|]. cbn. repeat split; lia. Qed.
