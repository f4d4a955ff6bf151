(** Every aggregate result carries the average of its own sum and count. *)
From Coq Require Import Floats.SpecFloat.
From Verif Require Import Machine Encoding Sroar Writer Reader Aggregate Parallel Multi MachineFacts.
From Coq Require Import Lia ZifyBool.

Definition coherent (res : aggResult) : Prop :=
  is_i64 (a_sum res) /\ is_i64 (a_count res) /\ a_avg res = average (a_sum res) (a_count res).

Lemma i64_ok x : is_i64 (i64 x).
Proof. apply i64_range. Qed.
Lemma coherent_zero : coherent zeroResult.
Proof. repeat split; cbn; unfold is_i64, two63; lia. Qed.

Definition typed_acc (a : acc) : Prop := is_i64 (c_sum a) /\ is_i64 (c_count a).
Lemma typed_acc0 : typed_acc acc0.
Proof. split; cbn; unfold is_i64, two63; lia. Qed.
Lemma coherent_result a : typed_acc a -> coherent (result_of a).
Proof. intros [H1 H2]. split; [exact H1|]. split; [exact H2|]. reflexivity. Qed.
Lemma typed_add_entry a e : typed_acc (add_entry a e).
Proof. split; cbn; apply i64_ok. Qed.
Lemma typed_add_values a vs : typed_acc a -> typed_acc (add_values a vs).
Proof.
  intros [H1 H2]. unfold add_values. set (a0 := mkAcc _ _ _ _). assert (T : typed_acc a0) by (split; cbn; [exact H1|apply i64_ok]).
  clearbody a0. clear H1 H2. revert a0 T. induction vs as [|v vs IH]; intros a0 T; cbn [fold_left]; [exact T|].
  apply IH. destruct T as [_ T]. split; cbn; [apply i64_ok|exact T].
Qed.
Lemma typed_add_block a b a' : typed_acc a -> add_block a b = Ok a' -> typed_acc a'.
Proof.
  intros T. unfold add_block. destruct b as [[ids vs]|e|]; intros H; [|injection H as <-; exact T|discriminate].
  injection H as <-. apply typed_add_values, T.
Qed.
Lemma typed_fold l a : typed_acc a -> typed_acc (fold_left add_entry l a).
Proof. revert a. induction l as [|e l IH]; intros a T; cbn [fold_left]; [exact T|]. apply IH, typed_add_entry. Qed.
Lemma typed_scan get idx : forall a a', typed_acc a -> scan get idx a = Ok a' -> typed_acc a'.
Proof.
  induction idx as [|i idx IH]; intros a a' T; cbn [scan]; [intros H; injection H as <-; exact T|].
  unfold rbind. destruct (add_block a (get i)) as [a1|e|] eqn:E; try discriminate. intros H.
  eapply IH; [|exact H]. eapply typed_add_block; eassumption.
Qed.

Section Agg.
Context {Srr : Sroar}.

Lemma coherent_sequential r opts res : aggregateSequential r opts = Ok res -> coherent res.
Proof.
  unfold aggregateSequential, aggregateWithFilter, rbind. destruct (has_filter opts).
  - destruct (FilteredBlockIterator r _ _) as [l|e|]; try discriminate. destruct (zlen l =? 0); [intros H; injection H as <-; exact coherent_zero|].
    destruct (scan _ _ _) as [a|e|] eqn:E; try discriminate. intros H; injection H as <-.
    apply coherent_result. eapply typed_scan; [exact typed_acc0|exact E].
  - destruct (_ && _); [intros H; injection H as <-; apply coherent_result, typed_fold, typed_acc0|].
    destruct (scan _ _ _) as [a|e|] eqn:E; try discriminate. intros H; injection H as <-.
    apply coherent_result. eapply typed_scan; [exact typed_acc0|exact E].
Qed.

(** What the calling goroutine has merged so far. *)
Definition merging (s : pstate) : Prop :=
  match p_main s with
  | MMerge fin tc ts => a_count fin = tc /\ a_avg fin = f64_zero /\ is_i64 ts /\ is_i64 tc
  | MDone res => coherent res
  | _ => True
  end.
Lemma merging_run blk idx n sched : forall s, merging s -> merging (run blk idx n sched s).
Proof.
  induction sched as [|t sched IH]; intros s H; cbn [run]; [exact H|]. apply IH.
  destruct (step blk idx n s t) as [s'|] eqn:E; [|exact H]. unfold step in E. destruct (p_crashed s); [discriminate|].
  destruct t as [|w].
  - unfold step_main in E. unfold merging in H. destruct (p_main s) as [k|k| | |fin tc ts|res] eqn:M.
    + destruct (Nat.ltb k n); injection E as <-; exact I.
    + injection E as <-; exact I.
    + destruct (p_wg s =? 0); [injection E as <-; exact I|discriminate].
    + injection E as <-. cbn. repeat split; unfold is_i64, two63; lia.
    + destruct H as (H1 & H2 & H3 & H4). destruct (p_chan s) as [|r c].
      * destruct (p_closed s); [|discriminate]. injection E as <-. unfold merging, finish. cbn.
        split; [exact H3|]. split; cbn; [rewrite H1; exact H4|]. rewrite H1, H2. unfold average. destruct (tc >? 0); reflexivity.
      * injection E as <-. unfold merging. cbn. rewrite H1. split; [reflexivity|]. split; [exact H2|]. split; apply i64_ok.
    + discriminate.
  - assert (K : p_main s' = p_main s).
    { unfold step_worker in E. destruct (nth_error (p_workers s) w) as [[| |[|i todo] a|r| |]|]; try discriminate.
      - destruct (workerBlocks idx n w); injection E as <-; reflexivity.
      - injection E as <-; reflexivity.
      - destruct (blk i a); injection E as <-; reflexivity.
      - destruct (p_closed s); [injection E as <-; reflexivity|]. destruct (Nat.ltb _ _); [injection E as <-; reflexivity|discriminate].
      - destruct (p_wg s <=? 0); injection E as <-; reflexivity. }
    unfold merging. rewrite K. exact H.
Qed.
Lemma coherent_outcome blk idx n sched res : outcome (run blk idx n sched (pinit n)) = Some (Ok res) -> coherent res.
Proof.
  intros H. pose proof (merging_run blk idx n sched (pinit n) I) as M. unfold outcome, merging in *.
  destruct (p_crashed _); [discriminate|]. destruct (p_main _); try discriminate. injection H as <-. exact M.
Qed.
Lemma coherent_options g sched r opts res : AggregateWithOptions g sched r opts = Some (Ok res) -> coherent res.
Proof.
  unfold AggregateWithOptions. destruct (_ =? 0); [intros H; injection H as H; eapply coherent_sequential, H|].
  destruct (parallelPlan g r opts); intros H.
  - injection H as H. eapply coherent_sequential, H.
  - injection H as <-. exact coherent_zero.
  - discriminate.
  - eapply coherent_outcome, H.
  - eapply coherent_outcome, H.
Qed.

Lemma coherent_merge a b : coherent a -> coherent b -> coherent (mergeAggregateResults a b).
Proof.
  intros A B. unfold mergeAggregateResults. destruct (a_count a =? 0); [exact B|]. destruct (a_count b =? 0); [exact A|].
  split; [apply i64_ok|]. split; [apply i64_ok|reflexivity].
Qed.
Lemma coherent_loop opts readers : forall deny result h res rs h', coherent result ->
  multiLoop opts readers deny result h = (Ok res, rs, h') -> coherent res.
Proof.
  induction readers as [|r readers IH]; intros deny result h res rs h' C; cbn [multiLoop]; [intros H; injection H as <- _ _; exact C|].
  destruct (aggregateSequential r _) as [rr|e|] eqn:E; try discriminate. apply coherent_sequential in E.
  destruct (GetGlobalIDBitmap r h) as [[[p|e|] r'] h1]; try discriminate.
  destruct (nth_error h1 p) as [g|]; [|discriminate].
  destruct (multiLoop _ readers _ _ h1) as [[x xs] h2] eqn:L. intros H; injection H as -> _ _.
  eapply IH; [|exact L]. destruct (_ =? 0); [exact E|apply coherent_merge; assumption].
Qed.
Lemma coherent_multi opts readers h res rs h' : MultiAggregate opts readers h = (Ok res, rs, h') -> coherent res.
Proof.
  unfold MultiAggregate. destruct (_ =? 0); [intros H; injection H as <- _ _; exact coherent_zero|].
  destruct (multiLoop _ _ _ _ _) as [[x xs] h2] eqn:L. intros H; injection H as -> _ _. eapply coherent_loop; [exact coherent_zero|exact L].
Qed.
End Agg.
