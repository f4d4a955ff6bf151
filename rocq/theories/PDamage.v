(** Damage stays where it is (C79).  Only statements and concrete cases; proofs are in
    DamageFacts.v. *)
From Verif Require Import Machine Encoding FileIO Sroar SroarFacts Writer Reader Aggregate Parallel Spec AnySpec DamageSpec MachineFacts ArbFacts
  AnyFacts DamageFacts Examples PAggregate PReader PMulti PAny.

(** C79: take any file the reader accepts and change any of its bytes outside the file
    header and the footer.  It still opens, with the same header and index; every block
    none of whose section bytes changed reads back as before; the ID bitmap is as before if
    none of its bytes changed; and every aggregation, with any filters, number of workers
    and schedule, is as before unless a block that matters to it was changed: one that the
    aggregation reads, and that the index does not rule out. *)
Theorem C79_any_file : forall {Srr : Sroar} X data data' r, Forall is_byte data -> NewReader data = Ok r ->
  same_outside X data data' -> avoids X (opening_part r) ->
  exists r', NewReader data' = Ok r' /\ r_header r' = r_header r /\ r_meta r' = r_meta r /\ r_index r' = r_index r
    /\ (forall i, is_u64 i -> avoids X (block_part r i) -> GetPairs r' i = GetPairs r i)
    /\ (avoids X (bitmap_part r) -> forall hp,
          fst (fst (GetGlobalIDBitmap r' hp)) = fst (fst (GetGlobalIDBitmap r hp))
          /\ snd (GetGlobalIDBitmap r' hp) = snd (GetGlobalIDBitmap r hp))
    /\ (forall opts, (forall i, is_u64 i -> matters r opts i -> avoids X (block_part r i)) ->
          forall gomaxprocs sched, AggregateWithOptions gomaxprocs sched r' opts = AggregateWithOptions gomaxprocs sched r opts).
Proof. exact @any_file. Qed.
Print Assumptions C79_any_file.

(** Otherwise an aggregation returns the aggregate of what the undamaged blocks contributed
    before and whatever the damaged ones now show; it does not panic. *)
Theorem C79_damaged_blocks : forall {Srr : Sroar} X data data' r opts, Forall is_byte data -> Forall is_byte data' -> NewReader data = Ok r ->
  same_outside X data data' -> avoids X (opening_part r) ->
  Forall (fun e => 80 <= e_size e) (r_index r) -> BlockCount r <= 2 ^ 42 -> reads_data r opts ->
  exists r', NewReader data' = Ok r' /\ BlockCount r' = BlockCount r
    /\ (forall i, is_u64 i -> avoids X (block_part r i) ->
          taken r' (o_filter opts) (o_deny opts) i = taken r (o_filter opts) (o_deny opts) i)
    /\ (zlen (all_taken r' (o_filter opts) (o_deny opts)) < two63 ->
        forall gomaxprocs sched x, AggregateWithOptions gomaxprocs sched r' opts = Some x ->
        exists res, x = Ok res
          /\ aggregate_of (flat_map (taken r' (o_filter opts) (o_deny opts)) (zseq (BlockCount r))) res).
Proof.
  intros Srr X data data' r opts HB HB' HR HS HA HZ HN HU.
  destruct (any_file X data data' r HB HR HS HA) as (r' & E1 & E2 & E3 & E4 & E5 & _ & _).
  assert (EC : BlockCount r' = BlockCount r) by (unfold BlockCount; rewrite E2; reflexivity).
  exists r'. split; [exact E1|]. split; [exact EC|]. split.
  - intros i Hi Ha. apply taken_same; [exact E4|]. apply E5; assumption.
  - intros HT g sched x HX. rewrite <- EC. apply (C73_any_file data' r' opts g sched x HB' E1); try assumption.
    + rewrite E4. exact HZ.
    + rewrite EC. exact HN.
    + unfold reads_data. rewrite E4. exact HU.
Qed.
Print Assumptions C79_damaged_blocks.

(** For a file this library finished, whatever happens to the bytes of some of its blocks
    (their headers and padding included): it opens as before, all other blocks read back
    exactly as stored, the ID bitmap is as before, and so is every aggregation to which no
    damaged block matters -- all that use the index only, and those filtered to IDs outside
    the ranges of the damaged blocks. *)
Theorem C79_finished : forall {Srr : Sroar} options faults h now w,
  finished_run options faults h now w -> never_finalized h -> faithful (encoding_of options) ->
  exists r blocks, NewReader (bytes_of w) = Ok r /\ stored h blocks
    /\ forall J data', same_outside (in_blocks r J) (bytes_of w) data' ->
       exists r', NewReader data' = Ok r' /\ r_header r' = r_header r /\ r_meta r' = r_meta r /\ r_index r' = r_index r
         /\ (forall i b, nth_error blocks i = Some b -> ~ J (Z.of_nat i) -> GetPairs r' (Z.of_nat i) = Ok b)
         /\ (forall hp, fst (fst (GetGlobalIDBitmap r' hp)) = fst (fst (GetGlobalIDBitmap r hp))
                        /\ snd (GetGlobalIDBitmap r' hp) = snd (GetGlobalIDBitmap r hp))
         /\ (forall opts, (forall i, J i -> ~ matters r opts i) ->
               forall gomaxprocs sched, AggregateWithOptions gomaxprocs sched r' opts = AggregateWithOptions gomaxprocs sched r opts).
Proof. exact @finished_damage. Qed.
Print Assumptions C79_finished.

(** ** Cases *)
(** The file of C19_case with byte 144, the first ID of its first block, overwritten. *)
Definition put (k : nat) (x : Z) (l : list Z) : list Z := firstn k l ++ x :: skipn (S k) l.
Lemma put_nth x : forall k l j, j <> k -> (k < length l)%nat -> nth_error (put k x l) j = nth_error l j.
Proof.
  unfold put. induction k as [|k IH]; intros l j Hj Hl; destruct l as [|y l]; cbn [length] in Hl; try lia.
  - destruct j; [congruence|reflexivity].
  - destruct j as [|j]; [reflexivity|]. cbn. apply IH; lia.
Qed.
Lemma put_outside (X : Z -> Prop) k x l : (k <? length l)%nat = true -> X (Z.of_nat k) -> same_outside X l (put k x l).
Proof.
  intros H HX. apply Nat.ltb_lt in H. split.
  - unfold zlen, put. rewrite app_length. cbn [length]. rewrite firstn_length, skipn_length. lia.
  - intros p Hp Hn. apply put_nth; [|exact H]. intros E. apply Hn. replace p with (Z.of_nat k) by lia. exact HX.
Qed.
Definition hurt_data : list Z := put 144 6 (bytes_of agg_writer).
Definition hurt_reader : reader := opened (NewReader hurt_data).
Example C79_case :
  finished_run agg_options [] agg_history 12 agg_writer /\ never_finalized agg_history /\ faithful (encoding_of agg_options)
  /\ NewReader (bytes_of agg_writer) = Ok agg_reader
  /\ same_outside (in_blocks agg_reader (fun i => i = 0)) (bytes_of agg_writer) hurt_data
  /\ (forall i, i = 0 -> ~ matters agg_reader (mkOpts false (Some [7; 8]) None 2) i)
  /\ NewReader hurt_data = Ok hurt_reader
  /\ GetPairs agg_reader 0 = Ok ([5; 2], [10; -3]) /\ GetPairs hurt_reader 0 = Ok ([6; 3], [10; -3])
  /\ GetPairs hurt_reader 1 = Ok ([7], [4])
  /\ counts (aggregateSequential hurt_reader (mkOpts false (Some [7; 8]) None 0)) = Some (1, 4, 4, 4).
Proof.
  split; [apply agg_finished|]. split.
  { intros c r Hin. apply in_combine_l in Hin. cbn in Hin. decompose [or] Hin; subst; try reflexivity; contradiction. }
  split; [exact agg_faithful|]. split; [apply agg_finished|]. split.
  { apply put_outside; [vm_compute; reflexivity|]. exists 0, (nth 0 (r_index agg_reader) (mkEntry 0 0 0 0 0 0 0 0)).
    split; [lia|]. split; [reflexivity|]. split; [vm_compute; reflexivity|]. split; vm_compute; congruence. }
  split.
  { intros i -> [_ H]. revert H. vm_compute. discriminate. }
  split; [apply opened_ok; vm_compute; reflexivity|].
  split; [vm_compute; reflexivity|]. split; [vm_compute; reflexivity|]. split; vm_compute; reflexivity.
Qed.

(** The file header is another matter: with one byte of it changed (the encoding), the file
    opens, and a block none of whose bytes changed reads back differently, without an
    error. *)
Theorem C79_header_refuted : exists data' r', same_outside (fun p => p = 32) (bytes_of agg_writer) data'
  /\ finished_run agg_options [] agg_history 12 agg_writer /\ NewReader (bytes_of agg_writer) = Ok agg_reader
  /\ NewReader data' = Ok r'
  /\ GetPairs agg_reader 0 = Ok ([5; 2], [10; -3]) /\ (exists b, GetPairs r' 0 = Ok b /\ b <> ([5; 2], [10; -3])).
Proof.
  exists (put 32 4 (bytes_of agg_writer)), (opened (NewReader (put 32 4 (bytes_of agg_writer)))).
  split; [apply put_outside; [vm_compute; reflexivity|reflexivity]|]. split; [apply agg_finished|]. split; [apply agg_finished|].
  split; [apply opened_ok; vm_compute; reflexivity|]. split; [vm_compute; reflexivity|].
  eexists. split; [vm_compute; reflexivity|discriminate].
Qed.
Print Assumptions C79_header_refuted.
