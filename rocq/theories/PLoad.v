(** The load test tool (C54).  Only statements and concrete cases; proofs are in
    LoadFacts.v and DrawFacts.v. *)
From Coq Require Import Sorting.Permutation.
From Verif Require Import Machine MachineFacts Encoding Sroar SroarFacts FileIO Writer SimpleWriter Reader Aggregate Parallel Spec SimpleSpec
  Loadtest LoadSpec LoadFacts DrawFacts PAggregate PSimple.

(** C54: whatever the random numbers, the sort, the clock, the block size and the I/O
    errors: an import of [n] values (none, if [n] is negative) that ends with status 0 says
    "n values, n items", and
    the file holds exactly the generated pairs, batch after batch, each batch stably
    ordered by ID if it was not ordered; the aggregate command on that file, under any
    schedule, prints version 1, encoding 7, the number of blocks, the aggregate of exactly
    the generated values and a full scan of [n] values, whether or not the stored
    statistics are used and with any number of workers. *)
Theorem C54_import_complete : forall {Srr : Sroar} {Laws : SroarLaws Srr} draws srt maxValue maxID now0 now faults n blockSize rep sw,
  sorts srt -> is_i64 maxValue -> n + 10000 < two63 ->
  runImport draws srt now0 now faults n blockSize maxValue maxID = (Finished rep, Some sw) ->
  exists batches, generated draws maxValue maxID n 0 batches /\ zlen (concat batches) = Z.max 0 n /\ rep = mkImport (Z.max 0 n) (Z.max 0 n)
    /\ (fits (sw_writer sw) (file_of sw) ->
        exists r blocks outs, NewReader (file_of sw) = Ok r /\ BlockCount r = zlen blocks
          /\ (forall i, is_u64 i -> GetPairs r i = match nth_error blocks (Z.to_nat i) with Some b => Ok b | None => Err ErrIndex end)
          /\ Forall2 arrives batches outs /\ all_pairs blocks = concat outs
          /\ forall gomaxprocs sched skip parallel x,
               skip = true \/ (sensible maxValue maxID /\ maxValue <= 2 ^ 34) ->
               runAggregate gomaxprocs sched (file_of sw) skip parallel = Some x ->
               exists res, x = Finished (mkReport 1 EncodingVarIntBoth (zlen blocks) res
                   (if parallel =? 0 then None else Some (if parallel <? 0 then gomaxprocs else parallel)) (Some (Z.max 0 n)))
                 /\ aggregate_of (map snd (concat batches)) res).
Proof. exact @import_complete. Qed.
Print Assumptions C54_import_complete.

(** C54: with sensible parameters and no I/O error the import ends with status 0. *)
Theorem C54_import_succeeds : forall {Srr : Sroar} draws srt maxValue maxID now0 now faults n blockSize,
  sorts srt -> n + 10000 < two63 -> sensible maxValue maxID -> fault_free faults ->
  exists rep sw, runImport draws srt now0 now faults n blockSize maxValue maxID = (Finished rep, Some sw).
Proof.
  intros Srr draws srt maxValue maxID now0 now faults n blockSize Hs Hn HS HF. apply import_succeeds; try assumption.
  destruct HS as [HS _]. unfold is_i64. lia.
Qed.
Print Assumptions C54_import_succeeds.

(** C54: the generated IDs stay below [maxID + 100000], and the values within a twentieth
    of [maxValue] of the range 0..maxValue. *)
Theorem C54_value_bounds : forall draws maxValue maxID n k batches,
  sensible maxValue maxID -> maxValue < 2 ^ 62 -> generated draws maxValue maxID n k batches ->
  Forall (fun p => 0 <= fst p < maxID + 100000 /\ - (maxValue / 20) <= snd p < maxValue + maxValue / 20 + 1) (concat batches).
Proof. exact @generated_near. Qed.
Print Assumptions C54_value_bounds.

(** C54: every random number is used once, in the order drawn: for each pair one or two
    for the ID (a small step from the ID before in nine of ten cases, except at the start
    of a batch of 10000), then two for the value (near the ID, in seven of ten cases). *)
Theorem C54_generator : forall draws maxValue maxID n k batches,
  sensible maxValue maxID -> generated draws maxValue maxID n k batches ->
  exists used, batches_drawn maxValue maxID n used batches /\ used = map draws (seq k (length used)).
Proof. intros draws maxValue maxID n k batches HS. exact (generated_draws draws maxValue maxID HS n k batches). Qed.
Print Assumptions C54_generator.
Definition gen_draws (k : nat) : Z := nth k [123; 6; 77; 8; 3; 7; 61; 19; 250; 31; 45] 0.
Example C54_generator_case : sensible 100 50 /\ generated gen_draws 100 50 3 0 [[(23, 25); (27, 61); (0, 0)]].
Proof.
  split; [unfold sensible, two63; lia|]. eapply generated_more with (ids := [23; 27; 0]) (vals := [25; 61; 0]); [lia|vm_compute; reflexivity|apply generated_none; lia].
Qed.

(** C54: [-max-id] of 0 (or beyond the int64 range) always crashes an import of at least
    one value, unless the file cannot be created. *)
Theorem C54_no_ids_crash : forall {Srr : Sroar} draws srt now0 now faults n blockSize maxValue maxID,
  1 <= n -> i64 maxID <= 0 ->
  fst (runImport draws srt now0 now faults n blockSize maxValue maxID) <> Stopped ->
  fst (runImport draws srt now0 now faults n blockSize maxValue maxID) = Crash.
Proof. exact @no_ids_crash. Qed.
Print Assumptions C54_no_ids_crash.

(** A run: random numbers 48, 59, 92, ...; five values, [-max-value 100 -max-id 50]. *)
Definition ld_draws (k : nat) : Z := 48 + 11 * Z.of_nat k * Z.of_nat k.
Definition ld_run : ended importReport * option swriter := runImport ld_draws isort 1 2 [] 5 4096 100 50.
Definition ld_writer (x : ended importReport * option swriter) : swriter := match snd x with Some sw => sw | None => no_swriter end.
Definition ld_ok (x : ended importReport * option swriter) : bool :=
  match x with (Finished _, Some sw) => fitsb sw | _ => false end.
Lemma ld_ok_sound x : ld_ok x = true -> exists rep, x = (Finished rep, Some (ld_writer x)) /\ fits (sw_writer (ld_writer x)) (file_of (ld_writer x)).
Proof.
  destruct x as [[rep| |] [sw|]]; cbn; try discriminate. intros H. exists rep. split; [reflexivity|]. apply fits_sound. exact H.
Qed.
Definition ld_pairs : list (Z * Z) :=
  match makeBatch ld_draws 100 50 5 None 0 with Ok (ids, vals, _) => combine ids vals | _ => [] end.
Example C54_case : sorts isort /\ sensible 100 50 /\ 100 <= 2 ^ 34 /\ fault_free []
  /\ (exists rep, ld_run = (Finished rep, Some (ld_writer ld_run)) /\ fits (sw_writer (ld_writer ld_run)) (file_of (ld_writer ld_run)))
  /\ ld_pairs = [(48, 92); (53, 52); (56, 48); (32, 4); (37, 12)]
  /\ exists avg, runAggregate 4 [] (file_of (ld_writer ld_run)) false 0 = Some (Finished (mkReport 1 7 1 (mkAgg 5 4 92 208 avg) None (Some 5))).
Proof.
  split; [exact isort_sorts|]. split; [unfold sensible, two63; lia|]. split; [lia|]. split; [constructor|].
  split; [apply ld_ok_sound; vm_compute; reflexivity|]. split; [vm_compute; reflexivity|]. eexists. vm_compute. reflexivity.
Qed.

(** C54, "-max-value is the maximum value" and "values are not negative" are false: *)
Theorem C54_max_value_refuted :
  (exists draws ids k, makeBatch draws 1000000 20000000 1 None 0 = Ok (ids, [-50000], k))
  /\ (exists draws ids k, makeBatch draws 1000000 20000000 1 None 0 = Ok (ids, [1049998], k)).
Proof.
  split.
  - exists (fun _ => 0). eexists _, _. vm_compute. reflexivity.
  - exists (fun k => match k with 0%nat => 999999 | 1%nat => 0 | _ => 99999 end). eexists _, _. vm_compute. reflexivity.
Qed.
Print Assumptions C54_max_value_refuted.

(** C54: [-max-value] below 10 can crash the import. *)
Theorem C54_small_max_refuted : forall {Srr : Sroar} maxValue, 1 <= maxValue < 10 ->
  exists draws, forall srt now0 now n blockSize maxID, sorts srt -> 1 <= n ->
    fst (runImport draws srt now0 now [] n blockSize maxValue maxID) = Crash.
Proof. exact @small_max_crash. Qed.
Print Assumptions C54_small_max_refuted.
