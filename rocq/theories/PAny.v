(** Aggregating any file the reader accepts (C73).  Only statements and concrete cases;
    proofs are in AnyFacts.v. *)
From Verif Require Import Machine Encoding FileIO Sroar SroarFacts Writer Reader Aggregate Parallel Spec AnySpec MachineFacts ArbFacts AnyFacts
  Examples PAggregate PReader PMulti.

(** C73: on any bytes that the reader accepts, an aggregation that reads the data, with any
    filters, number of workers and schedule, returns the aggregate of exactly the passing
    values of the readable blocks, leaving out only blocks whose ID range in the index does
    not meet the allow set; it never panics (below 2^42 announced blocks). *)
Theorem C73_any_file : forall {Srr : Sroar} data r opts gomaxprocs sched x, Forall is_byte data -> NewReader data = Ok r ->
  Forall (fun e => 80 <= e_size e) (r_index r) -> BlockCount r <= 2 ^ 42 -> reads_data r opts ->
  zlen (all_taken r (o_filter opts) (o_deny opts)) < two63 ->
  AggregateWithOptions gomaxprocs sched r opts = Some x ->
  exists res, x = Ok res /\ aggregate_of (all_taken r (o_filter opts) (o_deny opts)) res.
Proof.
  intros Srr data r opts g sched x HB HR HS. apply any_scan; [|exact HS|eapply NewReader_index; eassumption].
  apply typed_counts. eapply NewReader_typed; eassumption.
Qed.
Print Assumptions C73_any_file.

(** It always returns: until it has, some goroutine can move, none has crashed, and no
    execution is longer than a bound. *)
Theorem C73_terminates : forall {Srr : Sroar} data r opts gomaxprocs, Forall is_byte data -> NewReader data = Ok r ->
  Forall (fun e => 80 <= e_size e) (r_index r) -> BlockCount r <= 2 ^ 42 -> reads_data r opts ->
  zlen (all_taken r (o_filter opts) (o_deny opts)) < two63 ->
  (exists x, forall sched, AggregateWithOptions gomaxprocs sched r opts = Some x)
  \/ exists blk idx n,
       (forall sched, AggregateWithOptions gomaxprocs sched r opts = outcome (run blk idx n sched (pinit n)))
       /\ (forall ts s, execution blk idx n (pinit n) ts s ->
             p_crashed s = false /\ (outcome s = None -> exists t s', step blk idx n s t = Some s'))
       /\ (exists bound, forall ts s, execution blk idx n (pinit n) ts s -> (length ts <= bound)%nat).
Proof.
  intros Srr data r opts g HB HR HS. apply any_terminates; [|exact HS|eapply NewReader_index; eassumption].
  apply typed_counts. eapply NewReader_typed; eassumption.
Qed.
Print Assumptions C73_terminates.

(** If the ID ranges in the index are true of the readable blocks, or there is no allow
    set, a filtered aggregation is exact over the readable pairs. *)
Theorem C73_exact : forall {Srr : Sroar} {Laws : SroarLaws Srr} data r allow deny, Forall is_byte data -> NewReader data = Ok r ->
  BlockCount r < two63 -> allow <> None \/ deny <> None -> allow = None \/ ranges_true r ->
  all_taken r allow deny = map snd (filter (fun p => passes allow deny (fst p)) (readable_pairs r)).
Proof.
  intros Srr Laws data r allow deny HB HR HN HU [->|HT].
  - unfold all_taken, readable_pairs. destruct deny as [d|]; [|destruct HU; congruence]. clear.
    induction (zseq (BlockCount r)) as [|i l IH]; [reflexivity|]. cbn [flat_map]. rewrite List.filter_app, map_app, IH. f_equal.
    unfold taken. destruct (GetPairs r i) as [[ids vals]| |]; reflexivity.
  - apply taken_exact; try assumption; [|apply typed_counts; eapply NewReader_typed; eassumption].
    rewrite (NewReader_data data r HR). exact HB.
Qed.
Print Assumptions C73_exact.

(** An aggregation that does not read the data repeats what the index claims, whether or
    not the blocks are there. *)
Theorem C73_index_believed : forall {Srr : Sroar} data r gomaxprocs sched, Forall is_byte data -> NewReader data = Ok r -> r_index r <> [] ->
  exists res, AggregateWithOptions gomaxprocs sched r (mkOpts false None None 0) = Some (Ok res) /\ as_claimed (r_index r) res.
Proof. intros Srr data r g sched HB HR Hne. apply index_claims; [eapply NewReader_typed; eassumption|exact Hne|reflexivity]. Qed.
Print Assumptions C73_index_believed.

(** In parallel too, if the header and the index agree on the number of blocks and the
    index claims no empty block. *)
Theorem C73_index_parallel : forall {Srr : Sroar} data r gomaxprocs sched workers x, Forall is_byte data -> NewReader data = Ok r ->
  BlockCount r = zlen (r_index r) -> r_index r <> [] -> Forall (fun e => 0 < e_count e) (r_index r) -> zsum (map e_count (r_index r)) < two63 ->
  AggregateWithOptions gomaxprocs sched r (mkOpts false None None workers) = Some x ->
  AggregateWithOptions gomaxprocs [] r (mkOpts false None None 0) = Some x.
Proof.
  intros Srr data r g sched workers x HB HR HC Hne HP HZ. pose proof (NewReader_typed data r HB HR) as HT.
  apply index_parallel; try assumption; [eapply NewReader_small; eassumption|].
  rewrite Forall_forall in *. intros e He. split; [apply HP; exact He|]. destruct (HT e He) as (_ & _ & _ & _ & _ & _ & _ & H).
  unfold is_u32, two32, two63 in *. lia.
Qed.
Print Assumptions C73_index_parallel.

(** A file whose index holds what one likes. *)
Definition craft_claim (offset size minID maxID minValue maxValue sum count : Z) : list Z :=
  le_bytes 8 offset ++ le_bytes 4 size ++ le_bytes 8 minID ++ le_bytes 8 maxID ++ le_bytes 8 minValue ++ le_bytes 8 maxValue
  ++ le_bytes 8 sum ++ le_bytes 4 count.
(** Block 0 and 1 hold the pair (7, 9), but the index places block 1 elsewhere; block 2
    cannot be read; the header announces a fourth. *)
Definition odd_file : list Z :=
  craft_header 4 0 ++ craft_block (le_bytes 8 7) (le_bytes 8 9)
  ++ craft_footer [craft_claim 64 96 7 7 9 9 9 1; craft_claim 64 96 100 200 1 2 3 1; craft_claim 66 96 7 7 0 0 0 1].
Definition odd_reader : reader := opened (NewReader odd_file).
Example C73_case : Forall is_byte odd_file /\ NewReader odd_file = Ok odd_reader
  /\ Forall (fun e => 80 <= e_size e) (r_index odd_reader) /\ BlockCount odd_reader = 4
  /\ all_taken odd_reader (Some [3; 7]) None = [9] /\ all_taken odd_reader None (Some [3]) = [9; 9]
  /\ readable_pairs odd_reader = [(7, 9); (7, 9)]
  /\ option_map counts (AggregateWithOptions 4 [] odd_reader (mkOpts false (Some [3; 7]) None 0)) = Some (Some (1, 9, 9, 9))
  /\ option_map counts (AggregateWithOptions 4 [] odd_reader (mkOpts false None (Some [3]) 0)) = Some (Some (2, 9, 9, 18))
  /\ option_map counts (AggregateWithOptions 4 [] odd_reader (mkOpts false None None 0)) = Some (Some (3, 0, 9, 12)).
Proof.
  split; [apply bytesb_sound; vm_compute; reflexivity|]. split; [unfold odd_reader; apply opened_ok; vm_compute; reflexivity|].
  split; [apply sizesb_sound; vm_compute; reflexivity|]. repeat (split; [vm_compute; reflexivity|]). vm_compute. reflexivity.
Qed.

(** The claim that with an allow set every readable pair that passes is counted, on any
    accepted file, is false: in [odd_file] the allowed ID 7 of block 1 is left out. *)
Theorem C73_exact_refuted : exists data r allow res, Forall is_byte data /\ NewReader data = Ok r
  /\ Forall (fun e => 80 <= e_size e) (r_index r)
  /\ aggregateSequential r (mkOpts true (Some allow) None 0) = Ok res
  /\ a_count res <> zlen (filter (fun p => passes (Some allow) None (fst p)) (readable_pairs r)).
Proof.
  destruct C73_case as (A & B & C & _). exists odd_file, odd_reader, [7]. eexists.
  split; [exact A|]. split; [exact B|]. split; [exact C|]. split; [vm_compute; reflexivity|]. vm_compute. discriminate.
Qed.
Print Assumptions C73_exact_refuted.

(** The claim that parallel aggregation does not depend on the schedule, on any accepted
    file, is false: an index that claims an empty block with statistics gives a minimum
    of 5 or of 7, depending on which of two workers finishes first. *)
Definition racy_file : list Z := craft_header 2 0 ++ craft_footer [craft_claim 64 96 1 1 5 5 0 0; craft_claim 64 96 2 2 7 7 7 1].
Definition first_then_second : list nat := [0;0;0;0;0; 1;1;1;1;1; 2;2;2;2;2; 0;0;0;0;0;0]%nat.
Definition second_then_first : list nat := [0;0;0;0;0; 2;2;2;2;2; 1;1;1;1;1; 0;0;0;0;0;0]%nat.
Theorem C73_parallel_deterministic_refuted : exists data r sched1 sched2, Forall is_byte data /\ NewReader data = Ok r
  /\ BlockCount r = zlen (r_index r) /\ Forall (fun e => 80 <= e_size e) (r_index r)
  /\ option_map counts (AggregateWithOptions 4 sched1 r (mkOpts false None None 2)) = Some (Some (1, 7, 7, 7))
  /\ option_map counts (AggregateWithOptions 4 sched2 r (mkOpts false None None 2)) = Some (Some (1, 5, 7, 7)).
Proof.
  exists racy_file, (opened (NewReader racy_file)), first_then_second, second_then_first.
  split; [apply bytesb_sound; vm_compute; reflexivity|]. split; [apply opened_ok; vm_compute; reflexivity|].
  split; [vm_compute; reflexivity|]. split; [apply sizesb_sound; vm_compute; reflexivity|]. split; vm_compute; reflexivity.
Qed.
Print Assumptions C73_parallel_deterministic_refuted.
