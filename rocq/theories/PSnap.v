(** C62: an open Reader is a snapshot.  Statements and cases; proofs in SnapFacts.v. *)
From Coq Require Import Lia ZArith.
From Verif Require Import Machine MachineFacts Encoding Sroar SroarFacts FileIO FileFacts Writer Spec FinalFacts Reader ReaderFacts Aggregate Parallel Multi AggFacts
  Examples PAggregate PReader PWriter StopSpec PStop PLive SnapSpec SnapFacts.
Local Open Scope Z_scope.

(** C62: a Reader is opened on a finished file.  Whatever the writer does with the file
    from then on -- more blocks, more Finalizes, Close, with any failures of the system calls
    and wherever it is interrupted -- as long as no Finalize failed while it rewrote the
    header, and whichever moments the reads happen at, the Reader answers all requests as
    it did at first; the cache may be in any state. *)
Theorem C62_snapshot : forall {Srr : Sroar} options faults h now w r p on d,
  finished_run options faults h now w -> NewReader (bytes_of w) = Ok r -> seen_later w d ->
  let r1 := set_cache r p on in
  (forall i, GetPairs (on_bytes d r1) i = GetPairs r1 i)
  /\ (forall hp, fst (fst (GetGlobalIDBitmap (on_bytes d r1) hp)) = fst (fst (GetGlobalIDBitmap r1 hp))
        /\ snd (GetGlobalIDBitmap (on_bytes d r1) hp) = snd (GetGlobalIDBitmap r1 hp))
  /\ (forall gomaxprocs sched opts, AggregateWithOptions gomaxprocs sched (on_bytes d r1) opts = AggregateWithOptions gomaxprocs sched r1 opts).
Proof.
  intros Srr options faults h now w r p on d H Hr Hd r1. pose proof (finished_same _ _ _ _ _ r d p on H Hr Hd) as S. fold r1 in S.
  split; [intros i; unfold GetPairs; rewrite (proj1 S); reflexivity|]. split; [|intros g sched opts; apply aggregate_same; exact S].
  intros hp. rewrite (bitmap_same d r1 hp S). destruct (GetGlobalIDBitmap r1 hp) as [[a b] c]. split; reflexivity.
Qed.
Print Assumptions C62_snapshot.

(** C62, in terms of the data: the blocks read are those stored before the file was opened. *)
Theorem C62_blocks : forall {Srr : Sroar} options faults h now w,
  finished_run options faults h now w -> faithful (encoding_of options) ->
  exists r blocks, stored h blocks /\ NewReader (bytes_of w) = Ok r
    /\ forall d, seen_later w d -> BlockCount (on_bytes d r) = zlen blocks
         /\ forall i, is_u64 i -> GetPairs (on_bytes d r) i = match nth_error blocks (Z.to_nat i) with
                                                             | Some b => Ok b | None => Err ErrIndex end.
Proof.
  intros Srr options faults h now w H F. destruct (C07_blocks_read_back options faults h now w H F) as (r & blocks & S & Hr & B & G).
  exists r, blocks. split; [exact S|]. split; [exact Hr|]. intros d Hd. split; [exact B|]. intros i Hi. rewrite <- (G i Hi).
  pose proof (finished_same _ _ _ _ _ r d (r_globalIDs r) (r_cacheGlobalIDs r) H Hr Hd) as [S' _]. unfold GetPairs. specialize (S' (i64 i)). destruct r. change (set_cache _ _ _) with (mkReader r_data r_open r_header r_meta r_index r_globalIDs r_cacheGlobalIDs) in S'. rewrite S'. reflexivity.
Qed.
Print Assumptions C62_blocks.

(** C62, for several files: each Reader was opened on a finished file and its file was
    used further since; a multi-reader aggregation has the answer it would have had. *)
Theorem C62_multi : forall {Srr : Sroar} opts rs rs' hp,
  Forall2 (fun r r' => exists options faults h now w r0 p on d, finished_run options faults h now w /\ NewReader (bytes_of w) = Ok r0 /\ seen_later w d
     /\ r = set_cache r0 p on /\ r' = on_bytes d r) rs rs' ->
  fst (fst (MultiAggregate opts rs' hp)) = fst (fst (MultiAggregate opts rs hp)).
Proof.
  intros Srr opts rs rs' hp H. apply multi_same. induction H as [|r r' rs rs' (options & faults & h & now & w & r0 & p & on & d & H1 & H2 & H3 & -> & ->) _ IH]; constructor; [|exact IH].
  exists d. split; [|reflexivity]. eapply finished_same; eassumption.
Qed.
Print Assumptions C62_multi.

(** C62, for files changed by anybody: what is read of a block depends on that block's bytes
    only (without its header): changes elsewhere do not matter. *)
Theorem C62_frame : forall {Srr : Sroar} options faults h now w r d i,
  finished_run options faults h now w -> NewReader (bytes_of w) = Ok r -> 0 <= i < two63 ->
  (forall e, nth_error (r_index r) (Z.to_nat i) = Some e -> slice d (e_offset e + 64) (e_size e - 64) = slice (bytes_of w) (e_offset e + 64) (e_size e - 64)) ->
  GetPairs (on_bytes d r) i = GetPairs r i.
Proof.
  intros Srr options faults h now w r d i H Hr Hi HS. destruct (finished_needs _ _ _ _ _ _ H Hr) as (E & (N1 & _ & _ & _ & N5 & _) & _).
  unfold GetPairs. rewrite i64_id by (unfold is_i64, two63 in *; lia). rewrite (block_frame r d i); [reflexivity|]. intros e He. pose proof (nth_error_In _ _ He) as Hin. rewrite Forall_forall in N1. destruct (N1 e Hin) as (A & B & C).
  split; [exact A|]. split; [exact B|]. split; [lia|]. rewrite E. apply HS. exact He.
Qed.
Print Assumptions C62_frame.

(** A file used further: another block, another Finalize (which rewrites header, bitmap and
    footer of the file that is open), Close. *)
Definition snap_calls : list wcall := [CWriteBlock [5] [1]].
Definition snap_w (faults : list fault) : writer := final [] faults snap_calls 9.
Definition snap_reader (faults : list fault) : reader := opened (NewReader (bytes_of (snap_w faults))).
Definition snap_later : list wcall := [CWriteBlock [7; 2] [3; 4]; CFinalize 10].
Definition snap_bytes (faults : list fault) (cs : list wcall) : list Z := bytes_of (snd (run_calls cs (snap_w faults))).
Definition pairs_shown (x : res (list Z * list Z)) : option (list Z * list Z) := match x with Ok p => Some p | _ => None end.
Lemma snap_finished faults : check_finished [] faults snap_calls 9 = true -> finished_run [] faults (hist [] faults snap_calls) 9 (snap_w faults).
Proof. intros H. apply check_finished_sound. exact H. Qed.
(** The file as it is after some more calls is one the Reader may find. *)
Lemma snap_seen faults cs c : finalizes_ok cs (snap_w faults) ->
  let w := snd (run_calls cs (snap_w faults)) in seen_later (snap_w faults) (bytes_of (snd (run_call c (withf w [])))).
Proof.
  intros H w. assert (L : later (snap_w faults) (bytes_of (snd (run_call c (withf w []))))) by (exists cs, c, []; split; [exact H|reflexivity]).
  split; [eexists; split; [exact L|reflexivity]|]. intros p b Hb. eexists. split; [exact L|exact Hb].
Qed.
(** A Reader of a file with one block; the writer adds a block of two pairs and finalizes
    again.  The file is then twice as long and a new Reader finds both blocks; the first
    Reader finds what it found before. *)
Definition snap_now : list Z := bytes_of (snd (run_call (CFinalize 10) (withf (snd (run_calls [CWriteBlock [7; 2] [3; 4]] (snap_w []))) []))).
Example C62_case : finished_run [] [] (hist [] [] snap_calls) 9 (snap_w []) /\ NewReader (bytes_of (snap_w [])) = Ok (snap_reader [])
  /\ seen_later (snap_w []) snap_now
  /\ zlen (bytes_of (snap_w [])) = 8276 /\ zlen snap_now = 16524
  /\ blocks_shown (NewReader snap_now) = Some (2, Ok ([5], [1]), Ok ([7; 2], [3; 4]))
  /\ pairs_shown (GetPairs (on_bytes snap_now (snap_reader [])) 0) = Some ([5], [1]).
Proof.
  split; [apply snap_finished; vm_compute; reflexivity|].
  split; [unfold snap_reader; apply opened_ok; vm_compute; reflexivity|].
  split; [apply snap_seen; apply all_ok_finalizes; vm_compute; reflexivity|].
  split; [vm_compute; reflexivity|]. split; [vm_compute; reflexivity|]. split; vm_compute; reflexivity.
Qed.

(** C62 needs that no Finalize failed while it rewrote the header: the second Finalize
    fails in the fourth field of the header (the program is told so), and the next WriteBlock, which reports
    success, overwrites the first block; the open Reader no longer can read it. *)
Definition header_failure : list fault := fault_at 81 0.
Theorem C62_header_fault_refuted :
  finished_run [] header_failure (hist [] header_failure snap_calls) 9 (snap_w header_failure)
  /\ NewReader (bytes_of (snap_w header_failure)) = Ok (snap_reader header_failure)
  /\ pairs_shown (GetPairs (snap_reader header_failure) 0) = Some ([5], [1])
  /\ map is_ok (fst (run_calls [CFinalize 10; CWriteBlock [7] [3]] (snap_w header_failure))) = [false; true]
  /\ GetPairs (on_bytes (snap_bytes header_failure [CFinalize 10; CWriteBlock [7] [3]]) (snap_reader header_failure)) 0 = Err ErrSection.
Proof.
  split; [apply snap_finished; vm_compute; reflexivity|].
  split; [unfold snap_reader; apply opened_ok; vm_compute; reflexivity|].
  split; [vm_compute; reflexivity|]. split; vm_compute; reflexivity.
Qed.
Print Assumptions C62_header_fault_refuted.

(** C62 is about one writer: if the file is created again under the same name (NewWriter
    truncates it in place), a Reader that has it open reports pairs of the new file as
    those of the old one, without any error, while its Aggregate still answers for the old
    file. *)
Definition other_file : list Z := bytes_of (final [] [] [CWriteBlock [6] [100]] 11).
Theorem C62_replaced_refuted :
  pairs_shown (GetPairs (snap_reader []) 0) = Some ([5], [1])
  /\ pairs_shown (GetPairs (on_bytes other_file (snap_reader [])) 0) = Some ([6], [100])
  /\ Aggregate (on_bytes other_file (snap_reader [])) = Aggregate (snap_reader [])
  /\ exists avg, Aggregate (snap_reader []) = Ok (mkAgg 1 1 1 1 avg).
Proof.
  split; [vm_compute; reflexivity|]. split; [vm_compute; reflexivity|]. split; [vm_compute; reflexivity|]. eexists. vm_compute. reflexivity.
Qed.
Print Assumptions C62_replaced_refuted.
