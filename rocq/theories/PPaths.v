(** Several Writers at once (C83).  Only statements and concrete cases; proofs are in
    PathsFacts.v. *)
From Verif Require Import Machine MachineFacts Encoding FileIO Sroar SroarFacts Writer Reader Aggregate Spec WriterProps Examples PWriter Parallel SnapSpec Paths PathsSpec PathsFacts.
From Verif Require AnyFacts.
From Coq Require Import Lia.
Local Open Scope Z_scope.

(** Whatever was done before, with this path and any others ([before]): NewWriter starts the
    file anew, and as long as it is [undisturbed] -- others work on other paths, or only
    close or ask older Writers of this path, or these are closed already -- every call
    on it returns, and the file holds, what they would if there were nothing else.  If
    NewWriter fails, the old contents are gone as well. *)
Theorem C83_as_if_alone : forall {Srr : Sroar} path_of before i now options faults acts d0,
  let d := snd (perform_all path_of before d0) in
  undisturbed path_of i d acts ->
  let after := perform_all path_of (Create i now options faults :: acts) d in
  snd (perform_all path_of (before ++ Create i now options faults :: acts) d0) = snd after
  /\ match NewWriter now options faults with
     | (Ok w0, _) => forall outs w, run_calls (calls_of i acts) w0 = (outs, w) ->
         on_path (snd after) (path_of i) = bytes_of w /\ writer_of (snd after) i = Some w /\ outcomes_of i acts (tl (fst after)) = outs
     | (_, f) => on_path (snd after) (path_of i) = f_data f
     end.
Proof. intros Srr path_of before i now options faults acts d0 d U after. split; [apply perform_app|]. apply as_if_alone. exact U. Qed.
Print Assumptions C83_as_if_alone.

(** So each of any number of files written at the same time reads back what was stored in
    it: Writer [i] is created, any calls on it are made among the doings of the others, and
    its last call is a Finalize that reports success. *)
Theorem C83_reads_back : forall {Srr : Sroar} path_of i now options faults acts d w0 f0 cs fin t,
  undisturbed path_of i d acts -> NewWriter now options faults = (Ok w0, f0) ->
  Forall typed_option options -> Forall typed_call cs -> finalizes_ok cs w0 -> finalizing fin t -> faithful (encoding_of options) ->
  calls_of i acts = cs ++ [fin] ->
  forall outs d', perform_all path_of (Create i now options faults :: acts) d = (Some (Ok 0) :: outs, d') ->
  last (outcomes_of i acts outs) Panic = Ok 0 ->
  (forall w, writer_of d' i = Some w -> fits w (on_path d' (path_of i))) ->
  exists r blocks, stored (combine cs (outcomes_of i acts outs)) blocks
    /\ NewReader (on_path d' (path_of i)) = Ok r /\ BlockCount r = zlen blocks
    /\ forall k, is_u64 k -> GetPairs r k = match nth_error blocks (Z.to_nat k) with Some b => Ok b | None => Err ErrIndex end.
Proof.
  intros Srr path_of i now options faults acts d w0 f0 cs fin t U N TO TC FO FI FA EC outs d' P L FT.
  pose proof (as_if_alone path_of i now options faults acts d U) as A. cbv zeta in A. rewrite N in A. rewrite P in A. cbn [fst snd tl] in A.
  destruct (run_calls (calls_of i acts) w0) as [os w] eqn:ER. destruct (A os w eq_refl) as (A1 & A2 & A3). rewrite A3 in *. clear A.
  rewrite EC in ER. destruct (run_calls cs w0) as [os1 w1] eqn:E1.
  assert (RA : forall cs u, run_calls (cs ++ [fin]) u = (fst (run_calls cs u) ++ [fst (run_call fin (snd (run_calls cs u)))], snd (run_call fin (snd (run_calls cs u))))).
  { clear. induction cs as [|c cs IH]; intros u; cbn [app run_calls].
    - cbn [fst snd app]. destruct (run_call fin u) as [o u1]. reflexivity.
    - destruct (run_call c u) as [o u1]. rewrite IH. destruct (run_calls cs u1) as [os u2]. reflexivity. }
  rewrite RA, E1 in ER. cbn [fst snd] in ER. destruct (run_call fin w1) as [o w2] eqn:E2. cbn [fst snd] in ER. assert (os = os1 ++ [o] /\ w = w2) as [-> ->] by (split; congruence).
  rewrite last_last in L. subst o.
  assert (F : finished_run options faults (combine cs os1) t w2).
  { econstructor; try eassumption; [reflexivity|]. rewrite <- A1. apply FT. exact A2. }
  assert (LE : length cs = length os1).
  { replace os1 with (fst (run_calls cs w0)) by (rewrite E1; reflexivity). clear. revert w0. induction cs as [|c cs IH]; intros u; [reflexivity|]. cbn [run_calls].
    destruct (run_call c u) as [o u1]. specialize (IH u1). destruct (run_calls cs u1). cbn [length fst] in *. congruence. }
  assert (CB : combine cs (os1 ++ [Ok 0]) = combine cs os1).
  { clear - LE. revert os1 LE. induction cs as [|c cs IH]; intros [|o os1] LE; try discriminate; [reflexivity|]. cbn [combine app]. rewrite IH by (cbn in LE; congruence). reflexivity. }
  rewrite CB, A1. exact (C07_blocks_read_back options faults (combine cs os1) t w2 F FA).
Qed.
Print Assumptions C83_reads_back.

(** A Reader that is open on path [p], whatever file that is, while other Writers come and go
    and nobody writes this path: all its answers are as before (also from the cache), and
    opening the path again gives the same. *)
Theorem C83_open_reader : forall {Srr : Sroar} path_of p d acts r c on,
  (forall a, In a acts -> spares path_of p d a) -> NewReader (on_path d p) = Ok r ->
  let now_there := on_path (snd (perform_all path_of acts d)) p in
  NewReader now_there = Ok r
  /\ (forall i, GetPairs (on_bytes now_there (set_cache r c on)) i = GetPairs (set_cache r c on) i)
  /\ (forall h, GetGlobalIDBitmap (on_bytes now_there (set_cache r c on)) h = GetGlobalIDBitmap (set_cache r c on) h)
  /\ (forall gomaxprocs sched opts, AggregateWithOptions gomaxprocs sched (on_bytes now_there (set_cache r c on)) opts
                                    = AggregateWithOptions gomaxprocs sched (set_cache r c on) opts).
Proof.
  intros Srr path_of p d acts r c on U N now_there.
  assert (E : now_there = on_path d p) by (apply (spared path_of p d acts d); [intros j _ H; exact H|exact U]).
  assert (D : r_data r = on_path d p) by (apply AnyFacts.NewReader_data; exact N).
  assert (B : on_bytes now_there (set_cache r c on) = set_cache r c on) by (rewrite E, <- D; destruct r; reflexivity).
  rewrite B. split; [rewrite E; exact N|]. split; [reflexivity|]. split; reflexivity.
Qed.
Print Assumptions C83_open_reader.

(** ** Cases *)
Definition empty_disk : disk := mkDisk (fun _ => []) (fun _ => None).
(** Variables 0 and 2 have path 0, variable 1 has path 1. *)
Definition paths3 (i : nat) : nat := match i with 1 => 1 | _ => 0 end%nat.
(** Variable 2 writes path 0 anew while variable 1 writes path 1; the old Writer on path 0
    was finalized and is closed in between. *)
Definition busy_before : list act := [Create 0 1 [] []; Create 1 2 [] []; Do 0 (CWriteBlock [5] [50]); Do 0 (CFinalize 3)].
Definition busy_acts : list act :=
  [Do 2 (CWriteBlock [7; 8] [70; 80]); Do 1 (CWriteBlock [1] [10]); Do 0 CClose; Do 2 (CWriteBlock [9] [90]); Do 1 (CFinalize 6); Do 2 (CFinalize 7)].
Definition pairs_at (i : Z) (x : res reader) : option (list Z * list Z) :=
  match x with Ok r => match GetPairs r i with Ok p => Some p | _ => None end | _ => None end.
Example C83_case :
  let d := snd (perform_all paths3 busy_before empty_disk) in
  let after := perform_all paths3 (Create 2 5 [] [] :: busy_acts) d in
  undisturbed paths3 2 d busy_acts /\ undisturbed paths3 1 empty_disk (Do 0 CClose :: busy_acts)
  /\ pairs_at 0 (NewReader (on_path d 0%nat)) = Some ([5], [50])
  /\ outcomes_of 2 busy_acts (tl (fst after)) = [Ok 0; Ok 0; Ok 0]
  /\ pairs_at 0 (NewReader (on_path (snd after) 0%nat)) = Some ([7; 8], [70; 80])
  /\ pairs_at 1 (NewReader (on_path (snd after) 0%nat)) = Some ([9], [90])
  /\ pairs_at 0 (NewReader (on_path (snd after) 1%nat)) = Some ([1], [10]).
Proof.
  cbv zeta. split; [|split].
  - intros a [<-|[<-|[<-|[<-|[<-|[<-|[]]]]]]]; cbn [who Nat.eqb]; try reflexivity; try (left; discriminate).
    right. split; [reflexivity|]. right. exists CClose. split; reflexivity.
  - intros a [<-|[<-|[<-|[<-|[<-|[<-|[<-|[]]]]]]]]; cbn [who Nat.eqb]; try reflexivity; left; discriminate.
  - vm_compute. tauto.
Qed.

Lemma fits_check (w : writer) bytes : (zlen bytes <? two63) && (56 * w_blockCount w <? two32) && (zlen (bm_ser (w_ids w)) <? two32) = true -> fits w bytes.
Proof. intros H. rewrite !Bool.andb_true_iff in H. destruct H as [[H1 H2] H3]. constructor; lia. Qed.
Lemma fits_disk (x : option writer) bytes :
  match x with Some w => (zlen bytes <? two63) && (56 * w_blockCount w <? two32) && (zlen (bm_ser (w_ids w)) <? two32) | None => true end = true ->
  forall w, x = Some w -> fits w bytes.
Proof. intros H w ->. apply fits_check. exact H. Qed.
(** The hypotheses of C83_reads_back in that case. *)
Example C83_reads_back_case :
  let d := snd (perform_all paths3 busy_before empty_disk) in
  let after := perform_all paths3 (Create 2 5 [] [] :: busy_acts) d in
  is_ok (fst (NewWriter 5 [] [])) = true /\ hd None (fst after) = Some (Ok 0)
  /\ Forall typed_call [CWriteBlock [7; 8] [70; 80]; CWriteBlock [9] [90]] /\ faithful (encoding_of [])
  /\ (forall w0, finalizes_ok [CWriteBlock [7; 8] [70; 80]; CWriteBlock [9] [90]] w0) /\ finalizing (CFinalize 7) 7
  /\ calls_of 2 busy_acts = [CWriteBlock [7; 8] [70; 80]; CWriteBlock [9] [90]] ++ [CFinalize 7]
  /\ last (outcomes_of 2 busy_acts (tl (fst after))) Panic = Ok 0
  /\ (forall w, writer_of (snd after) 2 = Some w -> fits w (on_path (snd after) (paths3 2))).
Proof.
  cbv zeta. split; [vm_compute; reflexivity|]. split; [vm_compute; reflexivity|]. split.
  { repeat constructor; unfold typed_block, is_u64, is_i64; repeat constructor; vm_compute; congruence. }
  split; [left; reflexivity|]. split; [intros w0; split; [discriminate|]; split; [discriminate|exact I]|]. split; [left; reflexivity|].
  split; [reflexivity|]. split; [vm_compute; reflexivity|]. apply fits_disk. vm_compute. reflexivity.
Qed.

(** False: that two Writers in use on one path give a file of one of them, or an error.
    Both are created, both write a block, both Finalizes report success; the file opens,
    shows the pairs of the second Writer, and its index, aggregate and ID bitmap are
    those of the first. *)
Definition clash_acts : list act :=
  [Create 0 1 [] []; Create 2 2 [] []; Do 0 (CWriteBlock [5] [50]); Do 2 (CWriteBlock [7] [70]); Do 2 (CFinalize 3); Do 0 (CFinalize 4)].
Definition sum_of (x : res reader) : option Z :=
  match x with Ok r => match Aggregate r with Ok a => Some (a_sum a) | _ => None end | _ => None end.
Theorem C83_two_writers_refuted :
  let '(outs, d) := perform_all paths3 clash_acts empty_disk in
  outs = [Some (Ok 0); Some (Ok 0); Some (Ok 0); Some (Ok 0); Some (Ok 0); Some (Ok 0)]
  /\ pairs_at 0 (NewReader (on_path d 0%nat)) = Some ([7], [70]) /\ sum_of (NewReader (on_path d 0%nat)) = Some 50.
Proof. vm_compute. tauto. Qed.
Print Assumptions C83_two_writers_refuted.

(** False: that a Reader keeps its snapshot when its path is created anew, or notices.  A file
    with one block is finalized, closed and opened; then NewWriter on the same path, another
    block and a Finalize, all successful.  The Reader, which had ID 5 with value 50, now gives ID 7
    with value 70 for its block, reports no error, and its aggregate over the index is still 50
    when its aggregate over the data is 70. *)
Definition recreated_acts : list act := [Create 2 4 [] []; Do 2 (CWriteBlock [7] [70]); Do 2 (CFinalizeAndClose 5)].
Definition agg_sum (x : option (res aggResult)) : option Z := match x with Some (Ok a) => Some (a_sum a) | _ => None end.
Theorem C83_open_reader_refuted :
  let d := snd (perform_all paths3 [Create 0 1 [] []; Do 0 (CWriteBlock [5] [50]); Do 0 (CFinalizeAndClose 3)] empty_disk) in
  let '(outs, d') := perform_all paths3 recreated_acts d in
  outs = [Some (Ok 0); Some (Ok 0); Some (Ok 0)]
  /\ match NewReader (on_path d 0%nat) with
     | Ok r => let r' := on_bytes (on_path d' 0%nat) r in
         GetPairs r 0 = Ok ([5], [50]) /\ GetPairs r' 0 = Ok ([7], [70])
         /\ agg_sum (AggregateWithOptions 4 [] r' (mkOpts false None None 0)) = Some 50
         /\ agg_sum (AggregateWithOptions 4 [] r' (mkOpts true None None 0)) = Some 70
     | _ => False
     end.
Proof. vm_compute. tauto. Qed.
Print Assumptions C83_open_reader_refuted.
(** The premise of C83_open_reader, met: path 1 is written and the closed Writer of path 0 is
    asked for estimates and closed again. *)
Example C83_spares_case :
  let d := snd (perform_all paths3 [Create 0 1 [] []; Do 0 (CWriteBlock [5] [50]); Do 0 (CFinalize 3)] empty_disk) in
  let acts := [Create 1 4 [] []; Do 1 (CWriteBlock [7] [70]); Do 0 CClose; Do 0 (CEstimate [1] [1]); Do 1 (CFinalizeAndClose 5)] in
  (forall a, In a acts -> spares paths3 0 d a)
  /\ match NewReader (on_path d 0%nat) with Ok _ => True | _ => False end
  /\ on_path (snd (perform_all paths3 acts d)) 1%nat <> on_path d 1%nat.
Proof.
  cbv zeta. split; [|split; [vm_compute; exact I|vm_compute; discriminate]].
  intros a [<-|[<-|[<-|[<-|[<-|[]]]]]]; try (left; discriminate); right; (split; [reflexivity|]); right; eexists; split; reflexivity.
Qed.
