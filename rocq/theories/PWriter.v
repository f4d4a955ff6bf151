(** Properties of the block writer (C07-C14, C28, C37, C40-C42, C45).  Only statements
    and concrete cases; proofs are in WriterProps.v. *)
From Verif Require Import Machine Encoding FileIO Sroar SroarFacts Writer Reader Spec WriterProps Examples.

(** Blocks that are stored, one that is refused, and a Finalize in between; used as the
    concrete case below. *)
Definition sample_options (e : Z) : list writerOption := [WithEncoding e; WithBlockSize 4096].
Definition sample_calls : list wcall :=
  [ CWriteBlock [3; 1; 18446744073709551615] [min_int64; -7; max_int64];
    CWriteBlock [1] [];
    CEstimate [4; 5] [6; 7];
    CWriteBlock [250; 1; 2] [-5000; 70; 12345678901] ].
Definition sample_calls2 : list wcall :=
  sample_calls ++ [ CFinalize 11; CWriteBlock [9; 9] [0; 0] ].
Lemma sample_finished : forall e, In e [0; 1; 2; 3; 4; 7] ->
  finished_run (sample_options e) [] (hist (sample_options e) [] sample_calls2) 12 (final (sample_options e) [] sample_calls2 12).
Proof. intros e [<-|[<-|[<-|[<-|[<-|[<-|[]]]]]]]; apply check_finished_sound; vm_compute; reflexivity. Qed.

(** C07: after any history, if Finalize reports success, the file opens, has as many
    blocks as were stored, and each reads back unchanged. *)
Theorem C07_blocks_read_back : forall {Srr : Sroar} options faults h now w,
  finished_run options faults h now w -> faithful (encoding_of options) ->
  exists r blocks, stored h blocks /\ NewReader (bytes_of w) = Ok r /\ BlockCount r = zlen blocks
    /\ forall i, is_u64 i ->
         GetPairs r i = match nth_error blocks (Z.to_nat i) with
                        | Some b => Ok b
                        | None => Err ErrIndex
                        end.
Proof. exact @blocks_read_back. Qed.
Print Assumptions C07_blocks_read_back.
Example C07_case : forall e, In e [0; 3; 4; 7] ->
  finished_run (sample_options e) [] (hist (sample_options e) [] sample_calls2) 12 (final (sample_options e) [] sample_calls2 12)
  /\ faithful (encoding_of (sample_options e))
  /\ map snd (hist (sample_options e) [] sample_calls2) = [Ok 0; Err ErrLength; Ok 4096; Ok 0; Ok 0; Ok 0].
Proof.
  intros e He. split; [apply sample_finished; cbn in *; tauto|].
  destruct He as [<-|[<-|[<-|[<-|[]]]]]; (split; [vm_compute; tauto|vm_compute; reflexivity]).
Qed.

(** C07, total form: without system call failures nothing else can go wrong.  Every
    well formed block is written (whole, or a reported non-empty part), every Finalize
    succeeds. *)
Theorem C07_no_faults_no_errors : forall {Srr : Sroar} now0 options faults cs,
  fault_free faults -> Forall typed_option options -> consistent (encoding_of options) ->
  Forall typed_call cs -> (forall c, In c cs -> is_closing c = false) ->
  exists w0 f0 outs w, NewWriter now0 options faults = (Ok w0, f0)
    /\ run_calls cs w0 = (outs, w) /\ Forall2 expected cs outs
    /\ running options faults (combine cs outs) w
    /\ forall now, fst (run_call (CFinalize now) w) = Ok 0 /\ fst (run_call (CFinalizeAndClose now) w) = Ok 0.
Proof. exact @no_faults_no_errors. Qed.
Print Assumptions C07_no_faults_no_errors.
Example C07_no_faults_case : fault_free [] /\ Forall typed_option (sample_options 3)
  /\ consistent (encoding_of (sample_options 3)) /\ Forall typed_call sample_calls2
  /\ (forall c, In c sample_calls2 -> is_closing c = false).
Proof.
  split; [constructor|]. split; [eapply forallb_Forall'; [apply typed_optionb_sound|vm_compute; reflexivity]|].
  split; [vm_compute; tauto|]. split; [eapply forallb_Forall'; [apply typed_callb_sound|vm_compute; reflexivity]|].
  intros c Hin. cbn in Hin. decompose [or] Hin; subst; try reflexivity; contradiction.
Qed.

(** C08: delta-ID gives back the values still delta-coded, delta-value gives back the
    IDs still delta-coded ... *)
Theorem C08_single_delta_reads_back_coded : forall {Srr : Sroar} options faults h now w,
  finished_run options faults h now w ->
  encoding_of options = EncodingDeltaID \/ encoding_of options = EncodingDeltaValue ->
  exists r blocks, stored h blocks /\ NewReader (bytes_of w) = Ok r /\ BlockCount r = zlen blocks
    /\ forall i, is_u64 i ->
         GetPairs r i = match nth_error blocks (Z.to_nat i) with
                        | Some b => Ok (if encoding_of options =? EncodingDeltaID then (fst b, deltaEncodeInt64 (snd b))
                                        else (deltaEncode (fst b), snd b))
                        | None => Err ErrIndex
                        end.
Proof. exact @delta_single_read_back. Qed.
Print Assumptions C08_single_delta_reads_back_coded.
(** ... so the full claim is false for four of the eight encodings: a single block is
    written, Finalize succeeds, and something else is read back. *)
Definition c08_block (e : Z) : list Z * list Z :=
  if e =? 5 then ([1], [1125899906842624]) else if e =? 6 then ([1125899906842624], [1]) else ([1; 2], [10; 30]).
Definition differs (x : res (list Z * list Z)) (b : list Z * list Z) : bool :=
  match x with
  | Ok (i, v) => negb (if list_eq_dec Z.eq_dec i (fst b) then if list_eq_dec Z.eq_dec v (snd b) then true else false else false)
  | _ => false
  end.
Definition c08_check {Srr : Sroar} (e : Z) : bool :=
  match NewReader (bytes_of (final [WithEncoding e] [] [CWriteBlock (fst (c08_block e)) (snd (c08_block e))] 5)) with
  | Ok r => differs (GetPairs r 0) (c08_block e)
  | _ => false
  end.
Theorem C08_every_encoding_reads_back_refuted : forall e, In e [1; 2; 5; 6] ->
  exists h now w r got, finished_run [WithEncoding e] [] h now w
    /\ h = [(CWriteBlock (fst (c08_block e)) (snd (c08_block e)), Ok 0)]
    /\ NewReader (bytes_of w) = Ok r /\ GetPairs r 0 = Ok got /\ got <> c08_block e.
Proof.
  intros e He.
  assert (HF : check_finished [WithEncoding e] [] [CWriteBlock (fst (c08_block e)) (snd (c08_block e))] 5 = true)
    by (destruct He as [<-|[<-|[<-|[<-|[]]]]]; vm_compute; reflexivity).
  assert (HH : hist [WithEncoding e] [] [CWriteBlock (fst (c08_block e)) (snd (c08_block e))]
               = [(CWriteBlock (fst (c08_block e)) (snd (c08_block e)), Ok 0)])
    by (destruct He as [<-|[<-|[<-|[<-|[]]]]]; vm_compute; reflexivity).
  assert (HC : c08_check e = true) by (destruct He as [<-|[<-|[<-|[<-|[]]]]]; vm_compute; reflexivity).
  apply check_finished_sound in HF. rewrite HH in HF. clear HH He. unfold c08_check in HC.
  destruct (NewReader _) as [r| |] eqn:E in HC; try discriminate HC.
  destruct (GetPairs r 0) as [got| |] eqn:G in HC; try discriminate HC.
  eexists _, _, _, r, got. split; [exact HF|]. split; [reflexivity|]. split; [exact E|]. split; [exact G|].
  intros ->. unfold differs in HC. destruct (c08_block e) as [i v]. cbn [fst snd] in HC.
  destruct (list_eq_dec Z.eq_dec i i) as [_|N]; [|contradiction]. destruct (list_eq_dec Z.eq_dec v v) as [_|N]; [|contradiction].
  discriminate.
Qed.
Print Assumptions C08_every_encoding_reads_back_refuted.

(** C09: metadata. *)
Theorem C09_metadata : forall {Srr : Sroar} options faults h now w,
  finished_run options faults h now w ->
  exists r, NewReader (bytes_of w) = Ok r
    /\ RVersion r = 1 /\ EncodingType r = encoding_of options
    /\ h_blockSizeTarget (r_header r) = target_of options
    /\ h_creationTime (r_header r) = u64 now
    /\ (IsDeltaEncoded r = true <-> In (encoding_of options) [EncodingDeltaID; EncodingDeltaValue; EncodingDeltaBoth])
    /\ (IsVarIntEncoded r = true <->
        In (encoding_of options) [EncodingVarInt; EncodingVarIntID; EncodingVarIntValue; EncodingVarIntBoth]).
Proof. exact @metadata. Qed.
Print Assumptions C09_metadata.
Example C09_case : encoding_of (sample_options 7) = 7 /\ target_of (sample_options 7) = 4096
  /\ encoding_of [] = 0 /\ target_of [] = 16384
  /\ encoding_of [WithEncoding 3; WithBlockSize 9; WithEncoding 4] = 4
  /\ finished_run (sample_options 7) [] (hist (sample_options 7) [] sample_calls2) 12 (final (sample_options 7) [] sample_calls2 12).
Proof. repeat (split; [reflexivity|]). apply sample_finished. cbn. tauto. Qed.

(** C10: layout of a file that was finalized once. *)
Theorem C10_layout : forall {Srr : Sroar} options faults h now w,
  finished_run options faults h now w -> never_finalized h ->
  exists r stop footerStart, NewReader (bytes_of w) = Ok r
    /\ contiguous 64 (r_index r) stop
    /\ (r_index r <> [] -> h_bitmapOffset (r_header r) = stop)
    /\ stop <= h_bitmapOffset (r_header r)
    /\ h_bitmapOffset (r_header r) + h_bitmapSize (r_header r) <= footerStart
    /\ footerStart mod 4096 = 0
    /\ zlen (bytes_of w) = footerStart + 4 + 56 * zlen (r_index r) + 24.
Proof. exact @layout. Qed.
Print Assumptions C10_layout.
Example C10_case : finished_run (sample_options 0) [] (hist (sample_options 0) [] sample_calls) 12 (final (sample_options 0) [] sample_calls 12)
  /\ never_finalized (hist (sample_options 0) [] sample_calls)
  /\ zlen (bytes_of (final (sample_options 0) [] sample_calls 12)) = 12288 + 4 + 56 * 2 + 24.
Proof.
  split; [apply check_finished_sound; vm_compute; reflexivity|]. split; [|vm_compute; reflexivity].
  intros c r Hin. apply in_combine_l in Hin. cbn in Hin. decompose [or] Hin; subst; try reflexivity; contradiction.
Qed.

(** C11: EstimateBlockSize predicts exactly how much the file grows (also for the part
    that a full block stores). *)
Theorem C11_estimate_exact : forall {Srr : Sroar} options faults h w ids vals s w1,
  running options faults h w -> no_torn_block h -> typed_block ids vals ->
  EstimateBlockSize ids vals w = (Ok s, w1) ->
  bytes_of w1 = bytes_of w
  /\ (forall u w2, WriteBlock ids vals w1 = (Ok u, w2) ->
        exists added, bytes_of w2 = bytes_of w1 ++ added /\ zlen added = s)
  /\ (forall ids' vals' w2, typed_block ids' vals' ->
        WriteBlock ids' vals' w1 = (Err (ErrBlockFull (zlen ids)), w2) ->
        ztake (zlen ids) ids' = ids -> ztake (zlen ids) vals' = vals ->
        exists added, bytes_of w2 = bytes_of w1 ++ added /\ zlen added = s).
Proof. exact @estimate_exact. Qed.
Print Assumptions C11_estimate_exact.
Example C11_case :
  running (sample_options 4) [] (hist (sample_options 4) [] sample_calls) (state (sample_options 4) [] sample_calls)
  /\ (let '(e, w1) := EstimateBlockSize [7; 8] [9; 10] (state (sample_options 4) [] sample_calls) in
      e = Ok 4096 /\ fst (WriteBlock [7; 8] [9; 10] w1) = Ok tt).
Proof. split; [apply check_running_sound; vm_compute; reflexivity|]. vm_compute. auto. Qed.

(** C12: the block size target. *)
Theorem C12_target_respected : forall {Srr : Sroar} options faults h w ids vals,
  running options faults h w -> no_torn_block h -> typed_block ids vals ->
  (forall u w', WriteBlock ids vals w = (Ok u, w') ->
     zlen ids = 1 \/ zlen (bytes_of w') - zlen (bytes_of w) <= target_of options)
  /\ (forall n w', WriteBlock ids vals w = (Err (ErrBlockFull n), w') ->
     1 <= n < zlen ids
     /\ (n = 1 \/ zlen (bytes_of w') - zlen (bytes_of w) <= target_of options)
     /\ (fault_free faults -> forall m s w1, n < m <= zlen ids ->
           EstimateBlockSize (ztake m ids) (ztake m vals) w = (Ok s, w1) -> target_of options < s)).
Proof. exact @target_respected. Qed.
Print Assumptions C12_target_respected.
Example C12_case :
  let w := state (sample_options 0) [] [CWriteBlock [3] [4]] in
  running (sample_options 0) [] (hist (sample_options 0) [] [CWriteBlock [3] [4]]) w
  /\ fst (WriteBlock (zseq 300) (zseq 300) w) = Err (ErrBlockFull 251)
  /\ fst (EstimateBlockSize (zseq 251) (zseq 251) w) = Ok 4096
  /\ fst (EstimateBlockSize (zseq 252) (zseq 252) w) = Ok 8192.
Proof. split; [apply check_running_sound; vm_compute; reflexivity|]. vm_compute. auto. Qed.

(** C13: what one WriteBlock call adds to the file, given its outcome, wherever it
    stands in the history. *)
Theorem C13_partial_writes_exact : forall {Srr : Sroar} options faults h now w h1 ids vals r h2,
  finished_run options faults h now w -> faithful (encoding_of options) ->
  h = h1 ++ (CWriteBlock ids vals, r) :: h2 ->
  exists rd before mine after, NewReader (bytes_of w) = Ok rd
    /\ stored h1 before /\ stored h2 after
    /\ (forall i, is_u64 i -> GetPairs rd i = match nth_error (before ++ mine ++ after) (Z.to_nat i) with
                                              | Some b => Ok b | None => Err ErrIndex end)
    /\ match r with
       | Ok _ => mine = [(ids, vals)]
       | Err (ErrBlockFull n) => 1 <= n < zlen ids /\ mine = [(ztake n ids, ztake n vals)]
       | Err ErrSync => exists n, 1 <= n <= zlen ids /\ mine = [(ztake n ids, ztake n vals)]
       | _ => mine = []
       end.
Proof. exact @partial_write_exact. Qed.
Print Assumptions C13_partial_writes_exact.
Example C13_case : let opts := [WithBlockSize 100] in let cs := [CWriteBlock [8; 9] [1; 2]] in
  finished_run opts [] (hist opts [] cs) 12 (final opts [] cs 12)
  /\ hist opts [] cs = [(CWriteBlock [8; 9] [1; 2], Err (ErrBlockFull 1))].
Proof. split; [apply check_finished_sound; vm_compute; reflexivity|]. vm_compute. reflexivity. Qed.

(** C14: refused blocks change nothing: the writer, its file included, is the same. *)
Theorem C14_bad_blocks_refused : forall {Srr : Sroar} options faults h w ids vals,
  running options faults h w ->
  (zlen ids <> zlen vals -> WriteBlock ids vals w = (Err ErrLength, w))
  /\ WriteBlock [] [] w = (Err ErrEmpty, w)
  /\ (~ 0 <= encoding_of options <= 7 -> well_formed ids vals -> WriteBlock ids vals w = (Err ErrEncoding, w)).
Proof. exact @bad_blocks_refused. Qed.
Print Assumptions C14_bad_blocks_refused.
Example C14_case : let w := state [WithEncoding 8] [] [] in
  running [WithEncoding 8] [] (hist [WithEncoding 8] [] []) w
  /\ ~ 0 <= encoding_of [WithEncoding 8] <= 7 /\ well_formed [1] [2].
Proof. split; [apply check_running_sound; vm_compute; reflexivity|]. split; [vm_compute; intros [_ H]; apply H; reflexivity|]. split; [reflexivity|discriminate]. Qed.

(** C28: the global ID bitmap holds every stored ID, and nothing else unless a
    WriteBlock failed half way. *)
Theorem C28_global_ids : forall {Srr : Sroar} {Laws : SroarLaws Srr} options faults h now w hp,
  finished_run options faults h now w ->
  exists r blocks p r' hp' b, stored h blocks /\ NewReader (bytes_of w) = Ok r
    /\ GetGlobalIDBitmap r hp = (Ok p, r', hp') /\ nth_error hp' p = Some b
    /\ (forall id, is_u64 id -> In id (flat_map fst blocks) -> bm_contains b id = true)
    /\ (no_torn_block h -> forall id, is_u64 id -> bm_contains b id = true -> In id (flat_map fst blocks)).
Proof. exact @global_ids. Qed.
Print Assumptions C28_global_ids.
Example C28_case : SroarLaws list_sroar
  /\ finished_run (sample_options 0) [] (hist (sample_options 0) [] sample_calls2) 12 (final (sample_options 0) [] sample_calls2 12).
Proof. split; [exact list_sroar_laws|]. apply sample_finished. cbn. tauto. Qed.

(** C37: the same read-back guarantee holds under any failures of system calls; the
    history records which calls they hit. *)
Theorem C37_finalize_after_failures : forall {Srr : Sroar} options faults h now w,
  finished_run options faults h now w -> faithful (encoding_of options) ->
  exists r blocks, stored h blocks /\ NewReader (bytes_of w) = Ok r /\ BlockCount r = zlen blocks
    /\ forall i, is_u64 i ->
         GetPairs r i = match nth_error blocks (Z.to_nat i) with
                        | Some b => Ok b
                        | None => Err ErrIndex
                        end.
Proof. exact @blocks_read_back. Qed.
Print Assumptions C37_finalize_after_failures.
(** System call 38 is the sync that ends the first WriteBlock, 39 the first seek of the
    second one: the first block is in the file although its call failed, the second is not. *)
Definition c37_faults : list fault := repeat NoFault 38 ++ [Fault 0; Fault 0].
Definition c37_calls : list wcall := [CWriteBlock [1; 2] [3; 4]; CWriteBlock [5] [6]; CWriteBlock [7] [8]].
Example C37_case :
  finished_run [] c37_faults (hist [] c37_faults c37_calls) 9 (final [] c37_faults c37_calls 9)
  /\ faithful (encoding_of [])
  /\ map snd (hist [] c37_faults c37_calls) = [Err ErrSync; Err ErrIO; Ok 0]
  /\ match NewReader (bytes_of (final [] c37_faults c37_calls 9)) with
     | Ok r => (BlockCount r, GetPairs r 0, GetPairs r 1) = (2, Ok ([1; 2], [3; 4]), Ok ([7], [8]))
     | _ => False
     end.
Proof. split; [apply check_finished_sound; vm_compute; reflexivity|]. vm_compute. auto. Qed.

(** C40: after Close (whatever it returns) or a successful FinalizeAndClose, every
    call fails and the bytes never change. *)
Theorem C40_closed_writer_inert : forall {Srr : Sroar} options faults h w c r w1 cs outs w2,
  running options faults h w -> is_closing c = true -> run_call c w = (r, w1) ->
  (forall now, c = CFinalizeAndClose now -> exists n, r = Ok n) ->
  run_calls cs w1 = (outs, w2) ->
  bytes_of w2 = bytes_of w1 /\ Forall (fun r => exists e, r = Err e) outs.
Proof. exact @closed_writer_inert. Qed.
Print Assumptions C40_closed_writer_inert.
Example C40_case : let w := state (sample_options 3) [] [CWriteBlock [3] [4]] in
  running (sample_options 3) [] (hist (sample_options 3) [] [CWriteBlock [3] [4]]) w
  /\ fst (run_call (CFinalizeAndClose 7) w) = Ok 0
  /\ fst (run_calls [CWriteBlock [1] [1]; CEstimate [1] [1]; CFinalize 8; CClose] (snd (run_call (CFinalizeAndClose 7) w)))
     = [Err ErrIO; Err ErrIO; Err ErrIO; Err ErrIO].
Proof. split; [apply check_running_sound; vm_compute; reflexivity|]. vm_compute. auto. Qed.

(** C41: Finalize may be called again and writing may go on after it; every block, from
    before and after, is in the file. *)
Theorem C41_finalize_again : forall {Srr : Sroar} now0 options faults cs1 now1 cs2 now2,
  fault_free faults -> Forall typed_option options -> faithful (encoding_of options) ->
  Forall typed_call (cs1 ++ cs2) -> (forall c, In c (cs1 ++ cs2) -> is_closing c = false) ->
  exists w0 f0 outs1 w1 w1' outs2 w2 w2',
    NewWriter now0 options faults = (Ok w0, f0)
    /\ run_calls cs1 w0 = (outs1, w1) /\ Forall2 expected cs1 outs1
    /\ Finalize now1 w1 = (Ok tt, w1')
    /\ run_calls cs2 w1' = (outs2, w2) /\ Forall2 expected cs2 outs2
    /\ Finalize now2 w2 = (Ok tt, w2')
    /\ (fits w2' (bytes_of w2') ->
        exists blocks1 blocks2 r, stored (combine cs1 outs1) blocks1 /\ stored (combine cs2 outs2) blocks2
          /\ NewReader (bytes_of w2') = Ok r /\ BlockCount r = zlen (blocks1 ++ blocks2)
          /\ forall i, is_u64 i ->
               GetPairs r i = match nth_error (blocks1 ++ blocks2) (Z.to_nat i) with
                              | Some b => Ok b
                              | None => Err ErrIndex
                              end).
Proof. exact @finalize_again. Qed.
Print Assumptions C41_finalize_again.
Example C41_case : fault_free [] /\ Forall typed_option (sample_options 3) /\ faithful (encoding_of (sample_options 3))
  /\ Forall typed_call (sample_calls ++ [CWriteBlock [9; 9] [0; 0]])
  /\ check_finished (sample_options 3) [] (sample_calls ++ [CFinalize 11; CWriteBlock [9; 9] [0; 0]]) 12 = true.
Proof.
  split; [constructor|]. split; [eapply forallb_Forall'; [apply typed_optionb_sound|vm_compute; reflexivity]|].
  split; [vm_compute; tauto|]. split; [eapply forallb_Forall'; [apply typed_callb_sound|vm_compute; reflexivity]|].
  vm_compute. reflexivity.
Qed.

(** C42: block numbers. *)
Theorem C42_out_of_range_is_error : forall {Srr : Sroar} options faults h now w,
  finished_run options faults h now w -> consistent (encoding_of options) ->
  exists r, NewReader (bytes_of w) = Ok r
    /\ forall i, is_u64 i -> (i < BlockCount r <-> exists b, GetPairs r i = Ok b)
                             /\ (BlockCount r <= i -> GetPairs r i = Err ErrIndex).
Proof. exact @out_of_range. Qed.
Print Assumptions C42_out_of_range_is_error.
Example C42_case : match NewReader (bytes_of (final (sample_options 1) [] sample_calls2 12)) with
  | Ok r => (BlockCount r, GetPairs r 3, GetPairs r 9223372036854775808) = (3, Err ErrIndex, Err ErrIndex)
            /\ is_ok (GetPairs r 2) = true
  | _ => False
  end.
Proof. vm_compute. auto. Qed.

(** C45: index entries and block headers tell the truth. *)
Theorem C45_statistics_true : forall {Srr : Sroar} options faults h now w,
  finished_run options faults h now w ->
  exists r blocks, stored h blocks /\ NewReader (bytes_of w) = Ok r
    /\ Forall2 (fun e b => true_entry b e /\ true_block_header (bytes_of w) (encoding_of options) e)
               (r_index r) blocks.
Proof. exact @statistics_true. Qed.
Print Assumptions C45_statistics_true.
Example C45_case :
  match NewReader (bytes_of (final (sample_options 3) [] sample_calls2 12)) with
  | Ok r => map (fun e => (e_minID e, e_maxID e, e_count e)) (r_index r)
            = [(1, 18446744073709551615, 3); (1, 250, 3); (9, 9, 2)]
            /\ map (fun e => uint64ToInt64 (e_minValue e)) (r_index r) = [0; -5000; 0]
  | _ => False
  end.
Proof. vm_compute. auto. Qed.
