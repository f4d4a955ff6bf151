(** What an encoding costs (C80).  Only statements and concrete cases; proofs are in
    SizeFacts.v. *)
From Verif Require Import Machine Encoding FileIO Sroar SroarFacts Writer Reader Spec SizeSpec MachineFacts SizeFacts FileSizeFacts Examples PAggregate PReader PWriter.

(** C80: EstimateBlockSize answers the header, the layout and the two sections at their
    exact width -- eight bytes per number for the fixed-width encodings, seven bits per byte
    for the varint ones, of the numbers themselves or of their differences -- rounded up to
    the next page boundary of the file. *)
Theorem C80_estimate : forall {Srr : Sroar} options faults h w ids vals s w1,
  running options faults h w -> no_torn_block h -> typed_block ids vals -> consistent (encoding_of options) ->
  EstimateBlockSize ids vals w = (Ok s, w1) ->
  padded (zlen (bytes_of w)) (content (encoding_of options) ids vals) s.
Proof. exact @estimate_content. Qed.
Print Assumptions C80_estimate.

(** And that is what the blocks of a finished file take. *)
Theorem C80_blocks : forall {Srr : Sroar} options faults h now w,
  finished_run options faults h now w -> consistent (encoding_of options) ->
  exists r blocks, NewReader (bytes_of w) = Ok r /\ stored h blocks
    /\ Forall2 (fun e b => padded (e_offset e) (content (encoding_of options) (fst b) (snd b)) (e_size e)) (r_index r) blocks.
Proof. exact @blocks_content. Qed.
Print Assumptions C80_blocks.

(** Finalize adds the ID bitmap behind its length, zeros up to the next page boundary, 56
    bytes for each block and 28 more. *)
Theorem C80_finalize : forall {Srr : Sroar} options faults h w fin now n w',
  running options faults h w -> no_torn_block h -> finalizing fin now -> run_call fin w = (Ok n, w') ->
  exists blocks, stored h blocks
    /\ zlen (bytes_of w') = page_up (zlen (bytes_of w) + bitmap_size blocks) + 28 + 56 * zlen blocks
    /\ (never_finalized h -> consistent (encoding_of options) ->
        zlen (bytes_of w) = blocks_end 64 (map (fun b => content (encoding_of options) (fst b) (snd b)) blocks)).
Proof. exact @finalize_size. Qed.
Print Assumptions C80_finalize.

(** So the length of a file that was finalized once is known from its blocks. *)
Theorem C80_file_size : forall {Srr : Sroar} options faults h now w,
  finished_run options faults h now w -> no_torn_block h -> never_finalized h -> consistent (encoding_of options) ->
  exists blocks, stored h blocks
    /\ zlen (bytes_of w) = page_up (blocks_end 64 (map (fun b => content (encoding_of options) (fst b) (snd b)) blocks) + bitmap_size blocks)
                           + 28 + 56 * zlen blocks.
Proof. exact @file_size. Qed.
Print Assumptions C80_file_size.

(** Bounds: 16 bytes a pair, or between 2 and 20. *)
Theorem C80_bounds : forall e ids vals, consistent e -> typed_block ids vals -> zlen ids = zlen vals ->
  (if (e =? EncodingVarInt) || (e =? EncodingVarIntBoth) then 80 + 2 * zlen ids else 80 + 16 * zlen ids) <= content e ids vals
  /\ content e ids vals <= 80 + 20 * zlen ids.
Proof. exact content_bounds. Qed.
Print Assumptions C80_bounds.

(** With IDs below 2^56 and values of at most 55 bits and sign, a varint block is never
    larger than the raw block would be. *)
Theorem C80_varint_saves : forall {Srr : Sroar} options1 faults1 h1 w1 options2 faults2 h2 w2 ids vals s1 s2 w1' w2',
  running options1 faults1 h1 w1 -> no_torn_block h1 -> encoding_of options1 = EncodingVarInt ->
  running options2 faults2 h2 w2 -> no_torn_block h2 -> encoding_of options2 = EncodingRaw ->
  zlen (bytes_of w1) = zlen (bytes_of w2) -> typed_block ids vals ->
  Forall (fun x => x < 2 ^ 56) ids -> Forall (fun v => - 2 ^ 55 <= v < 2 ^ 55) vals ->
  EstimateBlockSize ids vals w1 = (Ok s1, w1') -> EstimateBlockSize ids vals w2 = (Ok s2, w2') -> s1 <= s2.
Proof.
  intros Srr options1 faults1 h1 w1 options2 faults2 h2 w2 ids vals s1 s2 w1' w2' R1 T1 E1 R2 T2 E2 HL Ht Hi Hv S1 S2.
  pose proof (estimate_content options1 faults1 h1 w1 ids vals s1 w1' R1 T1 Ht ltac:(rewrite E1; unfold consistent, EncodingVarInt; tauto) S1) as P1.
  pose proof (estimate_content options2 faults2 h2 w2 ids vals s2 w2' R2 T2 Ht ltac:(rewrite E2; unfold consistent, EncodingRaw; tauto) S2) as P2.
  rewrite E1, HL in P1. rewrite E2 in P2. eapply padded_le; [|exact P1|exact P2]. apply varint_saves; [|exact Hv].
  destruct Ht as (Hu & _). rewrite Forall_forall in *. intros x Hx. specialize (Hu x Hx). specialize (Hi x Hx). unfold is_u64 in Hu. lia.
Qed.
Print Assumptions C80_varint_saves.

(** Ascending IDs whose gaps fit in [7a] bits and values whose steps fit in [7b] bits with
    sign: [a + b] bytes a pair under varint-both, plus at most 100. *)
Theorem C80_dense : forall a b ids vals, 1 <= a -> 1 <= b -> typed_block ids vals -> zlen ids = zlen vals -> ids <> [] ->
  (forall i x y, nth_error ids i = Some x -> nth_error ids (S i) = Some y -> 0 <= y - x < 2 ^ (7 * a)) ->
  (forall i x y, nth_error vals i = Some x -> nth_error vals (S i) = Some y -> - 2 ^ (7 * b - 1) <= y - x < 2 ^ (7 * b - 1)) ->
  content EncodingVarIntBoth ids vals <= 100 + (a + b) * (zlen ids - 1).
Proof. exact dense_content. Qed.
Print Assumptions C80_dense.

(** "Up to 8x": never more than eightfold, and at least sevenfold from 303 pairs on when IDs
    grow and values change by little. *)
Theorem C80_compression : forall e ids vals, consistent e -> typed_block ids vals -> zlen ids = zlen vals ->
  content EncodingRaw ids vals < 8 * content e ids vals
  /\ (303 <= zlen ids ->
      (forall i x y, nth_error ids i = Some x -> nth_error ids (S i) = Some y -> 0 <= y - x < 128) ->
      (forall i x y, nth_error vals i = Some x -> nth_error vals (S i) = Some y -> -64 <= y - x < 64) ->
      7 * content EncodingVarIntBoth ids vals <= content EncodingRaw ids vals).
Proof.
  intros e ids vals He Ht Hl. assert (R : content EncodingRaw ids vals = 80 + 16 * zlen ids).
  { unfold content. change (EncodingRaw =? EncodingVarInt) with false. change (EncodingRaw =? EncodingVarIntBoth) with false. cbn iota. lia. }
  rewrite R. split.
  - pose proof (content_bounds e ids vals He Ht Hl) as [L _]. pose proof (zlen_nonneg ids).
    destruct ((e =? EncodingVarInt) || (e =? EncodingVarIntBoth)); lia.
  - intros Hn HA HB. pose proof (dense_content 1 1 ids vals ltac:(lia) ltac:(lia) Ht Hl) as D.
    assert (ids <> []) by (intros ->; change (zlen (@nil Z)) with 0 in Hn; lia).
    specialize (D H HA HB). lia.
Qed.
Print Assumptions C80_compression.

(** ** Cases *)
Definition dense_ids : list Z := map (fun i => 1000 + 3 * i) (zseq 100).
Definition dense_vals : list Z := map (fun i => 7 - i) (zseq 100).
Definition fresh (e : Z) : writer := state (sample_options e) [] [].
Lemma dense_nth (f : Z -> Z) n i x : nth_error (map f (zseq n)) i = Some x -> x = f (Z.of_nat i).
Proof.
  rewrite nth_error_map. unfold zseq. rewrite nth_error_map. destruct (nth_error (seq 0 (Z.to_nat n)) i) as [k|] eqn:E; [|discriminate].
  cbn [option_map]. intros H. injection H as <-.
  assert (i < length (seq 0 (Z.to_nat n)))%nat by (apply nth_error_Some; congruence). rewrite seq_length in *.
  rewrite (nth_error_nth' _ 0%nat) in E by (rewrite seq_length; assumption). injection E as <-. rewrite seq_nth by assumption. f_equal. 
Qed.
Definition long_ids : list Z := map (fun i => 1000 + 3 * i) (zseq 400).
Definition long_vals : list Z := map (fun i => 7 - i) (zseq 400).
Example C80_compression_case : typed_block long_ids long_vals /\ zlen long_ids = zlen long_vals /\ 303 <= zlen long_ids
  /\ (forall i x y, nth_error long_ids i = Some x -> nth_error long_ids (S i) = Some y -> 0 <= y - x < 128)
  /\ (forall i x y, nth_error long_vals i = Some x -> nth_error long_vals (S i) = Some y -> -64 <= y - x < 64)
  /\ content EncodingRaw long_ids long_vals = 6480 /\ content EncodingVarIntBoth long_ids long_vals = 881.
Proof.
  split; [apply typed_blockb_sound; vm_compute; reflexivity|]. split; [vm_compute; reflexivity|]. split; [vm_compute; discriminate|].
  split; [intros i x y E1 E2; apply dense_nth in E1, E2; subst; rewrite Nat2Z.inj_succ; lia|].
  split; [intros i x y E1 E2; apply dense_nth in E1, E2; subst; rewrite Nat2Z.inj_succ; lia|]. split; vm_compute; reflexivity.
Qed.
Example C80_case :
  running (sample_options 7) [] (hist (sample_options 7) [] []) (fresh 7) /\ no_torn_block (hist (sample_options 7) [] [])
  /\ typed_block dense_ids dense_vals /\ consistent (encoding_of (sample_options 7))
  /\ fst (EstimateBlockSize dense_ids dense_vals (fresh 7)) = Ok 4032
  /\ content 7 dense_ids dense_vals = 281 /\ content 4 dense_ids dense_vals = 408 /\ content 0 dense_ids dense_vals = 1680
  /\ (forall i x y, nth_error dense_ids i = Some x -> nth_error dense_ids (S i) = Some y -> 0 <= y - x < 2 ^ (7 * 1))
  /\ (forall i x y, nth_error dense_vals i = Some x -> nth_error dense_vals (S i) = Some y -> - 2 ^ (7 * 1 - 1) <= y - x < 2 ^ (7 * 1 - 1)).
Proof.
  split; [apply check_running_sound; vm_compute; reflexivity|]. split; [intros ids vals r []|].
  split; [apply typed_blockb_sound; vm_compute; reflexivity|].
  split; [unfold consistent; vm_compute; tauto|]. split; [vm_compute; reflexivity|]. split; [vm_compute; reflexivity|].
  split; [vm_compute; reflexivity|]. split; [vm_compute; reflexivity|]. split.
  - intros i x y E1 E2. apply dense_nth in E1, E2. subst. rewrite Nat2Z.inj_succ. change (2 ^ (7 * 1)) with 128. lia.
  - intros i x y E1 E2. apply dense_nth in E1, E2. subst. rewrite Nat2Z.inj_succ. change (2 ^ (7 * 1 - 1)) with 64. lia.
Qed.

(** Without those limits "varint is never larger than raw" is false: 240 IDs of the largest
    size need a page more. *)
Definition large_ids : list Z := repeat (2 ^ 64 - 1) 240.
Definition large_vals : list Z := repeat (- 2 ^ 63) 240.
Theorem C80_varint_saves_refuted :
  running (sample_options 4) [] (hist (sample_options 4) [] []) (fresh 4)
  /\ running (sample_options 0) [] (hist (sample_options 0) [] []) (fresh 0)
  /\ zlen (bytes_of (fresh 4)) = zlen (bytes_of (fresh 0)) /\ typed_block large_ids large_vals
  /\ fst (EstimateBlockSize large_ids large_vals (fresh 4)) = Ok 8128
  /\ fst (EstimateBlockSize large_ids large_vals (fresh 0)) = Ok 4032.
Proof.
  split; [apply check_running_sound; vm_compute; reflexivity|]. split; [apply check_running_sound; vm_compute; reflexivity|].
  split; [vm_compute; reflexivity|]. split; [apply typed_blockb_sound; vm_compute; reflexivity|]. split; vm_compute; reflexivity.
Qed.
Print Assumptions C80_varint_saves_refuted.

(** Three blocks of a page each, a bitmap, the footer. *)
Definition size_calls : list wcall := [CWriteBlock dense_ids dense_vals; CWriteBlock [5; 9] [1; -1]; CWriteBlock [5; 6; 7] [-3; 0; 8]].
Definition size_blocks : list block := [(dense_ids, dense_vals); ([5; 9], [1; -1]); ([5; 6; 7], [-3; 0; 8])].
Example C80_file_case : forall e, In e [0; 3; 4; 7] ->
  finished_run (sample_options e) [] (hist (sample_options e) [] size_calls) 12 (final (sample_options e) [] size_calls 12)
  /\ no_torn_block (hist (sample_options e) [] size_calls) /\ never_finalized (hist (sample_options e) [] size_calls)
  /\ map snd (hist (sample_options e) [] size_calls) = [Ok 0; Ok 0; Ok 0] /\ consistent (encoding_of (sample_options e))
  /\ zlen (bytes_of (final (sample_options e) [] size_calls 12)) = 16384 + 28 + 56 * 3
  /\ page_up (blocks_end 64 (map (fun b => content e (fst b) (snd b)) size_blocks) + @bitmap_size list_sroar size_blocks) = 16384.
Proof.
  intros e He.
  split; [destruct He as [<-|[<-|[<-|[<-|[]]]]]; apply check_finished_sound; vm_compute; reflexivity|].
  split; [destruct He as [<-|[<-|[<-|[<-|[]]]]]; apply notorn_sound; vm_compute; reflexivity|].
  split; [destruct He as [<-|[<-|[<-|[<-|[]]]]]; apply neverfin_sound; vm_compute; reflexivity|].
  split; [destruct He as [<-|[<-|[<-|[<-|[]]]]]; vm_compute; reflexivity|].
  split; [destruct He as [<-|[<-|[<-|[<-|[]]]]]; unfold consistent; vm_compute; tauto|].
  split; destruct He as [<-|[<-|[<-|[<-|[]]]]]; vm_compute; reflexivity.
Qed.
