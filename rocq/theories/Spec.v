(** Specification vocabulary: what a client of the package would say it stored.
    Nothing here is used by the model; the property theorems are stated with it. *)
From Coq Require Import Floats.SpecFloat.
From Verif Require Import Machine Encoding FileIO Sroar Writer Reader Aggregate Parallel.

(** A block as the client sees it: IDs and values. *)
Definition block : Type := list Z * list Z.

(** Arguments the Go types allow.  A block has at most 200 million pairs, so that
    the 32-bit size fields of the format cannot overflow under any encoding. *)
Definition max_items : Z := 200000000.
Definition typed_block (ids vals : list Z) : Prop :=
  Forall is_u64 ids /\ Forall is_i64 vals /\ zlen ids <= max_items /\ zlen vals <= max_items.
Definition typed_call (c : wcall) : Prop :=
  match c with
  | CWriteBlock ids vals | CEstimate ids vals => typed_block ids vals
  | _ => True
  end.
Definition typed_option (o : writerOption) : Prop :=
  match o with
  | WithEncoding e => is_u32 e
  | WithBlockSize s => is_u32 s
  end.

(** Which pairs one call put into the file, given its outcome.  A full block stores
    the reported prefix.  A failed sync is the one error after which a block is in
    the file: all of it or, if it had to be split, a prefix. *)
Inductive stores : wcall -> res Z -> list block -> Prop :=
| stores_ok ids vals n : stores (CWriteBlock ids vals) (Ok n) [(ids, vals)]
| stores_full ids vals n : 1 <= n < zlen ids ->
    stores (CWriteBlock ids vals) (Err (ErrBlockFull n)) [(ztake n ids, ztake n vals)]
| stores_sync ids vals n : 1 <= n <= zlen ids ->
    stores (CWriteBlock ids vals) (Err ErrSync) [(ztake n ids, ztake n vals)]
| stores_err ids vals e : e <> ErrSync -> (forall n, e <> ErrBlockFull n) ->
    stores (CWriteBlock ids vals) (Err e) []
| stores_other c r : (forall ids vals, c <> CWriteBlock ids vals) -> stores c r [].

Inductive stored : list (wcall * res Z) -> list block -> Prop :=
| stored_nil : stored [] []
| stored_cons c r h b1 b2 : stores c r b1 -> stored h b2 -> stored ((c, r) :: h) (b1 ++ b2).

(** Every Finalize in [cs], called from state [w] on, reports success, or fails but
    leaves the file offset at the end of the file.  (The offset is elsewhere exactly if
    the failure was in rewriting the header: C38_offset_after_failure.) *)
Definition is_finalize (c : wcall) : bool :=
  match c with CFinalize _ | CFinalizeAndClose _ => true | _ => false end.
Definition offset_at_end {Srr : Sroar} (w : writer) : Prop := f_pos (w_file w) = zlen (f_data (w_file w)).
Fixpoint finalizes_ok {Srr : Sroar} (cs : list wcall) (w : writer) : Prop :=
  match cs with
  | [] => True
  | c :: cs' =>
      (is_finalize c = true -> (exists n, fst (run_call c w) = Ok n) \/ offset_at_end (snd (run_call c w)))
      /\ finalizes_ok cs' (snd (run_call c w))
  end.

(** No WriteBlock call failed half way (I/O error or internal size mismatch). *)
Definition no_torn_block (h : list (wcall * res Z)) : Prop :=
  forall ids vals r, In (CWriteBlock ids vals, r) h -> r <> Err ErrIO /\ r <> Err ErrMismatch.

(** The encodings whose data reads back unchanged. *)
Definition faithful (e : Z) : Prop :=
  e = EncodingRaw \/ e = EncodingDeltaBoth \/ e = EncodingVarInt \/ e = EncodingVarIntBoth.

(** The encodings under which the writer's two size computations agree, so that no
    block is refused half way: the above, delta-ID and delta-value. *)
Definition consistent (e : Z) : Prop := e = 0 \/ e = 1 \/ e = 2 \/ e = 3 \/ e = 4 \/ e = 7.

(** Encoding and block size target a list of options asks for (the last one wins;
    defaults: raw, 16 KB). *)
Definition configured (options : list writerOption) : Z * Z :=
  fold_left (fun '(e, t) o => match o with WithEncoding e' => (e', t) | WithBlockSize t' => (e, t') end)
            options (EncodingRaw, defaultBlockSize).
Definition encoding_of (options : list writerOption) : Z := fst (configured options).
Definition target_of (options : list writerOption) : Z := snd (configured options).

(** Size limits of the file format: int64 file offsets, a block index addressed with
    32 bits, a 32-bit bitmap size. *)
Record fits {Srr : Sroar} (w : writer) (file_bytes : list Z) : Prop := {
  fits_file : zlen file_bytes < two63;
  fits_index : 56 * w_blockCount w < two32;
  fits_bitmap : zlen (bm_ser (w_ids w)) < two32
}.

(** All pairs of a list of blocks, in order. *)
Definition pairs_of (b : block) : list (Z * Z) := combine (fst b) (snd b).
Definition all_pairs (bs : list block) : list (Z * Z) := flat_map pairs_of bs.

(** The bytes in a writer's file. *)
Definition bytes_of {Srr : Sroar} (w : writer) : list Z := f_data (w_file w).

(** No injected failure: every system call on the file succeeds. *)
Definition fault_free (faults : list fault) : Prop := Forall (eq NoFault) faults.

Definition finalizing (c : wcall) (now : Z) : Prop := c = CFinalize now \/ c = CFinalizeAndClose now.

(** A finished run: a new writer is created with some options; a client makes any
    calls, whose outcomes are recorded in the history [h]; calls may fail in any way,
    except that no Finalize fails while it rewrites the header; then Finalize (or FinalizeAndClose), called at time
    [now], reports success and leaves [w]. *)
Inductive finished_run {Srr : Sroar} (options : list writerOption) (faults : list fault)
    (h : list (wcall * res Z)) (now : Z) (w : writer) : Prop :=
| finished now0 w0 f0 cs outs w1 fin n :
    NewWriter now0 options faults = (Ok w0, f0) ->
    Forall typed_option options -> Forall typed_call cs ->
    run_calls cs w0 = (outs, w1) -> h = combine cs outs -> finalizes_ok cs w0 ->
    finalizing fin now -> run_call fin w1 = (Ok n, w) ->
    fits w (bytes_of w) ->
    finished_run options faults h now w.

(** The system calls of Finalize number 5 to 15 (from 0) are those that rewrite the
    header: ten writes after the seek to the start of the file, and the seek back to its
    end.  [header_fault faults]: the first fault hits one of these. *)
Definition header_fault (faults : list fault) : Prop :=
  exists i k, (5 <= i <= 15)%nat /\ nth_error faults i = Some (Fault k) /\ Forall (eq NoFault) (firstn i faults).

(** The state of a writer after any history of calls in which no Finalize failed while
    it rewrote the header. *)
Inductive running {Srr : Sroar} (options : list writerOption) (faults : list fault)
    (h : list (wcall * res Z)) (w : writer) : Prop :=
| running_intro now0 w0 f0 cs outs :
    NewWriter now0 options faults = (Ok w0, f0) ->
    Forall typed_option options -> Forall typed_call cs ->
    run_calls cs w0 = (outs, w) -> h = combine cs outs -> finalizes_ok cs w0 ->
    running options faults h w.

(** The client has not closed the writer. *)
Definition is_closing (c : wcall) : bool :=
  match c with CFinalizeAndClose _ | CClose => true | _ => false end.
Definition not_closed (h : list (wcall * res Z)) : Prop :=
  forall c r, In (c, r) h -> is_closing c = false.

(** What a client may expect from one call when no system call fails. *)
Definition well_formed (ids vals : list Z) : Prop := zlen ids = zlen vals /\ ids <> [].
Inductive expected : wcall -> res Z -> Prop :=
| exp_written ids vals : well_formed ids vals -> expected (CWriteBlock ids vals) (Ok 0)
| exp_full ids vals n : well_formed ids vals -> 1 <= n < zlen ids ->
    expected (CWriteBlock ids vals) (Err (ErrBlockFull n))
| exp_estimate ids vals s : well_formed ids vals -> expected (CEstimate ids vals) (Ok s)
| exp_length c ids vals : c = CWriteBlock ids vals \/ c = CEstimate ids vals ->
    zlen ids <> zlen vals -> expected c (Err ErrLength)
| exp_empty c : c = CWriteBlock [] [] \/ c = CEstimate [] [] -> expected c (Err ErrEmpty)
| exp_finalize now : expected (CFinalize now) (Ok 0)
| exp_finalize_close now : expected (CFinalizeAndClose now) (Ok 0)
| exp_close : expected CClose (Ok 0).

(** Minimum, maximum and exact sum of a list. *)
Definition is_minimum (x : Z) (l : list Z) : Prop := In x l /\ forall y, In y l -> x <= y.
Definition is_maximum (x : Z) (l : list Z) : Prop := In x l /\ forall y, In y l -> y <= x.
Definition zsum (l : list Z) : Z := fold_right Z.add 0 l.

(** How a statistic is stored in the file: sign bit and magnitude.  The minimum int64
    has no magnitude in 63 bits and is stored as minus zero. *)
Definition sign_magnitude (v : Z) : Z :=
  if v >=? 0 then v else if v =? min_int64 then two63 else two63 - v.

(** The index entry of a block tells the truth about it. *)
Definition true_entry (b : block) (e : footerEntry) : Prop :=
  is_minimum (e_minID e) (fst b) /\ is_maximum (e_maxID e) (fst b)
  /\ (exists mn, is_minimum mn (snd b) /\ e_minValue e = sign_magnitude mn)
  /\ (exists mx, is_maximum mx (snd b) /\ e_maxValue e = sign_magnitude mx)
  /\ e_sum e = sign_magnitude (i64 (zsum (snd b)))
  /\ e_count e = zlen (fst b) /\ zlen (fst b) = zlen (snd b).

(** The 64 bytes in front of the block repeat what the index entry says. *)
Definition true_block_header (file_bytes : list Z) (encoding : Z) (e : footerEntry) : Prop :=
  slice file_bytes (e_offset e) 64
  = le_bytes 8 (e_minID e) ++ le_bytes 8 (e_maxID e) ++ le_bytes 8 (e_minValue e)
    ++ le_bytes 8 (e_maxValue e) ++ le_bytes 8 (e_sum e) ++ le_bytes 4 (e_count e)
    ++ le_bytes 4 encoding ++ le_bytes 4 0 ++ zeros 12.

(** Blocks that follow each other without gaps from [start] to [stop], each ending on
    a page boundary. *)
Inductive contiguous : Z -> list footerEntry -> Z -> Prop :=
| contiguous_nil p : contiguous p [] p
| contiguous_cons p e es q : e_offset e = p -> 80 < e_size e -> (p + e_size e) mod 4096 = 0 ->
    contiguous (p + e_size e) es q -> contiguous p (e :: es) q.
Definition never_finalized (h : list (wcall * res Z)) : Prop :=
  forall c r, In (c, r) h -> is_finalize c = false.

(** The values of a block as they stand in the file, in front of the padding: eight
    bytes or a varint each, and differences for the delta encodings. *)
Definition value_section (e : Z) (vals : list Z) : list Z :=
  let items := if (e =? EncodingDeltaID) || (e =? EncodingDeltaValue) || (e =? EncodingDeltaBoth)
                  || (e =? EncodingVarIntValue) || (e =? EncodingVarIntBoth)
               then deltaEncodeInt64 vals else vals in
  concat (map (if (e =? EncodingVarInt) || (e =? EncodingVarIntValue) || (e =? EncodingVarIntBoth)
               then encodeSignedVarInt else le_bytes 8) items).

(** ** Aggregation *)

(** What is in an opened file: the blocks that [h] stored, and they read back so. *)
Definition contents {Srr : Sroar} (h : list (wcall * res Z)) (r : reader) (blocks : list block) : Prop :=
  stored h blocks /\ BlockCount r = zlen blocks
  /\ forall i, is_u64 i ->
       GetPairs r i = match nth_error blocks (Z.to_nat i) with
                      | Some b => Ok b
                      | None => Err ErrIndex
                      end.

(** [res] is the aggregate of the values [vs].  (Min and Max of nothing are not
    specified here.) *)
Definition aggregate_of (vs : list Z) (res : aggResult) : Prop :=
  a_count res = zlen vs
  /\ a_sum res = i64 (zsum vs)
  /\ (vs <> [] -> is_minimum (a_min res) vs /\ is_maximum (a_max res) vs)
  /\ (vs = [] -> a_avg res = S754_zero false)
  /\ (vs <> [] -> a_avg res = f64_div (f64_of_Z (i64 (zsum vs))) (f64_of_Z (zlen vs))).

(** An ID passes an allow set and a deny set, each of which may be absent. *)
Definition passes {Srr : Sroar} (allow deny : option bm) (id : Z) : bool :=
  match allow with Some a => bm_contains a id | None => true end
  && negb (match deny with Some d => bm_contains d id | None => false end).

(** The values of the pairs in [blocks] whose ID passes. *)
Definition chosen {Srr : Sroar} (allow deny : option bm) (blocks : list block) : list Z :=
  map snd (filter (fun p => passes allow deny (fst p)) (all_pairs blocks)).

(** No statistic of the block is the minimum int64 (which the file format loses). *)
Definition no_min_stat (b : block) : Prop :=
  ~ In min_int64 (snd b) /\ i64 (zsum (snd b)) <> min_int64.

(** Consecutive steps of the goroutines of a parallel aggregation: [ts] names the
    goroutines that moved, in order. *)
Inductive execution (blk : Z -> acc -> res acc) (blockIndices : list Z) (numWorkers : nat) (s : pstate)
  : list nat -> pstate -> Prop :=
| exec_nil : execution blk blockIndices numWorkers s [] s
| exec_cons t ts s1 s2 : step blk blockIndices numWorkers s t = Some s1 ->
    execution blk blockIndices numWorkers s1 ts s2 -> execution blk blockIndices numWorkers s (t :: ts) s2.

(** The blocks an aggregation has to look at. *)
Definition blocks_needed {Srr : Sroar} (r : reader) (opts : aggOptions) : list Z :=
  match o_filter opts, o_deny opts with
  | None, None => zseq (BlockCount r)
  | allow, deny => matchingBlocks r allow deny
  end.

(** The same options without parallelism. *)
Definition sequential {Srr : Sroar} (opts : aggOptions) : aggOptions :=
  mkOpts (o_skip opts) (o_filter opts) (o_deny opts) 0.

(** ** Reproducibility *)

(** Two files that differ at most in bytes 36 to 43, the creation time. *)
Definition same_but_time (data1 data2 : list Z) : Prop :=
  zlen data1 = zlen data2
  /\ forall i, ~ 36 <= Z.of_nat i < 44 -> nth_error data1 i = nth_error data2 i.

(** The same call, made at another time. *)
Inductive same_call : wcall -> wcall -> Prop :=
| same_write ids vals : same_call (CWriteBlock ids vals) (CWriteBlock ids vals)
| same_estimate ids vals : same_call (CEstimate ids vals) (CEstimate ids vals)
| same_finalize now1 now2 : same_call (CFinalize now1) (CFinalize now2)
| same_finalize_close now1 now2 : same_call (CFinalizeAndClose now1) (CFinalizeAndClose now2)
| same_close : same_call CClose CClose.
