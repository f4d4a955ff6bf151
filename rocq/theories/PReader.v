(** Properties of the reader on arbitrary bytes (C30-C36).  Only statements and
    concrete cases; proofs are in ArbFacts.v and CrashFacts.v. *)
From Verif Require Import Machine Encoding FileIO Sroar SroarFacts Writer Reader Aggregate Parallel Spec MachineFacts ArbFacts CorruptFacts CrashFacts HostileFacts Examples PAggregate.

(** Hand-made files: a header, one block and a footer, in the layout of format.go. *)
Definition craft_header (blockCount encoding : Z) : list Z :=
  le_bytes 8 MagicNumber ++ le_bytes 4 Version ++ le_bytes 4 0 ++ le_bytes 8 blockCount ++ le_bytes 4 4096
  ++ le_bytes 4 0 ++ le_bytes 4 encoding ++ le_bytes 8 0 ++ le_bytes 8 0 ++ le_bytes 8 0 ++ zeros 4.
Definition craft_block (ids vals : list Z) : list Z :=
  zeros 64 ++ le_bytes 4 0 ++ le_bytes 4 (zlen ids) ++ le_bytes 4 (zlen ids) ++ le_bytes 4 (zlen vals) ++ ids ++ vals.
Definition craft_entry (offset size count : Z) : list Z :=
  le_bytes 8 offset ++ le_bytes 4 size ++ zeros 40 ++ le_bytes 4 count.
Definition craft_footer (entries : list (list Z)) : list Z :=
  le_bytes 4 (zlen entries) ++ concat entries ++ le_bytes 8 (4 + 56 * zlen entries) ++ zeros 8 ++ le_bytes 8 MagicNumber.
Definition craft (encoding count : Z) (ids vals : list Z) : list Z :=
  craft_header 1 encoding ++ craft_block ids vals
  ++ craft_footer [craft_entry 64 (zlen (craft_block ids vals)) count].
Definition bytesb (l : list Z) : bool := forallb (fun b => (0 <=? b) && (b <? 256)) l.
Lemma bytesb_sound l : bytesb l = true -> Forall is_byte l.
Proof.
  intros H. apply Forall_forall. intros x Hx. unfold bytesb in H. rewrite forallb_forall in H. apply H in Hx.
  apply andb_prop in Hx. destruct Hx as [H1 H2]. apply Z.leb_le in H1. apply Z.ltb_lt in H2. split; assumption.
Qed.

Definition sizesb (r : reader) : bool := forallb (fun e => 80 <=? e_size e) (r_index r).
Lemma sizesb_sound r : sizesb r = true -> Forall (fun e => 80 <= e_size e) (r_index r).
Proof.
  intros H. apply Forall_forall. intros x Hx. unfold sizesb in H. rewrite forallb_forall in H. apply H in Hx. apply Z.leb_le. exact Hx.
Qed.

(** C30: NewReader accepts only files that begin and end with the magic number, with
    version 1 and a footer that, if its stored size is not negative as an int64, lies
    behind the header; anything else is an error, never a panic. *)
Theorem C30_foreign_files_rejected : forall data, Forall is_byte data -> zlen data < two63 ->
  (exists e, NewReader data = Err e)
  \/ exists r, NewReader data = Ok r
     /\ slice data 0 8 = le_bytes 8 MagicNumber /\ slice data 8 4 = le_bytes 4 1
     /\ slice data (zlen data - 8) 8 = le_bytes 8 MagicNumber
     /\ 24 <= zlen data
     /\ (forall size, le_val (slice data (zlen data - 24) 8) = size -> size < two63 -> 64 + size + 24 <= zlen data).
Proof.
  intros data HB HS. destruct (NewReader data) as [r|e|] eqn:E.
  - right. exists r. split; [reflexivity|]. destruct (NewReader_accepts data r HB HS E) as (L & M1 & M2 & M3 & _ & _ & _ & _ & F & B & _).
    split; [exact M1|]. split; [exact M2|]. split; [exact M3|]. split; [exact L|]. intros size Hs Hb. rewrite F, Hs in B.
    assert (0 <= size) by (rewrite <- Hs; apply MachineFacts.le_val_range; apply MachineFacts.Forall_slice; exact HB).
    unfold i64, two63, two64 in *. Ltac Zify.zify_post_hook ::= Z.div_mod_to_equations. lia.
  - left. exists e. reflexivity.
  - destruct (NewReader_no_panic data HB E).
Qed.
Print Assumptions C30_foreign_files_rejected.
Example C30_case : Forall is_byte (craft 0 1 (le_bytes 8 7) (le_bytes 8 9)) /\ zlen (craft 0 1 (le_bytes 8 7) (le_bytes 8 9)) < two63
  /\ (exists r, NewReader (craft 0 1 (le_bytes 8 7) (le_bytes 8 9)) = Ok r)
  /\ NewReader (0 :: craft 0 1 (le_bytes 8 7) (le_bytes 8 9)) = Err ErrMagic
  /\ NewReader (craft 0 1 (le_bytes 8 7) (le_bytes 8 9) ++ [0]) = Err ErrFooter.
Proof.
  split; [apply bytesb_sound; vm_compute; reflexivity|]. split; [vm_compute; reflexivity|].
  split; [eexists; vm_compute; reflexivity|]. split; vm_compute; reflexivity.
Qed.

(** C31: a file whose writer never finalized (it may have been closed, or the process
    may have stopped) and in which no block was torn is refused, unless it ends, without
    padding, with the values of the last block stored and their bytes spell the magic
    number -- for a raw file, the last value is the magic number. *)
Theorem C31_unfinalized_rejected : forall {Srr : Sroar} options faults h w,
  running options faults h w -> no_torn_block h -> never_finalized h -> zlen (bytes_of w) < two63 ->
  (exists e, NewReader (bytes_of w) = Err e)
  \/ exists blocks b before, stored h (blocks ++ [b])
       /\ bytes_of w = before ++ value_section (encoding_of options) (snd b)
       /\ slice (bytes_of w) (zlen (bytes_of w) - 8) 8 = le_bytes 8 MagicNumber
       /\ (encoding_of options = EncodingRaw -> exists vals, snd b = vals ++ [MagicNumber]).
Proof.
  intros Srr options faults h w H1 H2 H3 H4.
  destruct (unfinalized_rejected options faults h w H1 H2 H3 H4) as [H|(blocks & b & pre & Hs & Hg & Hb & Hm)]; [left; exact H|right].
  exists blocks, b, pre. split; [exact Hs|]. split; [exact Hb|]. split; [exact Hm|].
  intros E. rewrite Hb, E in Hm. exact (raw_last_value pre b Hg Hm).
Qed.
Print Assumptions C31_unfinalized_rejected.
Definition open_calls : list wcall := [CWriteBlock [5; 2] [10; -3]; CWriteBlock [] []; CWriteBlock [7] [MagicNumber]].
Definition notorn1 (p : wcall * res Z) : bool :=
  match p with (CWriteBlock _ _, Err ErrIO) | (CWriteBlock _ _, Err ErrMismatch) => false | _ => true end.
Lemma notorn_sound h : forallb notorn1 h = true -> no_torn_block h.
Proof.
  intros H ids vals r Hin. rewrite forallb_forall in H. specialize (H _ Hin). cbn in H.
  split; intros ->; discriminate.
Qed.
Lemma neverfin_sound h : forallb (fun p : wcall * res Z => negb (is_finalize (fst p))) h = true -> never_finalized h.
Proof.
  intros H c r Hin. rewrite forallb_forall in H. specialize (H _ Hin). cbn in H. destruct (is_finalize c); [discriminate|reflexivity].
Qed.
Example C31_case : running [] [] (hist [] [] open_calls) (state [] [] open_calls)
  /\ no_torn_block (hist [] [] open_calls) /\ never_finalized (hist [] [] open_calls)
  /\ zlen (bytes_of (state [] [] open_calls)) < two63
  /\ map snd (hist [] [] open_calls) = [Ok 0; Err ErrEmpty; Ok 0].
Proof.
  split; [apply check_running_sound; vm_compute; reflexivity|].
  split; [apply notorn_sound; vm_compute; reflexivity|].
  split; [apply neverfin_sound; vm_compute; reflexivity|].
  split; vm_compute; reflexivity.
Qed.
(** The exception does occur: a raw block of 247 pairs fills its page. *)
Definition page_calls : list wcall := [CWriteBlock (map Z.of_nat (seq 1 247)) (repeat 0 244 ++ [4; 0; MagicNumber])].
Example C31_exception : is_ok (NewReader (bytes_of (state [] [] page_calls))) = true.
Proof. vm_compute. reflexivity. Qed.

(** C32: a file torn in the middle of WriteBlock can be accepted.  Here the write of the
    padding fails (or the process dies in front of it): the file then ends with the
    user's values, which spell an empty footer. *)
Definition torn_calls : list wcall := [CWriteBlock [1; 2; 3; 4] [0; 4; 0; MagicNumber]].
Theorem C32_torn_rejected_refuted : exists faults h w r, running [] faults h w
  /\ h = [(CWriteBlock [1; 2; 3; 4] [0; 4; 0; MagicNumber], Err ErrIO)]
  /\ NewReader (bytes_of w) = Ok r /\ BlockCount r = 0.
Proof.
  exists (fault_at 41 0), (hist [] (fault_at 41 0) torn_calls), (state [] (fault_at 41 0) torn_calls),
    (opened (NewReader (bytes_of (state [] (fault_at 41 0) torn_calls)))).
  split; [apply check_running_sound; vm_compute; reflexivity|].
  split; [vm_compute; reflexivity|].
  split; [apply opened_ok; vm_compute; reflexivity|]. vm_compute. reflexivity.
Qed.
Print Assumptions C32_torn_rejected_refuted.

(** C33: opening never panics; reading never panics if no index entry gives a block
    size below 80 -- and, for aggregating with a deny filter only, the header announces
    at most 2^45 blocks -- however damaged the rest is ... *)
Theorem C33_no_panic : forall {Srr : Sroar} data, Forall is_byte data ->
  NewReader data <> Panic
  /\ forall r, NewReader data = Ok r -> Forall (fun e => 80 <= e_size e) (r_index r) ->
       (forall i, GetPairs r i <> Panic)
       /\ Aggregate r <> Panic
       /\ (forall gomaxprocs sched skip allow deny, (allow = None -> deny <> None -> BlockCount r <= 2 ^ 45) ->
             AggregateWithOptions gomaxprocs sched r (mkOpts skip allow deny 0) <> Some Panic).
Proof.
  intros Srr data HB. split; [apply NewReader_no_panic; exact HB|]. intros r Hr HS.
  pose proof (typed_counts _ (NewReader_typed data r HB Hr)) as HC.
  split; [intros i; apply readBlock_no_panic; exact HS|].
  split; [apply aggregate_no_panic; [assumption|assumption|discriminate]|].
  intros g sched skip allow deny HN H. unfold AggregateWithOptions in H. cbn in H. injection H as H. revert H. apply aggregate_no_panic; [assumption|assumption|].
  cbn [o_filter has_filter o_deny]. intros HF ->. split; [|apply HN; [reflexivity|destruct deny; [discriminate|discriminate HF]]].
  apply (NewReader_count data r HB Hr).
Qed.
Print Assumptions C33_no_panic.
Example C33_case : Forall is_byte (craft 4 3 [1] [255]) /\ exists r, NewReader (craft 4 3 [1] [255]) = Ok r
  /\ Forall (fun e => 80 <= e_size e) (r_index r).
Proof.
  split; [apply bytesb_sound; vm_compute; reflexivity|]. exists (opened (NewReader (craft 4 3 [1] [255]))).
  split; [apply opened_ok; vm_compute; reflexivity|]. apply sizesb_sound. vm_compute. reflexivity.
Qed.
(** ... and otherwise does: a 148-byte file with an entry of size 79. *)
Definition short_entry_file : list Z := craft_header 1 0 ++ craft_footer [craft_entry 0 79 1].
Theorem C33_getpairs_refuted : exists data r, Forall is_byte data /\ NewReader data = Ok r /\ GetPairs r 0 = Panic.
Proof.
  exists short_entry_file, (opened (NewReader short_entry_file)). split; [apply bytesb_sound; vm_compute; reflexivity|].
  split; [apply opened_ok; vm_compute; reflexivity|]. vm_compute. reflexivity.
Qed.
Print Assumptions C33_getpairs_refuted.
(** The parallel path also panics when the header announces more blocks than the
    index holds (with two workers and entries of legal size). *)
Definition overcounted_file : list Z := craft_header 3 0 ++ craft_footer [craft_entry 64 96 1].
Theorem C33_parallel_refuted : exists data r, Forall is_byte data /\ NewReader data = Ok r
  /\ Forall (fun e => 80 <= e_size e) (r_index r)
  /\ exists sched, AggregateWithOptions 4 sched r (mkOpts false None None 2) = Some Panic.
Proof.
  exists overcounted_file, (opened (NewReader overcounted_file)). split; [apply bytesb_sound; vm_compute; reflexivity|].
  split; [apply opened_ok; vm_compute; reflexivity|].
  split; [apply sizesb_sound; vm_compute; reflexivity|].
  exists [0; 0; 0; 0; 1; 1; 1; 1; 2; 2; 2; 2]%nat. vm_compute. reflexivity.
Qed.
Print Assumptions C33_parallel_refuted.
(** So does aggregating with a deny filter alone when the header announces very many
    blocks, although the index is empty. *)
Theorem C33_deny_refuted : forall {Srr : Sroar} n deny skip, 2 ^ 45 < n < two64 ->
  exists data r, Forall is_byte data /\ zlen data = 92 /\ NewReader data = Ok r /\ r_index r = []
  /\ aggregateSequential r (mkOpts skip None (Some deny) 0) = Panic.
Proof.
  intros Srr n deny skip Hn. destruct (announces_opens n 0) as (r & HR & HC & HI); [unfold is_u64; lia|unfold is_u32, two32; lia|].
  exists (announces n 0), r. split; [apply announces_bytes|]. split; [apply zlen_announces|]. split; [exact HR|].
  split; [destruct (r_index r); [reflexivity|rewrite zlen_cons in HI; pose proof (zlen_nonneg l); lia]|].
  unfold aggregateSequential, aggregateWithFilter. cbn [has_filter o_filter o_deny FilteredBlockIterator].
  unfold make_panics. rewrite HC, Z.max_l by lia. replace (n * 8 >? 2 ^ 48) with true by (symmetry; apply Z.gtb_lt; lia). rewrite orb_true_r. reflexivity.
Qed.
Print Assumptions C33_deny_refuted.

(** C34: on any bytes GetPairs returns at most as many IDs as values and at most as
    many values as the index entry's count, and equally many IDs and values unless
    the encoding is a varint one ... *)
Theorem C34_pairs : forall data r i ids vals, Forall is_byte data -> NewReader data = Ok r -> GetPairs r i = Ok (ids, vals) ->
  zlen ids <= zlen vals
  /\ (IsVarIntEncoded r = false -> zlen ids = zlen vals)
  /\ (exists e, nth_error (r_index r) (Z.to_nat (i64 i)) = Some e /\ zlen vals <= e_count e)
  /\ Forall is_u64 ids /\ Forall is_i64 vals.
Proof.
  intros data r i ids vals HB Hr H. pose proof (typed_counts _ (NewReader_typed data r HB Hr)) as HC.
  destruct (readBlock_len r _ ids vals HC H) as (_ & e & He & L & N & _ & U & I).
  split; [lia|]. split; [exact N|]. split; [exists e; split; [exact He|lia]|]. split; [|exact I]. apply U.
  unfold NewReader in Hr. destruct (readHeader data); cbn [rbind] in Hr; try discriminate. destruct (readFooter data _) as [[[h' m] ix]| |]; cbn [rbind] in Hr; try discriminate.
  injection Hr as <-. exact HB.
Qed.
Print Assumptions C34_pairs.
Example C34_case : Forall is_byte (craft 0 5 (le_bytes 8 7) (le_bytes 8 9))
  /\ exists r, NewReader (craft 0 5 (le_bytes 8 7) (le_bytes 8 9)) = Ok r /\ GetPairs r 0 = Ok ([7], [9]).
Proof.
  split; [apply bytesb_sound; vm_compute; reflexivity|]. eexists. split; [vm_compute; reflexivity|]. vm_compute. reflexivity.
Qed.
(** ... in which case there can be fewer IDs: the second varint below does not end. *)
Theorem C34_varint_refuted : exists data r ids vals, Forall is_byte data /\ NewReader data = Ok r
  /\ GetPairs r 0 = Ok (ids, vals) /\ zlen ids < zlen vals.
Proof.
  exists (craft 4 2 [1; 128] [2; 4]), (opened (NewReader (craft 4 2 [1; 128] [2; 4]))), [1], [1; 2].
  split; [apply bytesb_sound; vm_compute; reflexivity|]. split; [apply opened_ok; vm_compute; reflexivity|].
  split; vm_compute; reflexivity.
Qed.
Print Assumptions C34_varint_refuted.

(** C35: in a raw file, every ID and value read from a block that lies inside the file
    is eight bytes of that block ... *)
Theorem C35_raw_data_is_from_file : forall data r i ids vals, Forall is_byte data -> zlen data < two63 ->
  NewReader data = Ok r -> EncodingType r = EncodingRaw -> GetPairs r i = Ok (ids, vals) ->
  exists e, nth_error (r_index r) (Z.to_nat (i64 i)) = Some e
   /\ (e_offset e + e_size e <= zlen data ->
       (forall x, In x ids -> exists p, e_offset e + 80 <= p /\ p + 8 <= e_offset e + e_size e /\ x = le_val (slice data p 8))
       /\ (forall x, In x vals -> exists p, e_offset e + 80 <= p /\ p + 8 <= e_offset e + e_size e /\ x = i64 (le_val (slice data p 8)))).
Proof.
  intros data r i ids vals HB HS Hr HE H. destruct (NewReader_accepts data r HB HS Hr) as (_ & _ & _ & _ & HD & HO & _).
  pose proof (NewReader_typed data r HB Hr) as HT. rewrite <- HD in HB.
  destruct (raw_reads_bytes r _ ids vals HB HO HT HE H) as (e & He & G). exists e. split; [exact He|]. intros Hin. rewrite <- HD. apply G; rewrite HD; assumption.
Qed.
Print Assumptions C35_raw_data_is_from_file.
Example C35_case : exists r e, NewReader (craft 0 1 (le_bytes 8 7) (le_bytes 8 9)) = Ok r /\ EncodingType r = EncodingRaw
  /\ GetPairs r 0 = Ok ([7], [9]) /\ nth_error (r_index r) 0 = Some e
  /\ e_offset e + e_size e <= zlen (craft 0 1 (le_bytes 8 7) (le_bytes 8 9)).
Proof.
  eexists. eexists. split; [vm_compute; reflexivity|]. split; [vm_compute; reflexivity|].
  split; [vm_compute; reflexivity|]. split; [vm_compute; reflexivity|]. vm_compute. discriminate.
Qed.
(** ... but IDs missing from a varint section are made up as 2, 3, ..., *)
Theorem C35_invented_ids_refuted : exists data r, Forall is_byte data /\ NewReader data = Ok r
  /\ data = craft 4 3 [9] [2] /\ GetPairs r 0 = Ok ([9; 2; 3], [1; 0; 0]).
Proof.
  exists (craft 4 3 [9] [2]), (opened (NewReader (craft 4 3 [9] [2]))).
  split; [apply bytesb_sound; vm_compute; reflexivity|]. split; [apply opened_ok; vm_compute; reflexivity|].
  split; vm_compute; reflexivity.
Qed.
Print Assumptions C35_invented_ids_refuted.
(** and a raw block that reaches past the end of the file is completed with zeros: here
    the 16-byte layout is found in the file but the data is not. *)
Definition past_end_file : list Z :=
  craft_header 1 0 ++ le_bytes 4 100 ++ le_bytes 4 8 ++ le_bytes 4 100 ++ le_bytes 4 8 ++ craft_footer [craft_entry 0 300 1].
Theorem C35_past_end_refuted : exists data r e, Forall is_byte data /\ NewReader data = Ok r
  /\ nth_error (r_index r) 0 = Some e /\ zlen data < e_offset e + 80 + 100 /\ GetPairs r 0 = Ok ([0], [0]).
Proof.
  exists past_end_file, (opened (NewReader past_end_file)).
  eexists. split; [apply bytesb_sound; vm_compute; reflexivity|]. split; [apply opened_ok; vm_compute; reflexivity|].
  split; [vm_compute; reflexivity|]. split; vm_compute; reflexivity.
Qed.
Print Assumptions C35_past_end_refuted.

(** C36: no change to a stored value is noticed.  In every finalized raw file, for
    every block i and position j, overwriting the eight bytes of the j-th value by any
    other number gives a file that opens with the same header and index, returns the
    other number, and still aggregates to the old result. *)
Theorem C36_changes_detected_refuted : forall {Srr : Sroar} options faults h now w,
  finished_run options faults h now w -> encoding_of options = EncodingRaw ->
  exists r blocks, NewReader (bytes_of w) = Ok r /\ stored h blocks
    /\ forall i j b v v', nth_error blocks i = Some b -> nth_error (snd b) j = Some v -> is_i64 v' ->
       exists before after r', bytes_of w = before ++ le_bytes 8 v ++ after
         /\ NewReader (before ++ le_bytes 8 v' ++ after) = Ok r'
         /\ r_header r' = r_header r /\ r_index r' = r_index r
         /\ GetPairs r (Z.of_nat i) = Ok b
         /\ GetPairs r' (Z.of_nat i) = Ok (fst b, firstn j (snd b) ++ v' :: skipn (S j) (snd b))
         /\ Aggregate r' = Aggregate r.
Proof. exact @corruption_unnoticed. Qed.
Print Assumptions C36_changes_detected_refuted.
Example C36_case : exists h now w b v, finished_run [] [] h now w /\ encoding_of [] = EncodingRaw
  /\ stored h [b] /\ nth_error (snd b) 1 = Some v.
Proof.
  exists (hist [] [] [CWriteBlock [5; 2] [10; -3]]), 12, (final [] [] [CWriteBlock [5; 2] [10; -3]] 12), ([5; 2], [10; -3]), (-3).
  split; [apply check_finished_sound; vm_compute; reflexivity|]. split; [reflexivity|]. split; [|reflexivity].
  assert (H : map snd (hist [] [] [CWriteBlock [5; 2] [10; -3]]) = [Ok 0]) by (vm_compute; reflexivity).
  unfold hist in *. revert H. generalize (fst (run_calls [CWriteBlock [5; 2] [10; -3]] (new_w [] []))). intros outs H.
  destruct outs as [|o1 outs]; [discriminate|]. cbn [combine map snd] in *. injection H as ->.
  apply (stored_cons _ _ _ [_] []); [constructor|]. constructor.
Qed.

(** C53: opening a file this library wrote builds an index smaller than the file ... *)
Theorem C53_index_size : forall {Srr : Sroar} options faults h now w, finished_run options faults h now w ->
  exists r, NewReader (bytes_of w) = Ok r /\ BlockCount r = zlen (r_index r) /\ 92 + 56 * zlen (r_index r) <= zlen (bytes_of w).
Proof. exact @written_index. Qed.
Print Assumptions C53_index_size.
Example C53_case : finished_run agg_options [] agg_history 12 agg_writer /\ zlen (r_index agg_reader) = 2.
Proof. split; [apply agg_finished|vm_compute; reflexivity]. Qed.
(** ... but a file of 92 bytes can make NewReader succeed with an index of any size up to
    2^32 - 1 entries (240 GB of memory), and with any number of blocks announced. *)
Theorem C53_bounded_memory_refuted : forall entries blocks, is_u32 entries -> is_u64 blocks ->
  exists data r, Forall is_byte data /\ zlen data = 92 /\ NewReader data = Ok r
    /\ zlen (r_index r) = entries /\ BlockCount r = Z.max blocks entries.
Proof.
  intros entries blocks He Hb. destruct (announces_opens blocks entries Hb He) as (r & HR & HC & HI).
  exists (announces blocks entries), r. split; [apply announces_bytes|]. split; [apply zlen_announces|]. auto.
Qed.
Print Assumptions C53_bounded_memory_refuted.
