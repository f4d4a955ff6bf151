(** Model of what the Reader reads: the functions of Reader.v, Aggregate.v, Parallel.v and
    Multi.v together with the list of the [ReadAt] calls they make, as (offset, size), in
    order.  [ReadAt] asks the operating system only for a non-empty buffer of an open file at
    an offset that is not negative.  (It repeats the system call when that returns fewer
    bytes; those repetitions are not counted.) *)
From Verif Require Import Machine Encoding Sroar Writer Reader Aggregate Parallel Multi Racing.

Definition traced (A : Type) : Type := res A * list (Z * Z).
(** No code: an answer that needs no read. *)
Definition plain {A} (m : res A) : traced A := (m, []).
(** No code: one thing after another; an error or panic ends the call. *)
Definition tbind {A B} (m : traced A) (f : A -> traced B) : traced B :=
  match fst m with
  | Ok a => let n := f a in (fst n, snd m ++ snd n)
  | Err e => (Err e, snd m)
  | Panic => (Panic, snd m)
  end.
Notation "'let!' x ':=' m 'in' k" := (tbind m (fun x => k))
  (at level 200, x pattern, m at level 100, k at level 200, right associativity).

(** pkg/col/reader_io.go:10-20 [readBytesAt]. *)
Definition readBytesT (data : list Z) (open : bool) (offset size : Z) : traced (list Z) :=
  (readBytesAt data open offset size,
   if (0 <=? offset) && (0 <? size) && open then [(offset, size)] else []).

(** pkg/col/reader_header.go:9-67 [readHeader]. *)
Definition readHeaderT (data : list Z) : traced fileHeader :=
  let! buf := readBytesT data true 0 headerSize in
  let! magic := plain (readBufferedUint64 buf 0) in
  let! version := plain (readBufferedUint32 buf 8) in
  let! columnType := plain (readBufferedUint32 buf 12) in
  let! blockCount := plain (readBufferedUint64 buf 16) in
  let! blockSizeTarget := plain (readBufferedUint32 buf 24) in
  let! compressionType := plain (readBufferedUint32 buf 28) in
  let! encodingType := plain (readBufferedUint32 buf 32) in
  let! creationTime := plain (readBufferedUint64 buf 36) in
  let! bitmapOffset := plain (readBufferedUint64 buf 44) in
  let! bitmapSize := plain (readBufferedUint64 buf 52) in
  plain (if negb (magic =? MagicNumber) then Err ErrMagic
  else if negb (version =? Version) then Err ErrVersion
  else Ok (mkHeader magic version columnType blockCount blockSizeTarget compressionType
                    encodingType creationTime bitmapOffset bitmapSize)).

(** pkg/col/reader_header.go:70-142 [readFooter]. *)
Definition readFooterT (data : list Z) (h : fileHeader)
  : traced (fileHeader * footerMetadata * list footerEntry) :=
  let fileSize := zlen data in
  if fileSize <? 24 then plain (Err ErrFooter)
  else
    let footerMetaOffset := fileSize - 24 in
    let! buf := readBytesT data true footerMetaOffset 24 in
    let! footerSize := plain (readBufferedUint64 buf 0) in
    let! checksum := plain (readBufferedUint64 buf 8) in
    let! magic := plain (readBufferedUint64 buf 16) in
    if negb (magic =? MagicNumber) then plain (Err ErrFooter)
    else
      let footerStart := i64 (footerMetaOffset - i64 footerSize) in
      if footerStart <? 64 then plain (Err ErrFooter)
      else
        let! cbuf := readBytesT data true footerStart 4 in
        let! blockIndexCount := plain (readBufferedUint32 cbuf 0) in
        let h' := if blockIndexCount >? h_blockCount h then set_blockCount h blockIndexCount else h in
        let blockIndexSize := blockIndexCount * 56 in
        let! ibuf := readBytesT data true (i64 (footerStart + 4)) blockIndexSize in
        let! index := plain (readEntries ibuf (zseq blockIndexCount)) in
        plain (Ok (h', mkMeta footerSize checksum magic, index)).

(** pkg/col/reader.go:23-56 [NewReader]. *)
Definition NewReaderT (data : list Z) : traced reader :=
  let! h := readHeaderT data in
  let! (h', meta, index) := readFooterT data h in
  plain (Ok (mkReader data true h' meta index None false)).

(** pkg/col/reader_block.go:9-69 [readBlock], pkg/col/reader.go:59-61 [GetPairs]. *)
Definition readBlockT (r : reader) (blockIndex : Z) : traced (list Z * list Z) :=
  if (blockIndex <? 0) || (blockIndex >=? zlen (r_index r)) then plain (Err ErrIndex)
  else
    match nth_error (r_index r) (Z.to_nat blockIndex) with
    | None => plain (Err ErrIndex)
    | Some e =>
        let blockOffset := i64 (e_offset e) in
        let dataOffset := i64 (blockOffset + blockHeaderSize) in
        let dataSize := e_size e - blockHeaderSize in
        let! blockData := readBytesT (r_data r) (r_open r) dataOffset dataSize in
        let! idSectionOffset := plain (layoutField blockData 0) in
        let! idSectionSize := plain (layoutField blockData 4) in
        let! valueSectionOffset := plain (layoutField blockData 8) in
        let! valueSectionSize := plain (layoutField blockData 12) in
        plain (if idSectionSize =? 0 then Err ErrSection
        else if valueSectionSize =? 0 then Err ErrSection
        else
          let idStart := 16 + idSectionOffset in
          let idEnd := idStart + idSectionSize in
          let valueStart := 16 + valueSectionOffset in
          let valueEnd := valueStart + valueSectionSize in
          if (idEnd >? zlen blockData) || (valueEnd >? zlen blockData) then Err ErrSection
          else
            decodeBlockData (slice blockData idStart idSectionSize)
                            (slice blockData valueStart valueSectionSize)
                            (e_count e) (h_encodingType (r_header r)))
    end.
(** pkg/col/reader.go:59-61. *)
Definition GetPairsT (r : reader) (blockIdx : Z) : traced (list Z * list Z) :=
  readBlockT r (i64 blockIdx).

Section Bitmaps.
Context {Srr : Sroar}.

(** pkg/col/reader.go:147-171. *)
Definition loadGlobalIDBitmapT (r : reader) : traced bm :=
  if (h_bitmapOffset (r_header r) =? 0) || (h_bitmapSize (r_header r) =? 0) then plain (Ok bm_new)
  else
    let off := i64 (h_bitmapOffset (r_header r)) in
    let! sizeBuf := readBytesT (r_data r) (r_open r) off 4 in
    let! bitmapSize := plain (readBufferedUint32 sizeBuf 0) in
    let! buf := readBytesT (r_data r) (r_open r) (i64 (off + 4)) bitmapSize in
    plain (bm_deser buf).

(** pkg/col/reader.go:141-179 [GetGlobalIDBitmap]. *)
Definition GetGlobalIDBitmapT (r : reader) (h : heap) : (res nat * reader * heap) * list (Z * Z) :=
  match r_globalIDs r, r_cacheGlobalIDs r with
  | Some p, true => ((Ok p, r, h), [])
  | _, on =>
      let '(m, t) := loadGlobalIDBitmapT r in
      match m with
      | Ok b =>
          let '(p, h') := alloc h b in
          ((Ok p, if on then set_cache r (Some p) on else r, h'), t)
      | Err e => ((Err e, r, h), t)
      | Panic => ((Panic, r, h), t)
      end
  end.

(** pkg/col/reader_aggregate.go:179-210 [readBlockFiltered]. *)
Definition readBlockFilteredT (r : reader) (blockIndex : Z) (filter deny : option bm)
  : traced (list Z * list Z) :=
  let! (allIDs, allValues) := readBlockT r blockIndex in
  plain (match filter, deny with
  | None, None => Ok (allIDs, allValues)
  | _, _ => filterPairs filter deny allIDs allValues
  end).

(** pkg/col/reader_aggregate.go:101-118, 234-252. *)
Fixpoint scanT (get : Z -> traced (list Z * list Z)) (idx : list Z) (a : acc) : traced acc :=
  match idx with
  | [] => plain (Ok a)
  | i :: idx' => let! a' := (add_block a (fst (get i)), snd (get i)) in scanT get idx' a'
  end.

(** pkg/col/reader_aggregate.go:213-267 [aggregateWithFilter]. *)
Definition aggregateWithFilterT (r : reader) (opts : aggOptions) : traced aggResult :=
  let! matchingBlocks := plain (FilteredBlockIterator r (o_filter opts) (o_deny opts)) in
  if zlen matchingBlocks =? 0 then plain (Ok zeroResult)
  else
    let! a := scanT (fun i => readBlockFilteredT r (i64 i) (o_filter opts) (o_deny opts))
                    matchingBlocks acc0 in
    plain (Ok (result_of a)).

(** pkg/col/reader_aggregate.go:45-133 [AggregateWithOptions] for Parallel = 0. *)
Definition aggregateSequentialT (r : reader) (opts : aggOptions) : traced aggResult :=
  if has_filter opts then aggregateWithFilterT r opts
  else if (zlen (r_index r) >? 0) && negb (o_skip opts) then
    plain (Ok (result_of (fold_left add_entry (r_index r) acc0)))
  else
    let! a := scanT (GetPairsT r) (zseq (BlockCount r)) acc0 in
    plain (Ok (result_of a)).

(** The blocks that the workers read, in the order of the schedule
    (pkg/col/reader_aggregate.go:471-476). *)
Fixpoint worker_reads (blk : Z -> acc -> res acc) (idx : list Z) (n : nat) (sched : list nat) (s : pstate) : list Z :=
  match sched with
  | [] => []
  | t :: sched' =>
      match reads_next s t with Some i => [i] | None => [] end
      ++ worker_reads blk idx n sched' (match step blk idx n s t with Some s' => s' | None => s end)
  end.

(** pkg/col/reader_aggregate.go:45-49 [AggregateWithOptions] under a schedule. *)
Definition AggregateWithOptionsT (gomaxprocs : Z) (sched : list nat) (r : reader)
    (opts : aggOptions) : option (res aggResult) * list (Z * Z) :=
  let sequential := (Some (fst (aggregateSequentialT r opts)), snd (aggregateSequentialT r opts)) in
  if o_parallel opts =? 0 then sequential
  else match parallelPlan gomaxprocs r opts with
       | PlanSequential => sequential
       | PlanEmpty => (Some (Ok zeroResult), [])
       | PlanPanic => (Some Panic, [])
       | PlanFooter idx n =>
           (outcome (run (blk_footer r) idx n sched (pinit n)), [])
       | PlanReading idx n =>
           (outcome (run (blk_read r opts) idx n sched (pinit n)),
            flat_map (fun i => snd (readBlockT r (i64 i))) (worker_reads (blk_read r opts) idx n sched (pinit n)))
       end.

(** pkg/multicol/aggregate.go:62-92: the loop; the reads of each file, newest first. *)
Fixpoint multiLoopT (opts : multiOptions) (readers : list reader) (deny : bm)
    (result : aggResult) (h : heap) : (res aggResult * list reader * heap) * list (list (Z * Z)) :=
  match readers with
  | [] => ((Ok result, [], h), [])
  | r :: older =>
      let readerOpts := mkOpts (mo_skip opts) (mo_filter opts) (Some deny) 0 in
      let '(m, t) := aggregateSequentialT r readerOpts in
      match m with
      | Ok readerResult =>
          let '(g, t') := GetGlobalIDBitmapT r h in
          match g with
          | (Ok p, r', h') =>
              match nth_error h' p with
              | Some globalIDs =>
                  let result' := if a_count result =? 0 then readerResult
                                 else mergeAggregateResults result readerResult in
                  let '(res, rs, h'', ts) := multiLoopT opts older (bm_or deny globalIDs) result' h' in
                  ((res, r' :: rs, h''), (t ++ t') :: ts)
              | None => ((Panic, r' :: older, h'), [t ++ t'])
              end
          | (Err e, r', h') => ((Err e, r' :: older, h'), [t ++ t'])
          | (Panic, r', h') => ((Panic, r' :: older, h'), [t ++ t'])
          end
      | Err e => ((Err e, readers, h), [t])
      | Panic => ((Panic, readers, h), [t])
      end
  end.

(** pkg/multicol/aggregate.go:50-95 [MultiReader.Aggregate]; the reads of each file, newest
    first. *)
Definition MultiAggregateT (opts : multiOptions) (readers : list reader) (h : heap)
  : (res aggResult * list reader * heap) * list (list (Z * Z)) :=
  if zlen readers =? 0 then ((Ok zeroResult, readers, h), [])
  else
    let '(res, rs, h', ts) := multiLoopT opts (rev readers) bm_new zeroResult h in
    ((res, rev rs, h'), ts).
End Bitmaps.
