(** Model of reading when system calls fail: the functions of Reader.v, Aggregate.v,
    Parallel.v and Multi.v, in which every [ReadAt] of a non-empty buffer may fail.

    [io offset size] says whether, during the call in question, the read of [size] bytes
    at [offset] succeeds.  No call of the package reads the same range twice, except when
    index entries of a damaged file coincide, so any choice of failing reads, in any order
    in which the goroutines of an aggregation make them, is such a function.  A failing
    [ReadAt] returns an error other than io.EOF (os.File.ReadAt repeats short reads and
    EINTR itself). *)
From Verif Require Import Machine Encoding Sroar Writer Reader Aggregate Parallel Multi.

Section Faults.
Variable io : Z -> Z -> bool.

(** pkg/col/reader_io.go:10-20 [readBytesAt]. *)
Definition readBytesIO (data : list Z) (open : bool) (offset size : Z) : res (list Z) :=
  let? b := readBytesAt data open offset size in
  if (0 <? size) && negb (io offset size) then Err ErrIO else Ok b.

(** pkg/col/reader_header.go:9-67 [readHeader]. *)
Definition readHeaderIO (data : list Z) : res fileHeader :=
  let? buf := readBytesIO data true 0 headerSize in
  let? magic := readBufferedUint64 buf 0 in
  let? version := readBufferedUint32 buf 8 in
  let? columnType := readBufferedUint32 buf 12 in
  let? blockCount := readBufferedUint64 buf 16 in
  let? blockSizeTarget := readBufferedUint32 buf 24 in
  let? compressionType := readBufferedUint32 buf 28 in
  let? encodingType := readBufferedUint32 buf 32 in
  let? creationTime := readBufferedUint64 buf 36 in
  let? bitmapOffset := readBufferedUint64 buf 44 in
  let? bitmapSize := readBufferedUint64 buf 52 in
  if negb (magic =? MagicNumber) then Err ErrMagic
  else if negb (version =? Version) then Err ErrVersion
  else Ok (mkHeader magic version columnType blockCount blockSizeTarget compressionType
                    encodingType creationTime bitmapOffset bitmapSize).

(** pkg/col/reader_header.go:70-142 [readFooter]. *)
Definition readFooterIO (data : list Z) (h : fileHeader)
  : res (fileHeader * footerMetadata * list footerEntry) :=
  let fileSize := zlen data in
  if fileSize <? 24 then Err ErrFooter
  else
    let footerMetaOffset := fileSize - 24 in
    let? buf := readBytesIO data true footerMetaOffset 24 in
    let? footerSize := readBufferedUint64 buf 0 in
    let? checksum := readBufferedUint64 buf 8 in
    let? magic := readBufferedUint64 buf 16 in
    if negb (magic =? MagicNumber) then Err ErrFooter
    else
      let footerStart := i64 (footerMetaOffset - i64 footerSize) in
      if footerStart <? 64 then Err ErrFooter
      else
        let? cbuf := readBytesIO data true footerStart 4 in
        let? blockIndexCount := readBufferedUint32 cbuf 0 in
        let h' := if blockIndexCount >? h_blockCount h then set_blockCount h blockIndexCount else h in
        let blockIndexSize := blockIndexCount * 56 in
        let? ibuf := readBytesIO data true (i64 (footerStart + 4)) blockIndexSize in
        let? index := readEntries ibuf (zseq blockIndexCount) in
        Ok (h', mkMeta footerSize checksum magic, index).

(** pkg/col/reader.go:23-56 [NewReader]; [statOK] is whether [os.Open] and [Stat]
    succeed. *)
Definition NewReaderIO (statOK : bool) (data : list Z) : res reader :=
  if negb statOK then Err ErrIO
  else
    let? h := readHeaderIO data in
    let? (h', meta, index) := readFooterIO data h in
    Ok (mkReader data true h' meta index None false).

(** pkg/col/reader_block.go:9-69 [readBlock], pkg/col/reader.go:59-61 [GetPairs]. *)
Definition readBlockIO (r : reader) (blockIndex : Z) : res (list Z * list Z) :=
  if (blockIndex <? 0) || (blockIndex >=? zlen (r_index r)) then Err ErrIndex
  else
    match nth_error (r_index r) (Z.to_nat blockIndex) with
    | None => Err ErrIndex
    | Some e =>
        let blockOffset := i64 (e_offset e) in
        let dataOffset := i64 (blockOffset + blockHeaderSize) in
        let dataSize := e_size e - blockHeaderSize in
        let? blockData := readBytesIO (r_data r) (r_open r) dataOffset dataSize in
        let? idSectionOffset := layoutField blockData 0 in
        let? idSectionSize := layoutField blockData 4 in
        let? valueSectionOffset := layoutField blockData 8 in
        let? valueSectionSize := layoutField blockData 12 in
        if idSectionSize =? 0 then Err ErrSection
        else if valueSectionSize =? 0 then Err ErrSection
        else
          let idStart := 16 + idSectionOffset in
          let idEnd := idStart + idSectionSize in
          let valueStart := 16 + valueSectionOffset in
          let valueEnd := valueStart + valueSectionSize in
          if (idEnd >? zlen blockData) || (valueEnd >? zlen blockData) then Err ErrSection
          else
            decodeBlockData (slice blockData idStart idSectionSize)
                            (slice blockData valueStart valueSectionSize)
                            (e_count e) (h_encodingType (r_header r))
    end.
(** pkg/col/reader.go:59-61. *)
Definition GetPairsIO (r : reader) (blockIdx : Z) : res (list Z * list Z) :=
  readBlockIO r (i64 blockIdx).

Section Bitmaps.
Context {Srr : Sroar}.

(** pkg/col/reader.go:147-171. *)
Definition loadGlobalIDBitmapIO (r : reader) : res bm :=
  if (h_bitmapOffset (r_header r) =? 0) || (h_bitmapSize (r_header r) =? 0) then Ok bm_new
  else
    let off := i64 (h_bitmapOffset (r_header r)) in
    let? sizeBuf := readBytesIO (r_data r) (r_open r) off 4 in
    let? bitmapSize := readBufferedUint32 sizeBuf 0 in
    let? buf := readBytesIO (r_data r) (r_open r) (i64 (off + 4)) bitmapSize in
    bm_deser buf.

(** pkg/col/reader.go:141-179 [GetGlobalIDBitmap]. *)
Definition GetGlobalIDBitmapIO (r : reader) (h : heap) : res nat * reader * heap :=
  match r_globalIDs r, r_cacheGlobalIDs r with
  | Some p, true => (Ok p, r, h)
  | _, on =>
      match loadGlobalIDBitmapIO r with
      | Ok b =>
          let '(p, h') := alloc h b in
          (Ok p, if on then set_cache r (Some p) on else r, h')
      | Err e => (Err e, r, h)
      | Panic => (Panic, r, h)
      end
  end.

(** pkg/col/reader_aggregate.go:179-210 [readBlockFiltered]. *)
Definition readBlockFilteredIO (r : reader) (blockIndex : Z) (filter deny : option bm)
  : res (list Z * list Z) :=
  let? (allIDs, allValues) := readBlockIO r blockIndex in
  match filter, deny with
  | None, None => Ok (allIDs, allValues)
  | _, _ => filterPairs filter deny allIDs allValues
  end.

(** pkg/col/reader_aggregate.go:213-267 [aggregateWithFilter]. *)
Definition aggregateWithFilterIO (r : reader) (opts : aggOptions) : res aggResult :=
  let? matchingBlocks := FilteredBlockIterator r (o_filter opts) (o_deny opts) in
  if zlen matchingBlocks =? 0 then Ok zeroResult
  else
    let? a := scan (fun i => readBlockFilteredIO r (i64 i) (o_filter opts) (o_deny opts))
                   matchingBlocks acc0 in
    Ok (result_of a).

(** pkg/col/reader_aggregate.go:45-133 [AggregateWithOptions] for Parallel = 0. *)
Definition aggregateSequentialIO (r : reader) (opts : aggOptions) : res aggResult :=
  if has_filter opts then aggregateWithFilterIO r opts
  else if (zlen (r_index r) >? 0) && negb (o_skip opts) then
    Ok (result_of (fold_left add_entry (r_index r) acc0))
  else
    let? a := scan (GetPairsIO r) (zseq (BlockCount r)) acc0 in
    Ok (result_of a).

(** pkg/col/reader_aggregate.go:463-491: one block read from the file. *)
Definition blk_readIO (r : reader) (opts : aggOptions) (i : Z) (a : acc) : res acc :=
  add_block a (if has_filter opts then readBlockFilteredIO r (i64 i) (o_filter opts) (o_deny opts)
               else GetPairsIO r i).

(** pkg/col/reader_aggregate.go:45-49 [AggregateWithOptions] under a schedule. *)
Definition AggregateWithOptionsIO (gomaxprocs : Z) (sched : list nat) (r : reader)
    (opts : aggOptions) : option (res aggResult) :=
  if o_parallel opts =? 0 then Some (aggregateSequentialIO r opts)
  else match parallelPlan gomaxprocs r opts with
       | PlanSequential => Some (aggregateSequentialIO r opts)
       | PlanEmpty => Some (Ok zeroResult)
       | PlanPanic => Some Panic
       | PlanFooter idx n =>
           outcome (run (blk_footer r) idx n sched (pinit n))
       | PlanReading idx n =>
           outcome (run (blk_readIO r opts) idx n sched (pinit n))
       end.

End Bitmaps.
End Faults.

Section Multi.
Context {Srr : Sroar}.

(** pkg/multicol/aggregate.go:62-92: the loop; each reader comes with what fails when its
    file is read. *)
Fixpoint multiLoopIO (opts : multiOptions) (readers : list (reader * (Z -> Z -> bool))) (deny : bm)
    (result : aggResult) (h : heap) : res aggResult * list reader * heap :=
  match readers with
  | [] => (Ok result, [], h)
  | (r, io) :: older =>
      let readerOpts := mkOpts (mo_skip opts) (mo_filter opts) (Some deny) 0 in
      match aggregateSequentialIO io r readerOpts with
      | Ok readerResult =>
          match GetGlobalIDBitmapIO io r h with
          | (Ok p, r', h') =>
              match nth_error h' p with
              | Some globalIDs =>
                  let result' := if a_count result =? 0 then readerResult
                                 else mergeAggregateResults result readerResult in
                  let '(res, rs, h'') := multiLoopIO opts older (bm_or deny globalIDs) result' h' in
                  (res, r' :: rs, h'')
              | None => (Panic, r' :: map fst older, h')
              end
          | (Err e, r', h') => (Err e, r' :: map fst older, h')
          | (Panic, r', h') => (Panic, r' :: map fst older, h')
          end
      | Err e => (Err e, map fst readers, h)
      | Panic => (Panic, map fst readers, h)
      end
  end.

(** pkg/multicol/aggregate.go:50-95 [MultiReader.Aggregate]. *)
Definition MultiAggregateIO (opts : multiOptions) (readers : list (reader * (Z -> Z -> bool)))
    (h : heap) : res aggResult * list reader * heap :=
  if zlen readers =? 0 then (Ok zeroResult, map fst readers, h)
  else
    let '(res, rs, h') := multiLoopIO opts (rev readers) bm_new zeroResult h in
    (res, rev rs, h').

End Multi.
