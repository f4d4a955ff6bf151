(** Model of the low level writer: pkg/col/constants.go, utils.go, format.go,
    types.go, writer.go, writer_options.go, writer_header.go, writer_encoding.go,
    writer_block.go, writer_block_io.go, writer_finalize.go. *)
From Verif Require Import Machine Encoding Sroar FileIO.

(** pkg/col/constants.go:9-21 *)
Definition headerSize : Z := 64.
(** pkg/col/constants.go:10 *)
Definition blockHeaderSize : Z := 64.
(** pkg/col/constants.go:11 *)
Definition blockLayoutSize : Z := 16.
(** pkg/col/constants.go:14 *)
Definition defaultBlockSize : Z := 16384.
(** pkg/col/constants.go:21 *)
Definition PageSize : Z := 4096.

(** pkg/col/format.go:9-30 *)
Definition MagicNumber : Z := 0x5642455F434F4C00.
(** pkg/col/format.go:13 *)
Definition Version : Z := 1.
(** pkg/col/format.go:16 *)
Definition DataTypeInt64 : Z := 0.
(** pkg/col/format.go:19 *)
Definition EncodingRaw : Z := 0.
(** pkg/col/format.go:20 *)
Definition EncodingDeltaID : Z := 1.
(** pkg/col/format.go:21 *)
Definition EncodingDeltaValue : Z := 2.
(** pkg/col/format.go:22 *)
Definition EncodingDeltaBoth : Z := 3.
(** pkg/col/format.go:23 *)
Definition EncodingVarInt : Z := 4.
(** pkg/col/format.go:24 *)
Definition EncodingVarIntID : Z := 5.
(** pkg/col/format.go:25 *)
Definition EncodingVarIntValue : Z := 6.
(** pkg/col/format.go:26 *)
Definition EncodingVarIntBoth : Z := 7.
(** pkg/col/format.go:29 *)
Definition CompressionNone : Z := 0.

(** pkg/col/constants.go:25-30 [calculatePadding].  Positions are never
    negative, so Go's [%] is [mod]. *)
Definition calculatePadding (currentPosition pageSize : Z) : Z :=
  if currentPosition mod pageSize =? 0 then 0
  else pageSize - currentPosition mod pageSize.

(** pkg/col/utils.go:4-22 and 25-43 [calculateMinMaxUint64], [calculateMinMaxInt64]:
    the same loop for both element types. *)
Definition calculateMinMax (values : list Z) : Z * Z :=
  match values with
  | [] => (0, 0)
  | v0 :: _ =>
      fold_left (fun '(mn, mx) v => (if v <? mn then v else mn, if v >? mx then v else mx))
                values (v0, v0)
  end.

(** pkg/col/utils.go:46-52 [calculateSumInt64] (wrapping). *)
Definition calculateSumInt64 (values : list Z) : Z :=
  fold_left (fun sum v => i64 (sum + v)) values 0.

(** pkg/col/types.go:4-11 *)
Record blockStats : Type := mkStats {
  st_minID : Z; st_maxID : Z; st_minValue : Z; st_maxValue : Z; st_sum : Z; st_count : Z
}.

(** pkg/col/writer_encoding.go:8-49 [encodeData] for one element type: [delta] is
    [deltaEncodeFunc], [enc1] is [encodeVarIntFunc].  Result: encoded elements,
    their varint bytes (empty for fixed width), section size. *)
Definition usesDelta (encodingType : Z) : option bool :=
  if (encodingType =? EncodingRaw) || (encodingType =? EncodingVarInt)
     || (encodingType =? EncodingVarIntID) then Some false
  else if (encodingType =? EncodingDeltaID) || (encodingType =? EncodingDeltaValue)
     || (encodingType =? EncodingDeltaBoth) || (encodingType =? EncodingVarIntValue)
     || (encodingType =? EncodingVarIntBoth) then Some true
  else None.

(** pkg/col/writer_encoding.go:8-49. *)
Definition usesFixedWidth (encodingType : Z) : bool :=
  (encodingType =? EncodingRaw) || (encodingType =? EncodingDeltaID)
  || (encodingType =? EncodingDeltaValue) || (encodingType =? EncodingDeltaBoth).

(** The loop of writer_encoding.go:35-42; [sectionSize] is a uint32. *)
Fixpoint encode_items (enc1 : Z -> list Z) (l : list Z) (sectionSize : Z)
  : res (list (list Z) * Z) :=
  match l with
  | [] => Ok ([], sectionSize)
  | d :: l' =>
      let bs := enc1 d in
      let dataSize := u32 (zlen bs) in
      if dataSize =? 0 then Err ErrZeroSize
      else
        let? (rest, size) := encode_items enc1 l' (u32 (sectionSize + dataSize)) in
        Ok (bs :: rest, size)
  end.

(** pkg/col/writer_encoding.go:8-49. *)
Definition encodeData (encodingType : Z) (data : list Z)
    (delta : list Z -> list Z) (enc1 : Z -> list Z) : res (list Z * list (list Z) * Z) :=
  match usesDelta encodingType with
  | None => Err ErrEncoding
  | Some d =>
      let encodedData := if d then delta data else data in
      if usesFixedWidth encodingType then
        Ok (encodedData, [], u32 (zlen encodedData * 8))
      else
        let? (bs, sectionSize) := encode_items enc1 encodedData 0 in
        if (sectionSize =? 0) && (zlen encodedData >? 0) then Err ErrZeroSize
        else Ok (encodedData, bs, sectionSize)
  end.

(** pkg/col/writer_block.go:147-154 [encodeIDs], [encodeValues]. *)
Definition encodeIDs (encodingType : Z) (ids : list Z) :=
  encodeData encodingType ids deltaEncode encodeVarInt.
(** pkg/col/writer_block.go:152-154 *)
Definition encodeValues (encodingType : Z) (values : list Z) :=
  encodeData encodingType values deltaEncodeInt64 encodeSignedVarInt.

(** pkg/col/writer_block_io.go:79-84 [useVarIntForIDs], [useVarIntForValues]. *)
Definition useVarIntForIDs (e : Z) : bool :=
  (e =? EncodingVarInt) || (e =? EncodingVarIntID) || (e =? EncodingVarIntBoth).
(** pkg/col/writer_block_io.go:82-84 *)
Definition useVarIntForValues (e : Z) : bool :=
  (e =? EncodingVarInt) || (e =? EncodingVarIntValue) || (e =? EncodingVarIntBoth).

(** pkg/col/writer_options.go:7-18 *)
Inductive writerOption : Set :=
| WithEncoding (encodingType : Z)
| WithBlockSize (blockSize : Z).

Section Writer.
Context {Srr : Sroar}.

(** pkg/col/writer.go:19-28 [Writer].  [blockCount] is a uint64; reaching 2^64
    blocks is impossible (each takes at least one byte of an int64-sized file), so
    it is not wrapped.  File positions (int64) are treated alike. *)
Record writer : Type := mkWriter {
  w_file : file;
  w_blockCount : Z;
  w_enc : Z;
  w_target : Z;
  w_positions : list Z;
  w_sizes : list Z;
  w_stats : list blockStats;
  w_ids : bm
}.

(** Assignments to the fields of pkg/col/writer.go:19-28: [w.blockPositions = append(...)] and so on at
    writer_block_io.go:111 and 303-316. *)
Definition set_file (w : writer) (f : file) : writer :=
  mkWriter f (w_blockCount w) (w_enc w) (w_target w) (w_positions w) (w_sizes w) (w_stats w) (w_ids w).
(** The bitmap after [w.globalIDs.Set(id)]: pkg/col/writer_block_io.go:75 *)
Definition set_ids (w : writer) (b : bm) : writer :=
  mkWriter (w_file w) (w_blockCount w) (w_enc w) (w_target w) (w_positions w) (w_sizes w) (w_stats w) b.
(** pkg/col/writer_options.go:16 *)
Definition set_target (w : writer) (t : Z) : writer :=
  mkWriter (w_file w) (w_blockCount w) (w_enc w) t (w_positions w) (w_sizes w) (w_stats w) (w_ids w).
(** pkg/col/writer_options.go:9 *)
Definition set_enc (w : writer) (e : Z) : writer :=
  mkWriter (w_file w) (w_blockCount w) e (w_target w) (w_positions w) (w_sizes w) (w_stats w) (w_ids w).
(** pkg/col/writer_block_io.go:111 *)
Definition push_position (w : writer) (p : Z) : writer :=
  mkWriter (w_file w) (w_blockCount w) (w_enc w) (w_target w) (w_positions w ++ [p]) (w_sizes w)
           (w_stats w) (w_ids w).
(** pkg/col/writer_block_io.go:303-316 *)
Definition push_block (w : writer) (size : Z) (st : blockStats) : writer :=
  mkWriter (w_file w) (w_blockCount w + 1) (w_enc w) (w_target w) (w_positions w)
           (w_sizes w ++ [size]) (w_stats w ++ [st]) (w_ids w).

(** A writer method: it may change the writer whatever it returns
    (the methods of pkg/col/writer*.go that return an error). *)
Definition M (A : Type) : Type := writer -> res A * writer.
(** [return nil]: for instance pkg/col/writer_finalize.go:203 *)
Definition mret {A} (a : A) : M A := fun w => (Ok a, w).
(** [return err]: for instance pkg/col/writer_finalize.go:45-47 *)
Definition mfail {A} (e : err) : M A := fun w => (Err e, w).
(** A Go panic (the index expressions of pkg/col/writer_finalize.go:135-137). *)
Definition mpanic {A} : M A := fun w => (Panic, w).
(** [if err != nil { return err }]: for instance pkg/col/writer_finalize.go:45-47 *)
Definition mbind {A B} (m : M A) (k : A -> M B) : M B :=
  fun w => match m w with
           | (Ok a, w') => k a w'
           | (Err e, w') => (Err e, w')
           | (Panic, w') => (Panic, w')
           end.
(** A call that does not touch the writer: for instance pkg/col/writer_block.go:147-154 *)
Definition mlift {A} (r : res A) : M A := fun w => (r, w).
(** A call on [w.file]: for instance pkg/col/writer_finalize.go:48 *)
Definition mfile {A} (op : file -> res A * file) : M A :=
  fun w => let '(r, f) := op (w_file w) in (r, set_file w f).
(** Reading the writer's fields: for instance pkg/col/writer_finalize.go:65 *)
Definition mget : M writer := fun w => (Ok w, w).
(** Assigning them: for instance pkg/col/writer_block_io.go:303-316 *)
Definition mmodify (f : writer -> writer) : M unit := fun w => (Ok tt, f w).

Notation "'do' x <- m ;; k" := (mbind m (fun x => k))
  (at level 200, x pattern, m at level 100, k at level 200).
Notation "m ;;; k" := (mbind m (fun _ => k)) (at level 199, right associativity).

(** [w.file.Seek], [w.file.Write], [w.file.Sync]
    (pkg/col/writer_header.go:12, 48; writer_block_io.go:105, 195, 319; writer_finalize.go:48). *)
Definition seek (off : Z) (wh : whence) : M Z := mfile (file_seek off wh).
(** pkg/col/writer_header.go:48, writer_block_io.go:195 *)
Definition write (bs : list Z) : M Z := mfile (file_write bs).
(** pkg/col/writer_block_io.go:319, writer_finalize.go:199 *)
Definition sync : M unit := mfile file_sync.
(** pkg/col/writer_finalize.go:48, 208 *)
Definition closeFile : M unit := mfile file_close.
(** [binary.Write(w.file, binary.LittleEndian, x)], x of [n] bytes: one Write
    (pkg/col/writer_block.go:18-41, 94-117; writer_block_io.go:132-148; writer_finalize.go:121, 165-173). *)
Definition writeInt (n : nat) (x : Z) : M Z := write (le_bytes n x).

(** Consecutive writes of the given byte strings, stopping at the first error;
    returns the total number of bytes written (pkg/col/writer_header.go:35-39, writer_block_io.go:211-261). *)
Fixpoint writeAll (l : list (list Z)) (acc : Z) : M Z :=
  match l with
  | [] => mret acc
  | bs :: l' => do n <- write bs ;; writeAll l' (acc + n)
  end.

(** pkg/col/format.go:100-113 [NewFileHeader] and the field list of
    writer_header.go:21-32 / writer_finalize.go:70-81, as the byte strings written
    by the loop over the fields.  [now] is [time.Now().Unix()]. *)
Definition headerFields (now blockCount target enc bitmapOffset bitmapSize : Z) : list (list Z) :=
  [ le_bytes 8 MagicNumber;
    le_bytes 4 Version;
    le_bytes 4 DataTypeInt64;
    le_bytes 8 blockCount;
    le_bytes 4 target;
    le_bytes 4 CompressionNone;
    le_bytes 4 enc;
    le_bytes 8 (u64 now);
    le_bytes 8 bitmapOffset;
    le_bytes 8 bitmapSize ].

(** pkg/col/writer_header.go:10-67 [writeHeader]. *)
Definition writeHeader (now : Z) : M unit :=
  do headerStart <- seek 0 SeekCurrent ;;
  do w <- mget ;;
  writeAll (headerFields now 0 (w_target w) (w_enc w) 0 0) 0 ;;;
  let reservedSize := headerSize - (8 + 4 + 4 + 8 + 4 + 4 + 4 + 8 + 8 + 8) in
  write (zeros reservedSize) ;;;
  do headerEnd <- seek 0 SeekCurrent ;;
  if headerEnd - headerStart =? headerSize then mret tt else mfail ErrMismatch.

(** pkg/col/writer_options.go:7-18: applying one option. *)
Definition applyOption (w : writer) (o : writerOption) : writer :=
  match o with
  | WithEncoding e => set_enc w e
  | WithBlockSize s => set_target w s
  end.

(** pkg/col/writer.go:31-60 [NewWriter].  [os.Create] is assumed to succeed and to
    give an empty file; [faults] is what will happen to its later calls.  The
    second component is the state of the file afterwards. *)
Definition NewWriter (now : Z) (options : list writerOption) (faults : list fault)
  : res writer * file :=
  let w0 := mkWriter (mkFile [] 0 true faults) 0 EncodingRaw defaultBlockSize [] [] [] bm_new in
  let w := fold_left applyOption options w0 in
  match writeHeader now w with
  | (Ok _, w') => (Ok w', w_file w')
  | (Err e, w') => (Err e, snd (file_close (w_file w')))
  | (Panic, w') => (Panic, w_file w')
  end.

(** pkg/col/writer_block_io.go:328-368 [EstimateBlockSize].  The four terms of
    [totalSize] are added as uint32 before the conversion to uint64. *)
Definition EstimateBlockSize (ids values : list Z) : M Z :=
  if negb (zlen ids =? zlen values) then mfail ErrLength
  else if zlen ids =? 0 then mfail ErrEmpty
  else
    do w <- mget ;;
    do (_, _, idSectionSize) <- mlift (encodeIDs (w_enc w) ids) ;;
    do (_, _, valueSectionSize) <- mlift (encodeValues (w_enc w) values) ;;
    let totalSize := u32 (blockHeaderSize + blockLayoutSize + idSectionSize + valueSectionSize) in
    do currentPos <- seek 0 SeekCurrent ;;
    let blockEnd := currentPos + totalSize in
    let padding := calculatePadding blockEnd PageSize in
    if padding >? 0 then mret (totalSize + padding) else mret totalSize.

(** pkg/col/writer_block.go:10-76 [writeBlockHeader]. *)
Definition writeBlockHeader (minID maxID minValueU64 maxValueU64 sumU64 count : Z) : M Z :=
  do headerStart <- seek 0 SeekCurrent ;;
  do w <- mget ;;
  writeAll [ le_bytes 8 minID; le_bytes 8 maxID; le_bytes 8 minValueU64;
             le_bytes 8 maxValueU64; le_bytes 8 sumU64; le_bytes 4 count;
             le_bytes 4 (w_enc w); le_bytes 4 CompressionNone ] 0 ;;;
  do currentPos <- seek 0 SeekCurrent ;;
  let writtenSoFar := currentPos - headerStart in
  if writtenSoFar =? 52 then mret writtenSoFar else mfail ErrMismatch.

(** pkg/col/writer_block_io.go:211-232 and 240-261: one section, either the
    precomputed varint bytes or 8 bytes per element. *)
Definition writeSection (useVarInt : bool) (encoded : list Z) (bytes : list (list Z)) : M Z :=
  if useVarInt then writeAll bytes 0
  else writeAll (map (le_bytes 8) encoded) 0.

(** pkg/col/writer_block_io.go:72-324 [writeBlockInternal]. *)
Definition writeBlockInternal (ids values : list Z) : M unit :=
  mmodify (fun w => set_ids w (fold_left bm_set ids (w_ids w))) ;;;
  do w <- mget ;;
  let enc := w_enc w in
  do (encodedIDs, encodedIdBytes, idSectionSize) <- mlift (encodeIDs enc ids) ;;
  do (encodedValues, encodedValueBytes, valueSectionSize) <- mlift (encodeValues enc values) ;;
  let '(minID, maxID) := calculateMinMax ids in
  let '(minValue, maxValue) := calculateMinMax values in
  let sum := calculateSumInt64 values in
  let count := u32 (zlen ids) in
  do blockStart <- seek 0 SeekCurrent ;;
  mmodify (fun w => push_position w blockStart) ;;;
  do headerWritten <- writeBlockHeader minID maxID (int64ToUint64 minValue)
                        (int64ToUint64 maxValue) (int64ToUint64 sum) count ;;
  writeInt 4 0 ;;;
  writeInt 4 0 ;;;
  seek 0 SeekCurrent ;;;
  writeInt 8 0 ;;;
  let headerWritten := headerWritten + 4 + 4 + 8 in
  let reserved := blockHeaderSize - headerWritten in
  seek reserved SeekCurrent ;;;
  let headerWritten := headerWritten + reserved in
  if negb (headerWritten =? blockHeaderSize) then mfail ErrMismatch
  else if idSectionSize =? 0 then mfail ErrZeroSize
  else if valueSectionSize =? 0 then mfail ErrZeroSize
  else
    let idSectionOffset := 0 in
    let valueSectionOffset := idSectionSize in
    do bytesWritten <- write (le_bytes 4 idSectionOffset ++ le_bytes 4 idSectionSize
                              ++ le_bytes 4 valueSectionOffset ++ le_bytes 4 valueSectionSize) ;;
    if negb (bytesWritten =? 16) then mfail ErrMismatch
    else
    seek 0 SeekCurrent ;;;
    do actualIdSectionSize <- writeSection (useVarIntForIDs enc) encodedIDs encodedIdBytes ;;
    if negb (u32 actualIdSectionSize =? idSectionSize) then mfail ErrMismatch
    else
    do actualValueSectionSize <-
       writeSection (useVarIntForValues enc) encodedValues encodedValueBytes ;;
    if negb (u32 actualValueSectionSize =? valueSectionSize) then mfail ErrMismatch
    else
    do blockEnd <- seek 0 SeekCurrent ;;
    let blockSize := u64 (blockEnd - blockStart) in
    let padding := calculatePadding blockEnd PageSize in
    (if padding >? 0 then write (zeros padding) else mret 0) ;;;
    let blockSize := u64 (blockSize + padding) in
    let expectedBlockSize := blockHeaderSize + blockLayoutSize + idSectionSize + valueSectionSize in
    if negb (u64 (u64 (blockSize - padding) - expectedBlockSize) =? 0) then mfail ErrMismatch
    else
    mmodify (fun w => push_block w (u32 blockSize)
                        (mkStats minID maxID minValue maxValue sum count)) ;;;
    sync.

(** pkg/col/writer_block_io.go:43-55: the search for the longest prefix that fits;
    the loop variable runs over [idx] = 1, ..., len(ids)-1 and the loop stops at the
    first failing or too large estimate. *)
Fixpoint findOptimal (ids values : list Z) (idx : list Z) (optimal : Z) : M Z :=
  match idx with
  | [] => mret optimal
  | i :: idx' => fun w =>
      match EstimateBlockSize (ztake i ids) (ztake i values) w with
      | (Ok size, w') =>
          if size <=? w_target w' then findOptimal ids values idx' i w'
          else (Ok optimal, w')
      | (Err _, w') => (Ok optimal, w')
      | (Panic, w') => (Panic, w')
      end
  end.

(** pkg/col/writer_block_io.go:21-68 [WriteBlock]. *)
Definition WriteBlock (ids values : list Z) : M unit :=
  if negb (zlen ids =? zlen values) then mfail ErrLength
  else if zlen ids =? 0 then mfail ErrEmpty
  else
    do estimatedSize <- EstimateBlockSize ids values ;;
    do w <- mget ;;
    if (estimatedSize >? w_target w) && (zlen ids >? 1) then
      do optimal <- findOptimal ids values (tl (zseq (zlen ids))) 1 ;;
      writeBlockInternal (ztake optimal ids) (ztake optimal values) ;;;
      mfail (ErrBlockFull optimal)
    else writeBlockInternal ids values.

(** pkg/col/writer_finalize.go:10-41 [writeGlobalIDBitmap]. *)
Definition writeGlobalIDBitmap : M (Z * Z) :=
  do bitmapOffset <- seek 0 SeekCurrent ;;
  do w <- mget ;;
  let buf := bm_ser (w_ids w) in
  writeInt 4 (u32 (zlen buf)) ;;;
  write buf ;;;
  do currentPos <- seek 0 SeekCurrent ;;
  mret (bitmapOffset, currentPos - bitmapOffset).

(** pkg/col/writer_block.go:79-144 [writeBlockFooter] with
    pkg/col/format.go:143-165 [NewFooterEntry]. *)
Definition writeBlockFooter (blockOffset blockSize : Z) (st : blockStats) : M unit :=
  do entryStart <- seek 0 SeekCurrent ;;
  writeAll [ le_bytes 8 blockOffset; le_bytes 4 (u32 blockSize);
             le_bytes 8 (st_minID st); le_bytes 8 (st_maxID st);
             le_bytes 8 (int64ToUint64 (st_minValue st));
             le_bytes 8 (int64ToUint64 (st_maxValue st));
             le_bytes 8 (int64ToUint64 (st_sum st));
             le_bytes 4 (st_count st) ] 0 ;;;
  do entryEnd <- seek 0 SeekCurrent ;;
  if entryEnd - entryStart =? 56 then mret tt else mfail ErrMismatch.

(** pkg/col/writer_finalize.go:133-151: the loop over the blocks; an index outside
    a slice is a panic. *)
Fixpoint writeFooterEntries (idx : list Z) : M unit :=
  match idx with
  | [] => mret tt
  | i :: idx' =>
      do w <- mget ;;
      match nth_error (w_positions w) (Z.to_nat i), nth_error (w_sizes w) (Z.to_nat i),
            nth_error (w_stats w) (Z.to_nat i) with
      | Some p, Some s, Some st => writeBlockFooter p s st ;;; writeFooterEntries idx'
      | _, _, _ => mpanic
      end
  end.

(** pkg/col/writer_finalize.go:52-204 [Finalize]. *)
Definition Finalize (now : Z) : M unit :=
  do (bitmapOffset, bitmapSize) <- writeGlobalIDBitmap ;;
  seek 0 SeekStart ;;;
  do w <- mget ;;
  writeAll (headerFields now (w_blockCount w) (w_target w) (w_enc w) bitmapOffset bitmapSize) 0 ;;;
  seek 0 SeekEnd ;;;
  do currentPos <- seek 0 SeekCurrent ;;
  let padding := calculatePadding currentPos PageSize in
  (if padding >? 0 then write (zeros padding) else mret 0) ;;;
  do footerStart <- seek 0 SeekCurrent ;;
  writeInt 4 (u32 (w_blockCount w)) ;;;
  (if w_blockCount w >? 0 then
     if negb (zlen (w_positions w) =? w_blockCount w) then mfail ErrPositions
     else writeFooterEntries (zseq (w_blockCount w))
   else mret tt) ;;;
  do footerEnd <- seek 0 SeekCurrent ;;
  let footerSize := footerEnd - footerStart in
  let footerMetaStart := footerEnd in
  writeInt 8 (u64 footerSize) ;;;
  writeInt 8 0 ;;;
  writeInt 8 MagicNumber ;;;
  do footerMetaEnd <- seek 0 SeekCurrent ;;
  if negb (footerMetaEnd - footerMetaStart =? 24) then mfail ErrMismatch
  else if negb (footerMetaEnd - footerStart =? footerSize + 24) then mfail ErrMismatch
  else sync.

(** pkg/col/writer_finalize.go:44-49 [FinalizeAndClose], 207-209 [Close]. *)
Definition FinalizeAndClose (now : Z) : M unit := Finalize now ;;; closeFile.
(** pkg/col/writer_finalize.go:207-209 *)
Definition Close : M unit := closeFile.

(** A client's calls on a writer (pkg/col/writer_block_io.go:21, 328; writer_finalize.go:44, 52, 207). *)
Inductive wcall : Set :=
| CWriteBlock (ids values : list Z)
| CEstimate (ids values : list Z)
| CFinalize (now : Z)
| CFinalizeAndClose (now : Z)
| CClose.

(** The outcome of one call; [Ok] carries the estimate for [CEstimate], 0 otherwise
    (pkg/col/writer_block_io.go:21, 328; writer_finalize.go:44, 52, 207). *)
Definition run_call (c : wcall) : M Z :=
  match c with
  | CWriteBlock ids values => WriteBlock ids values ;;; mret 0
  | CEstimate ids values => EstimateBlockSize ids values
  | CFinalize now => Finalize now ;;; mret 0
  | CFinalizeAndClose now => FinalizeAndClose now ;;; mret 0
  | CClose => Close ;;; mret 0
  end.

(** A history: the calls in order, with the outcome of each
    (no code: any program that uses pkg/col/writer.go:31 and those methods). *)
Fixpoint run_calls (cs : list wcall) (w : writer) : list (res Z) * writer :=
  match cs with
  | [] => ([], w)
  | c :: cs' =>
      let '(r, w1) := run_call c w in
      let '(rs, w2) := run_calls cs' w1 in
      (r :: rs, w2)
  end.

End Writer.
