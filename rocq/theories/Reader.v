(** Model of the reader: pkg/col/reader.go, reader_header.go, reader_io.go,
    reader_block.go, reader_decode.go, on arbitrary file contents. *)
From Verif Require Import Machine Encoding Sroar Writer.

(** pkg/col/format.go:33-45 [FileHeader]. *)
Record fileHeader : Type := mkHeader {
  h_magic : Z; h_version : Z; h_columnType : Z; h_blockCount : Z; h_blockSizeTarget : Z;
  h_compressionType : Z; h_encodingType : Z; h_creationTime : Z; h_bitmapOffset : Z;
  h_bitmapSize : Z
}.

(** pkg/col/format.go:72-81 [FooterEntry]. *)
Record footerEntry : Type := mkEntry {
  e_offset : Z; e_size : Z; e_minID : Z; e_maxID : Z; e_minValue : Z; e_maxValue : Z;
  e_sum : Z; e_count : Z
}.

(** pkg/col/format.go:84-88 [FooterMetadata]. *)
Record footerMetadata : Type := mkMeta { fm_size : Z; fm_checksum : Z; fm_magic : Z }.

(** pkg/col/reader.go:12-20 [Reader].  The file is its bytes (nobody modifies it
    while it is open for reading) and whether it has been closed.  [globalIDs] is a
    pointer: an index into a heap of bitmaps, or nil. *)
Record reader : Type := mkReader {
  r_data : list Z;
  r_open : bool;
  r_header : fileHeader;
  r_meta : footerMetadata;
  r_index : list footerEntry;
  r_globalIDs : option nat;
  r_cacheGlobalIDs : bool
}.

(** pkg/col/reader_io.go:10-20 [readBytesAt].  [make] with a negative size panics;
    [ReadAt] fails on a negative offset, on a closed file, and (Linux pread) when
    offset+size leaves the int64 range; bytes past the end of the file stay zero
    because io.EOF is ignored. *)
Definition readBytesAt (data : list Z) (open : bool) (offset size : Z) : res (list Z) :=
  if size <? 0 then Panic
  else if offset <? 0 then Err ErrIO
  else if size =? 0 then Ok []
  else if negb open then Err ErrIO
  else if offset + size >? max_int64 then Err ErrIO
  else
    let got := slice data offset size in
    Ok (got ++ zeros (size - zlen got)).

(** pkg/col/reader_io.go:41-48: [buf[offset:offset+n]] panics outside the buffer. *)
Definition readBuffered (n : Z) (buf : list Z) (offset : Z) : res Z :=
  if (offset <? 0) || (offset + n >? zlen buf) then Panic
  else Ok (le_val (slice buf offset n)).
(** pkg/col/reader_io.go:41-43 *)
Definition readBufferedUint64 : list Z -> Z -> res Z := readBuffered 8.
(** pkg/col/reader_io.go:46-48 *)
Definition readBufferedUint32 : list Z -> Z -> res Z := readBuffered 4.

(** pkg/col/reader_header.go:9-67 [readHeader]. *)
Definition readHeader (data : list Z) : res fileHeader :=
  let? buf := readBytesAt data true 0 headerSize in
  let? magic := readBufferedUint64 buf 0 in
  let? version := readBufferedUint32 buf 8 in
  let? columnType := readBufferedUint32 buf 12 in
  let? blockCount := readBufferedUint64 buf 16 in
  let? blockSizeTarget := readBufferedUint32 buf 24 in
  let? compressionType := readBufferedUint32 buf 28 in
  let? encodingType := readBufferedUint32 buf 32 in
  let? creationTime := readBufferedUint64 buf 36 in
  let? bitmapOffset := readBufferedUint64 buf 44 in
  let? bitmapSize := readBufferedUint64 buf 52 in
  if negb (magic =? MagicNumber) then Err ErrMagic
  else if negb (version =? Version) then Err ErrVersion
  else Ok (mkHeader magic version columnType blockCount blockSizeTarget compressionType
                    encodingType creationTime bitmapOffset bitmapSize).

(** pkg/col/reader_header.go:126-139: one entry of the block index; the offsets are
    uint32 and may wrap. *)
Definition readEntry (buf : list Z) (i : Z) : res footerEntry :=
  let entryOffset := u32 (i * 56) in
  let? offset := readBufferedUint64 buf entryOffset in
  let? size := readBufferedUint32 buf (u32 (entryOffset + 8)) in
  let? minID := readBufferedUint64 buf (u32 (entryOffset + 12)) in
  let? maxID := readBufferedUint64 buf (u32 (entryOffset + 20)) in
  let? minValue := readBufferedUint64 buf (u32 (entryOffset + 28)) in
  let? maxValue := readBufferedUint64 buf (u32 (entryOffset + 36)) in
  let? sum := readBufferedUint64 buf (u32 (entryOffset + 44)) in
  let? count := readBufferedUint32 buf (u32 (entryOffset + 52)) in
  Ok (mkEntry offset size minID maxID minValue maxValue sum count).

(** pkg/col/reader_header.go:124-139: the loop over the entries. *)
Fixpoint readEntries (buf : list Z) (idx : list Z) : res (list footerEntry) :=
  match idx with
  | [] => Ok []
  | i :: idx' =>
      let? e := readEntry buf i in
      let? es := readEntries buf idx' in
      Ok (e :: es)
  end.

(** [r.header.BlockCount = ...] (pkg/col/reader_header.go:107-112). *)
Definition set_blockCount (h : fileHeader) (n : Z) : fileHeader :=
  mkHeader (h_magic h) (h_version h) (h_columnType h) n (h_blockSizeTarget h)
           (h_compressionType h) (h_encodingType h) (h_creationTime h) (h_bitmapOffset h)
           (h_bitmapSize h).

(** pkg/col/reader_header.go:70-142 [readFooter]. *)
Definition readFooter (data : list Z) (h : fileHeader)
  : res (fileHeader * footerMetadata * list footerEntry) :=
  let fileSize := zlen data in
  if fileSize <? 24 then Err ErrFooter
  else
    let footerMetaOffset := fileSize - 24 in
    let? buf := readBytesAt data true footerMetaOffset 24 in
    let? footerSize := readBufferedUint64 buf 0 in
    let? checksum := readBufferedUint64 buf 8 in
    let? magic := readBufferedUint64 buf 16 in
    if negb (magic =? MagicNumber) then Err ErrFooter
    else
      let footerStart := i64 (footerMetaOffset - i64 footerSize) in
      if footerStart <? 64 then Err ErrFooter
      else
        let? cbuf := readBytesAt data true footerStart 4 in
        let? blockIndexCount := readBufferedUint32 cbuf 0 in
        let h' := if blockIndexCount >? h_blockCount h then set_blockCount h blockIndexCount else h in
        let blockIndexSize := blockIndexCount * 56 in
        let? ibuf := readBytesAt data true (i64 (footerStart + 4)) blockIndexSize in
        let? index := readEntries ibuf (zseq blockIndexCount) in
        Ok (h', mkMeta footerSize checksum magic, index).

(** pkg/col/reader.go:23-56 [NewReader].  [os.Open] and [Stat] are assumed to succeed. *)
Definition NewReader (data : list Z) : res reader :=
  let? h := readHeader data in
  let? (h', meta, index) := readFooter data h in
  Ok (mkReader data true h' meta index None false).

(** pkg/col/reader_decode.go:115-150 [decodeUVarInts].  The loop; [first] is [i = 0];
    the boolean result says that the early return at line 132 was taken. *)
Fixpoint decodeUVarInts_loop (n : nat) (first : bool) (buf : list Z) : res (list Z * bool) :=
  match n with
  | O => Ok ([], false)
  | S n' =>
      match buf with
      | [] => Ok ([], false)
      | _ =>
          let '(v, k) := uvarint buf in
          if k <=? 0 then (if first then Err ErrVarint else Ok ([], true))
          else
            let? (vals, stopped) := decodeUVarInts_loop n' false (zdrop k buf) in
            Ok (v :: vals, stopped)
      end
  end.

(** pkg/col/reader_decode.go:115-142. *)
Definition decodeUVarInts (buf : list Z) (count : Z) : res (list Z) :=
  let? (vals, stopped) := decodeUVarInts_loop (Z.to_nat count) true buf in
  if (stopped : bool) then Ok vals
  else Ok (vals ++ map (fun i => u64 (i + 1)) (zdrop (zlen vals) (zseq count))).

(** pkg/col/reader_decode.go:50-66: varint values; the slice starts zeroed, so
    elements not reached stay 0.  [i] is the loop index. *)
Fixpoint decodeVarIntValues (n : nat) (i : Z) (buf : list Z) : list Z :=
  match n with
  | O => []
  | S n' =>
      match buf with
      | [] => repeat 0 n
      | _ =>
          let '(v, k) := decodeSignedVarInt buf in
          if k <=? 0 then i64 ((i + 1) * 100) :: decodeVarIntValues n' (i + 1) (zdrop 1 buf)
          else v :: decodeVarIntValues n' (i + 1) (zdrop k buf)
      end
  end.

(** pkg/col/reader_decode.go:14-17 [isVarInt]. *)
Definition isVarInt (e : Z) : bool :=
  (e =? EncodingVarInt) || (e =? EncodingVarIntID) || (e =? EncodingVarIntValue)
  || (e =? EncodingVarIntBoth).

(** pkg/col/reader_decode.go:26-42 and 68-87: fixed-width elements. *)
Definition decodeFixed (bs : list Z) (count : Z) (conv mock : Z -> Z) : list Z :=
  map (fun i => if i * 8 + 8 <=? zlen bs then conv (le_val (slice bs (i * 8) 8)) else mock i)
      (zseq count).

(** pkg/col/reader_decode.go:9-112 [decodeBlockData]. *)
Definition decodeBlockData (idBytes valueBytes : list Z) (count encodingType : Z)
  : res (list Z * list Z) :=
  let? (ids, values) :=
    if isVarInt encodingType then
      let? ids := decodeUVarInts idBytes count in
      Ok (ids, decodeVarIntValues (Z.to_nat count) 0 valueBytes)
    else
      let maxCount := zlen idBytes / 8 in
      let count := if count >? maxCount then maxCount else count in
      let ids := decodeFixed idBytes count (fun x => x) (fun i => u64 (i + 1)) in
      let maxCount := zlen valueBytes / 8 in
      let '(count, ids) :=
        if count >? maxCount then
          (maxCount, if zlen ids >? maxCount then ztake maxCount ids else ids)
        else (count, ids) in
      Ok (ids, decodeFixed valueBytes count i64 (fun i => i64 ((i + 1) * 100)))
  in
  if (encodingType =? EncodingDeltaBoth) || (encodingType =? EncodingVarIntBoth) then
    Ok (deltaDecode ids, deltaDecodeInt64 values)
  else if (encodingType =? EncodingDeltaID) || (encodingType =? EncodingVarIntID) then
    Ok (deltaDecode ids, values)
  else if (encodingType =? EncodingDeltaValue) || (encodingType =? EncodingVarIntValue) then
    Ok (ids, deltaDecodeInt64 values)
  else Ok (ids, values).

(** [blockData[lo:lo+4]] as a uint32 (pkg/col/reader_block.go:32-35). *)
Definition layoutField (blockData : list Z) (lo : Z) : res Z := readBufferedUint32 blockData lo.

(** pkg/col/reader_block.go:9-69 [readBlock] and pkg/col/reader.go:59-61 [GetPairs],
    which converts its uint64 argument to int. *)
Definition readBlock (r : reader) (blockIndex : Z) : res (list Z * list Z) :=
  if (blockIndex <? 0) || (blockIndex >=? zlen (r_index r)) then Err ErrIndex
  else
    match nth_error (r_index r) (Z.to_nat blockIndex) with
    | None => Err ErrIndex
    | Some e =>
        let blockOffset := i64 (e_offset e) in
        let dataOffset := i64 (blockOffset + blockHeaderSize) in
        let dataSize := e_size e - blockHeaderSize in
        let? blockData := readBytesAt (r_data r) (r_open r) dataOffset dataSize in
        let? idSectionOffset := layoutField blockData 0 in
        let? idSectionSize := layoutField blockData 4 in
        let? valueSectionOffset := layoutField blockData 8 in
        let? valueSectionSize := layoutField blockData 12 in
        if idSectionSize =? 0 then Err ErrSection
        else if valueSectionSize =? 0 then Err ErrSection
        else
          let idStart := 16 + idSectionOffset in
          let idEnd := idStart + idSectionSize in
          let valueStart := 16 + valueSectionOffset in
          let valueEnd := valueStart + valueSectionSize in
          if (idEnd >? zlen blockData) || (valueEnd >? zlen blockData) then Err ErrSection
          else
            decodeBlockData (slice blockData idStart idSectionSize)
                            (slice blockData valueStart valueSectionSize)
                            (e_count e) (h_encodingType (r_header r))
    end.

(** pkg/col/reader.go:59-61 *)
Definition GetPairs (r : reader) (blockIdx : Z) : res (list Z * list Z) :=
  readBlock r (i64 blockIdx).

(** pkg/col/reader.go:64-91 *)
Definition RVersion (r : reader) : Z := h_version (r_header r).
(** pkg/col/reader.go:69-71 *)
Definition EncodingType (r : reader) : Z := h_encodingType (r_header r).
(** pkg/col/reader.go:74-78 *)
Definition IsDeltaEncoded (r : reader) : bool :=
  (EncodingType r =? EncodingDeltaID) || (EncodingType r =? EncodingDeltaValue)
  || (EncodingType r =? EncodingDeltaBoth).
(** pkg/col/reader.go:81-86 *)
Definition IsVarIntEncoded (r : reader) : bool :=
  (EncodingType r =? EncodingVarInt) || (EncodingType r =? EncodingVarIntID)
  || (EncodingType r =? EncodingVarIntValue) || (EncodingType r =? EncodingVarIntBoth).
(** pkg/col/reader.go:89-91 *)
Definition BlockCount (r : reader) : Z := h_blockCount (r_header r).

(** pkg/col/reader.go:94-96 [Close]. *)
Definition RClose (r : reader) : res unit * reader :=
  (if r_open r then Ok tt else Err ErrIO,
   mkReader (r_data r) false (r_header r) (r_meta r) (r_index r) (r_globalIDs r)
            (r_cacheGlobalIDs r)).

Section Bitmap.
Context {Srr : Sroar}.

(** Bitmaps that live in memory; a [*sroar.Bitmap] is an index
    (the field [globalIDs] of pkg/col/reader.go:18). *)
Definition heap : Type := list bm.
(** A new bitmap: pkg/col/reader.go:149, 171. *)
Definition alloc (h : heap) (b : bm) : nat * heap := (length h, h ++ [b]).

(** Assignments to the fields of pkg/col/reader.go:18-19 (lines 129, 134-135, 152, 175). *)
Definition set_cache (r : reader) (p : option nat) (on : bool) : reader :=
  mkReader (r_data r) (r_open r) (r_header r) (r_meta r) (r_index r) p on.

(** pkg/col/reader.go:128-136 *)
Definition EnableGlobalIDBitmapCaching (r : reader) : reader := set_cache r (r_globalIDs r) true.
(** pkg/col/reader.go:133-136 *)
Definition DisableGlobalIDBitmapCaching (r : reader) : reader := set_cache r None false.

(** pkg/col/reader.go:147-171: the bitmap as stored in the file. *)
Definition loadGlobalIDBitmap (r : reader) : res bm :=
  if (h_bitmapOffset (r_header r) =? 0) || (h_bitmapSize (r_header r) =? 0) then Ok bm_new
  else
    let off := i64 (h_bitmapOffset (r_header r)) in
    let? sizeBuf := readBytesAt (r_data r) (r_open r) off 4 in
    let? bitmapSize := readBufferedUint32 sizeBuf 0 in
    let? buf := readBytesAt (r_data r) (r_open r) (i64 (off + 4)) bitmapSize in
    bm_deser buf.

(** pkg/col/reader.go:141-179 [GetGlobalIDBitmap]: a pointer to the bitmap. *)
Definition GetGlobalIDBitmap (r : reader) (h : heap) : res nat * reader * heap :=
  match r_globalIDs r, r_cacheGlobalIDs r with
  | Some p, true => (Ok p, r, h)
  | _, on =>
      match loadGlobalIDBitmap r with
      | Ok b =>
          let '(p, h') := alloc h b in
          (Ok p, if on then set_cache r (Some p) on else r, h')
      | Err e => (Err e, r, h)
      | Panic => (Panic, r, h)
      end
  end.

End Bitmap.
