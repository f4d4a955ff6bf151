(** Slices as Go has them: windows into arrays that may be shared.  Model of what the
    library does to its callers' slices and what it keeps of them: the encoders
    (pkg/col/encoding.go:10-79, writer_encoding.go:8-49), SimpleWriter
    (pkg/col/simple_writer.go:58-208) and the decoder (pkg/col/reader_decode.go:9-150). *)
From Verif Require Import Machine Encoding Sroar FileIO Writer SimpleWriter Reader Parallel.

(** The arrays of a program, made by the caller or by the library, with elements of type
    uint64 and int64 (no code: Go's heap). *)
Definition mem : Type := list (list Z).

(** A slice: its array, where it starts, its length and its capacity (no code: Go's runtime). *)
Record gslice : Type := mkG { g_array : nat; g_off : nat; g_len : nat; g_cap : nat }.
(** The nil slice (pkg/col/simple_writer.go:160-161). *)
Definition gnil : gslice := mkG 0 0 0 0.

(** The array under a slice (no code: Go's runtime). *)
Definition array_of (m : mem) (s : gslice) : list Z := nth (g_array s) m [].
(** What a slice shows: [s[0]], ..., [s[len(s)-1]] (no code: Go's runtime). *)
Definition contents (m : mem) (s : gslice) : list Z := firstn (g_len s) (skipn (g_off s) (array_of m s)).
(** [s[i]] (for instance pkg/col/encoding.go:21). *)
Definition gget (m : mem) (s : gslice) (i : nat) : Z := nth (g_off s + i) (array_of m s) 0.
(** [s[i] = v] (for instance pkg/col/encoding.go:21, simple_writer.go:205-206).  An index
    outside the array would be a panic; the loops below stay inside (MemoryFacts.v). *)
Definition gset (m : mem) (s : gslice) (i : nat) (v : Z) : mem :=
  set_nth (g_array s) (set_nth (g_off s + i) v (array_of m s)) m.
(** A loop that assigns [s[i]], [s[i+1]], ... (for instance pkg/col/simple_writer.go:204-207). *)
Fixpoint gstores (m : mem) (s : gslice) (i : nat) (l : list Z) : mem :=
  match l with
  | [] => m
  | v :: l' => gstores (gset m s i v) s (S i) l'
  end.
(** [make([]T, n, c)] (for instance pkg/col/simple_writer.go:72-73, reader_decode.go:116). *)
Definition gmake (m : mem) (n c : nat) : gslice * mem := (mkG (length m) 0 n c, m ++ [repeat 0 c]).
(** [copy(dst, src)] (pkg/col/simple_writer.go:74-75, writer_encoding.go:18). *)
Definition gcopy (m : mem) (dst src : gslice) : mem := gstores m dst 0 (firstn (g_len dst) (contents m src)).
(** [s[k:]] (pkg/col/simple_writer.go:147-148). *)
Definition gfrom (s : gslice) (k : nat) : gslice := mkG (g_array s) (g_off s + k) (g_len s - k) (g_cap s - k).
(** [s[:k]] (pkg/col/reader_decode.go:75). *)
Definition gto (s : gslice) (k : nat) : gslice := mkG (g_array s) (g_off s) k (g_cap s).

Section Append.
(** How [append] chooses a new capacity is up to Go's runtime: any function of the old
    capacity and the length needed (pkg/col/simple_writer.go:83-84). *)
Variable grow : nat -> nat -> nat.

(** [append(s, l...)] (pkg/col/simple_writer.go:83-84, reader_decode.go:137, 145): in place
    if the capacity suffices, else in a new array. *)
Definition gappend (m : mem) (s : gslice) (l : list Z) : gslice * mem :=
  let n := (g_len s + length l)%nat in
  if (n <=? g_cap s)%nat then
    let s' := mkG (g_array s) (g_off s) n (g_cap s) in (s', gstores m s' (g_len s) l)
  else
    let '(s', m') := gmake m n (Nat.max n (grow (g_cap s) n)) in (s', gstores m' s' 0 (contents m s ++ l)).
(** Appending one by one (pkg/col/reader_decode.go:137, 145). *)
Fixpoint gappends (m : mem) (s : gslice) (l : list Z) : gslice * mem :=
  match l with
  | [] => (s, m)
  | v :: l' => let '(s', m') := gappend m s [v] in gappends m' s' l'
  end.

(** ** Encoders *)
(** pkg/col/encoding.go:20-22, 56-58: [result[i] = values[i] - values[i-1]]. *)
Fixpoint delta_loop (w : Z -> Z) (m : mem) (values result : gslice) (i n : nat) : mem :=
  match n with
  | O => m
  | S n' => delta_loop w (gset m result i (w (gget m values i - gget m values (i - 1)))) values result (S i) n'
  end.
(** pkg/col/encoding.go:10-25 [deltaEncode] (w = [u64]), 46-61 [deltaEncodeInt64] (w = [i64]). *)
Definition deltaEncodeM (w : Z -> Z) (m : mem) (values : gslice) : gslice * mem :=
  if (g_len values =? 0)%nat then gmake m 0 0
  else
    let '(result, m1) := gmake m (g_len values) (g_len values) in
    let m2 := gset m1 result 0 (gget m1 values 0) in
    (result, delta_loop w m2 values result 1 (g_len values - 1)).
(** pkg/col/writer_encoding.go:14-24: the first half of [encodeData].  (The second half
    only reads the slice: [encodeData] in Writer.v.) *)
Definition encodeDataM (w : Z -> Z) (encodingType : Z) (m : mem) (data : gslice) : option gslice * mem :=
  match usesDelta encodingType with
  | None => (None, m)
  | Some false => let '(e, m1) := gmake m (g_len data) (g_len data) in (Some e, gcopy m1 e data)
  | Some true => let '(e, m1) := deltaEncodeM w m data in (Some e, m1)
  end.

Section Writers.
Context {Srr : Sroar}.

(** pkg/col/writer_block_io.go:21-68 [WriteBlock] on slices: it reads its arguments
    (Writer.v) and makes arrays for the encoders.  Simplified: the encoders run once, on
    the whole slices; the code runs them again on prefixes (44) and keeps none of the arrays. *)
Definition WriteBlockM (ids values : gslice) (m : mem) (w : writer) : res unit * mem * writer :=
  let '(x, w') := WriteBlock (contents m ids) (contents m values) w in
  let m1 := snd (encodeDataM u64 (w_enc w) m ids) in
  let m2 := snd (encodeDataM i64 (w_enc w) m1 values) in
  (x, m2, w').
(** pkg/col/writer_block_io.go:328-353 [EstimateBlockSize] on slices. *)
Definition EstimateM (ids values : gslice) (m : mem) (w : writer) : res Z * mem * writer :=
  let '(x, w') := EstimateBlockSize (contents m ids) (contents m values) w in
  let m1 := snd (encodeDataM u64 (w_enc w) m ids) in
  let m2 := snd (encodeDataM i64 (w_enc w) m1 values) in
  (x, m2, w').

(** ** SimpleWriter *)
(** pkg/col/simple_writer.go:10-18, with slices. *)
Record swriterM : Type := mkSWM {
  swm_writer : writer;
  swm_pendingIDs : gslice;
  swm_pendingValues : gslice;
  swm_targetBlockSize : Z;
  swm_closed : bool;
  swm_totalItems : Z
}.
(** pkg/col/simple_writer.go:21-40 [NewSimpleWriter]. *)
Definition NewSimpleWriterM (now : Z) (options : list writerOption) (faults : list fault) (m : mem) : res (swriterM * mem) :=
  let? w := fst (NewWriter now options faults) in
  let '(p, m1) := gmake m 0 0 in
  let '(q, m2) := gmake m1 0 0 in
  Ok (mkSWM w p q 131072 false 0, m2).
(** pkg/col/simple_writer.go:43-54 [SetTargetBlockSize]. *)
Definition SetTargetM (size : Z) (m : mem) (sw : swriterM) : res unit * mem * swriterM :=
  if swm_closed sw then (Err ErrClosed, m, sw)
  else (Ok tt, m, mkSWM (set_target (swm_writer sw) (u32 size)) (swm_pendingIDs sw) (swm_pendingValues sw)
                        size (swm_closed sw) (swm_totalItems sw)).
(** pkg/col/simple_writer.go:178-208 [sortByID]: sorts pairs read from the slices, and
    assigns them back. *)
Definition sortByIDM (srt : sorter) (m : mem) (ids values : gslice) : mem :=
  let pairs := srt (combine (contents m ids) (contents m values)) in
  gstores (gstores m ids 0 (map fst pairs)) values 0 (map snd pairs).
(** pkg/col/simple_writer.go:121-165 [flushIfNeeded]. *)
Fixpoint flushM (fuel : nat) (force : bool) (m : mem) (sw : swriterM) : res unit * mem * swriterM :=
  match fuel with
  | O => (Err ErrFuel, m, sw)
  | S fuel' =>
      if (g_len (swm_pendingIDs sw) =? 0)%nat then (Ok tt, m, sw)
      else
        let shouldWrite := if force then true else Z.of_nat (g_len (swm_pendingIDs sw)) >=? 1000 in
        if shouldWrite then
          let '(r, m', w') := WriteBlockM (swm_pendingIDs sw) (swm_pendingValues sw) m (swm_writer sw) in
          match r with
          | Err (ErrBlockFull itemsWritten) =>
              flushM fuel' force m'
                (mkSWM w' (gfrom (swm_pendingIDs sw) (Z.to_nat itemsWritten)) (gfrom (swm_pendingValues sw) (Z.to_nat itemsWritten))
                       (swm_targetBlockSize sw) (swm_closed sw) (u64 (swm_totalItems sw + itemsWritten)))
          | Err e => (Err e, m', mkSWM w' (swm_pendingIDs sw) (swm_pendingValues sw)
                                       (swm_targetBlockSize sw) (swm_closed sw) (swm_totalItems sw))
          | Panic => (Panic, m', mkSWM w' (swm_pendingIDs sw) (swm_pendingValues sw)
                                       (swm_targetBlockSize sw) (swm_closed sw) (swm_totalItems sw))
          | Ok _ => (Ok tt, m', mkSWM w' gnil gnil (swm_targetBlockSize sw) (swm_closed sw)
                                      (u64 (swm_totalItems sw + Z.of_nat (g_len (swm_pendingIDs sw)))))
          end
        else (Ok tt, m, sw)
  end.
(** pkg/col/simple_writer.go:58-88 [Write]. *)
Definition SWriteM (srt : sorter) (ids values : gslice) (m : mem) (sw : swriterM) : res unit * mem * swriterM :=
  if swm_closed sw then (Err ErrClosed, m, sw)
  else if negb (g_len ids =? g_len values)%nat then (Err ErrLength, m, sw)
  else if (g_len ids =? 0)%nat then (Ok tt, m, sw)
  else
    let '(newIDs, m) := gmake m (g_len ids) (g_len ids) in
    let '(newValues, m) := gmake m (g_len values) (g_len values) in
    let m := gcopy m newIDs ids in
    let m := gcopy m newValues values in
    let m := if negb (isSorted (contents m newIDs)) then sortByIDM srt m newIDs newValues else m in
    let '(pendingIDs, m) := gappend m (swm_pendingIDs sw) (contents m newIDs) in
    let '(pendingValues, m) := gappend m (swm_pendingValues sw) (contents m newValues) in
    flushM (S (g_len pendingIDs)) false m
      (mkSWM (swm_writer sw) pendingIDs pendingValues (swm_targetBlockSize sw) (swm_closed sw) (swm_totalItems sw)).
(** pkg/col/simple_writer.go:91-108 [Close]. *)
Definition SCloseM (now : Z) (m : mem) (sw : swriterM) : res unit * mem * swriterM :=
  if swm_closed sw then (Ok tt, m, sw)
  else
    let '(x, m1, sw1) := flushM (S (g_len (swm_pendingIDs sw))) true m sw in
    match x with
    | Ok _ =>
        let '(y, w') := FinalizeAndClose now (swm_writer sw1) in
        let closed := match y with Ok _ => true | _ => swm_closed sw1 end in
        (y, m1, mkSWM w' (swm_pendingIDs sw1) (swm_pendingValues sw1) (swm_targetBlockSize sw1) closed (swm_totalItems sw1))
    | Err e => (Err e, m1, sw1)
    | Panic => (Panic, m1, sw1)
    end.
End Writers.

(** ** Decoder *)
(** pkg/col/reader_decode.go:93-108: [s[i] += s[i-1]]. *)
Fixpoint undelta_loop (w : Z -> Z) (m : mem) (s : gslice) (i n : nat) : mem :=
  match n with
  | O => m
  | S n' => undelta_loop w (gset m s i (w (gget m s i + gget m s (i - 1)))) s (S i) n'
  end.
(** pkg/col/reader_decode.go:93-95, 96-98: from 1 to the length. *)
Definition undeltaM (w : Z -> Z) (m : mem) (s : gslice) : mem := undelta_loop w m s 1 (g_len s - 1).
(** pkg/col/reader_decode.go:115-150 [decodeUVarInts]. *)
Definition decodeUVarIntsM (m : mem) (buf : list Z) (count : Z) : res gslice * mem :=
  let '(vals, m) := gmake m 0 (Z.to_nat count) in
  match decodeUVarInts_loop (Z.to_nat count) true buf with
  | Err e => (Err e, m)
  | Panic => (Panic, m)
  | Ok (l, stopped) =>
      let '(vals, m) := gappends m vals l in
      if (stopped : bool) then (Ok vals, m)
      else let '(vals, m) := gappends m vals (map (fun i => u64 (i + 1)) (zdrop (zlen l) (zseq count))) in (Ok vals, m)
  end.
(** pkg/col/reader_decode.go:32, 50, 79: [make], and a loop that assigns every element. *)
Definition gfill (m : mem) (l : list Z) : gslice * mem :=
  let '(s, m) := gmake m (length l) (length l) in (s, gstores m s 0 l).
(** pkg/col/reader_decode.go:9-112 [decodeBlockData]. *)
Definition decodeBlockDataM (m : mem) (idBytes valueBytes : list Z) (count encodingType : Z) : res (gslice * gslice) * mem :=
  let '(x, m) :=
    if isVarInt encodingType then
      match decodeUVarIntsM m idBytes count with
      | (Ok ids, m) => let '(values, m) := gfill m (decodeVarIntValues (Z.to_nat count) 0 valueBytes) in (Ok (ids, values), m)
      | (Err e, m) => (Err e, m)
      | (Panic, m) => (Panic, m)
      end
    else
      let maxCount := zlen idBytes / 8 in
      let count := if count >? maxCount then maxCount else count in
      let '(ids, m) := gfill m (decodeFixed idBytes count (fun x => x) (fun i => u64 (i + 1))) in
      let maxCount := zlen valueBytes / 8 in
      let '(count, ids) :=
        if count >? maxCount then
          (maxCount, if Z.of_nat (g_len ids) >? maxCount then gto ids (Z.to_nat maxCount) else ids)
        else (count, ids) in
      let '(values, m) := gfill m (decodeFixed valueBytes count i64 (fun i => i64 ((i + 1) * 100))) in
      (Ok (ids, values), m)
  in
  match x with
  | Ok (ids, values) =>
      let m :=
        if (encodingType =? EncodingDeltaBoth) || (encodingType =? EncodingVarIntBoth) then undeltaM i64 (undeltaM u64 m ids) values
        else if (encodingType =? EncodingDeltaID) || (encodingType =? EncodingVarIntID) then undeltaM u64 m ids
        else if (encodingType =? EncodingDeltaValue) || (encodingType =? EncodingVarIntValue) then undeltaM i64 m values
        else m in
      (Ok (ids, values), m)
  | Err e => (Err e, m)
  | Panic => (Panic, m)
  end.
End Append.

Section Readers.
Context {Srr : Sroar}.
Variable grow : nat -> nat -> nat.
(** pkg/col/reader_block.go:9-69 [readBlock], returning slices.  The byte buffer of line 22
    is made by the call and not returned. *)
Definition readBlockM (m : mem) (r : reader) (blockIndex : Z) : res (gslice * gslice) * mem :=
  if (blockIndex <? 0) || (blockIndex >=? zlen (r_index r)) then (Err ErrIndex, m)
  else
    match nth_error (r_index r) (Z.to_nat blockIndex) with
    | None => (Err ErrIndex, m)
    | Some e =>
        let blockOffset := i64 (e_offset e) in
        let dataOffset := i64 (blockOffset + blockHeaderSize) in
        let dataSize := e_size e - blockHeaderSize in
        let section :=
          let? blockData := readBytesAt (r_data r) (r_open r) dataOffset dataSize in
          let? idSectionOffset := layoutField blockData 0 in
          let? idSectionSize := layoutField blockData 4 in
          let? valueSectionOffset := layoutField blockData 8 in
          let? valueSectionSize := layoutField blockData 12 in
          if idSectionSize =? 0 then Err ErrSection
          else if valueSectionSize =? 0 then Err ErrSection
          else
            let idStart := 16 + idSectionOffset in
            let idEnd := idStart + idSectionSize in
            let valueStart := 16 + valueSectionOffset in
            let valueEnd := valueStart + valueSectionSize in
            if (idEnd >? zlen blockData) || (valueEnd >? zlen blockData) then Err ErrSection
            else Ok (slice blockData idStart idSectionSize, slice blockData valueStart valueSectionSize) in
        match section with
        | Ok (idBytes, valueBytes) => decodeBlockDataM grow m idBytes valueBytes (e_count e) (h_encodingType (r_header r))
        | Err x => (Err x, m)
        | Panic => (Panic, m)
        end
    end.
(** pkg/col/reader.go:59-61 [GetPairs]. *)
Definition GetPairsM (m : mem) (r : reader) (blockIdx : Z) : res (gslice * gslice) * mem := readBlockM m r (i64 blockIdx).
End Readers.
