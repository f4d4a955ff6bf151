(** Model of the two example programs cmd/write_example/main.go and
    cmd/read_example/main.go, which have a file format of their own.  [os.Create],
    [os.Open] and [Stat] are taken to succeed; flag parsing and text layout are not
    modelled: what is printed is given as the numbers. *)
From Verif Require Import Machine FileIO Aggregate.
From Coq Require Import Floats.SpecFloat.

(** cmd/write_example/main.go:13 and cmd/read_example/main.go:14. *)
Definition ExMagic : Z := 0x5649424553434F4C.

(** ** cmd/write_example *)

(** [binary.Write] of one value is one [Write]; the program ignores its errors
    (cmd/write_example/main.go:66-117). *)
Definition bwrite (bs : list Z) (f : file) : file := snd (file_write bs f).
(** A sequence of [binary.Write] (cmd/write_example/main.go:66-117). *)
Definition bwrites (l : list (list Z)) (f : file) : file := fold_left (fun g bs => bwrite bs g) l f.

(** [file.Read(buf)] with [len(buf) = n] at the current offset: no system call for an
    empty buffer, [io.EOF] at the end of the file, else as many bytes as there are.  The
    bytes of [buf] that were not read stay zero
    (cmd/write_example/main.go:29-202, where the checksummed bytes are read back). *)
Definition file_read (n : Z) (f : file) : res (list Z) * file :=
  if n =? 0 then (Ok [], f)
  else if f_open f then
    match f_faults f with
    | Fault _ :: _ => (Err ErrIO, set_pos f (f_pos f))
    | _ =>
        let got := slice (f_data f) (f_pos f) n in
        if zlen got =? 0 then (Err ErrIO, set_pos f (f_pos f))
        else (Ok (got ++ zeros (n - zlen got)), set_pos f (f_pos f + zlen got))
    end
  else (Err ErrIO, f).

(** cmd/write_example/main.go:38-40 *)
Definition exIDs : list Z := [1; 5; 10; 15; 20; 25; 30; 35; 40; 45].
(** cmd/write_example/main.go:39 *)
Definition exValues : list Z := [100; 200; 300; 400; 500; 600; 700; 800; 900; 1000].
(** cmd/write_example/main.go:40 *)
Definition exCount : Z := u32 (zlen exIDs).
(** cmd/write_example/main.go:43-63: the statistics; also cmd/read_example/main.go:346-366. *)
Definition minOf (l : list Z) : Z := fold_left (fun m x => if x <? m then x else m) l (nth 0 l 0).
(** cmd/write_example/main.go:44-61 *)
Definition maxOf (l : list Z) : Z := fold_left (fun m x => if x >? m then x else m) l (nth 0 l 0).
(** cmd/write_example/main.go:47-63 *)
Definition sumOf (l : list Z) : Z := fold_left (fun s x => i64 (s + x)) l 0.

(** cmd/write_example/main.go:66-74: the header, [time] being the 8 bytes of the clock. *)
Definition exHeader (time : list Z) : list (list Z) :=
  [le_bytes 8 ExMagic; le_bytes 4 1; le_bytes 4 0; le_bytes 8 1; le_bytes 4 (4 * 1024); le_bytes 4 0; le_bytes 4 0; time; zeros 24].
(** cmd/write_example/main.go:78-87: the block header up to the checksum. *)
Definition exBlockHeader : list (list Z) :=
  [le_bytes 8 (minOf exIDs); le_bytes 8 (maxOf exIDs); le_bytes 8 (minOf exValues); le_bytes 8 (maxOf exValues); le_bytes 8 (sumOf exValues);
   le_bytes 4 exCount; le_bytes 4 0; le_bytes 4 0; le_bytes 4 (u32 (exCount * 8 * 2)); le_bytes 4 (u32 (exCount * 8 * 2))].
(** cmd/write_example/main.go:94-101: checksum placeholder, reserved, layout. *)
Definition exLayout : list (list Z) :=
  [le_bytes 8 0; zeros 8; le_bytes 4 0; le_bytes 4 (u32 (exCount * 8)); le_bytes 4 (u32 (exCount * 8)); le_bytes 4 (u32 (exCount * 8))].
(** cmd/write_example/main.go:110-117: the data. *)
Definition exData : list (list Z) := map (le_bytes 8) exIDs ++ map (le_bytes 8) exValues.
(** cmd/write_example/main.go:156-166: the footer's count and entry. *)
Definition exFooter (blockSize : Z) : list (list Z) :=
  [le_bytes 4 1; le_bytes 8 64; le_bytes 4 (u32 blockSize); le_bytes 8 (minOf exIDs); le_bytes 8 (maxOf exIDs); le_bytes 8 (minOf exValues);
   le_bytes 8 (maxOf exValues); le_bytes 8 (sumOf exValues); le_bytes 4 exCount].

(** Seeks and reads whose errors end the program (cmd/write_example/main.go:29-202). *)
Definition xbind {A B} (m : res A * file) (k : A -> file -> res B * file) : res B * file :=
  match m with
  | (Ok a, f) => k a f
  | (Err e, f) => (Err e, f)
  | (Panic, f) => (Panic, f)
  end.

(** cmd/write_example/main.go:29-202 [writeFile] on the file just created; [time] are the 8
    bytes of the clock, [crc] maps bytes to the 8 bytes of their CRC-64.  The result is
    the size printed at the end.  [make] with a negative length cannot happen: offsets
    only grow. *)
Definition writeFileBytes (time : list Z) (crc : list Z -> list Z) (f0 : file) : res Z * file :=
  let f1 := bwrites exBlockHeader (bwrites (exHeader time) f0) in
  xbind (file_seek 0 SeekCurrent f1) (fun checksumPos f2 =>
  let f3 := bwrites exLayout f2 in
  xbind (file_seek 0 SeekCurrent f3) (fun dataStart f4 =>
  let f5 := bwrites exData f4 in
  xbind (file_seek 0 SeekCurrent f5) (fun dataEnd f6 =>
  xbind (file_seek dataStart SeekStart f6) (fun _ f7 =>
  xbind (file_read (dataEnd - dataStart) f7) (fun blockData f8 =>
  xbind (file_seek checksumPos SeekStart f8) (fun _ f9 =>
  let f10 := bwrite (crc blockData) f9 in
  xbind (file_seek 0 SeekEnd f10) (fun _ f11 =>
  xbind (file_seek 0 SeekCurrent f11) (fun footerStart f12 =>
  let f13 := bwrites (exFooter (dataEnd - 64)) f12 in
  xbind (file_seek 0 SeekCurrent f13) (fun footerEnd f14 =>
  let f15 := bwrite (le_bytes 8 (footerEnd - footerStart)) f14 in
  xbind (file_seek 0 SeekStart f15) (fun _ f16 =>
  xbind (file_read footerEnd f16) (fun fileData f17 =>
  let f18 := bwrites [crc fileData; le_bytes 8 ExMagic] f17 in
  file_seek 0 SeekCurrent f18))))))))))).
(** The program: a new file, and the deferred [Close] (cmd/write_example/main.go:29-202). *)
Definition writeExample (now : Z) (crc : list Z -> Z) (faults : list fault) : res Z * list Z :=
  let (r, f) := writeFileBytes (le_bytes 8 now) (fun l => le_bytes 8 (crc l)) (mkFile [] 0 true faults) in
  (r, f_data f).

(** ** cmd/read_example *)

(** [binary.Read] of a value of [n] bytes at the current offset [pos]: fails unless all
    [n] bytes are there (cmd/read_example/main.go:111-229). *)
Definition bread (n : Z) (data : list Z) (pos : Z) : res (Z * Z) :=
  let got := slice data pos n in
  if zlen got <? n then Err ErrIO else Ok (le_val got, pos + n).

(** cmd/read_example/main.go:55-64 [FooterEntry]. *)
Record exEntry : Type := mkExEntry {
  x_offset : Z; x_size : Z; x_minID : Z; x_maxID : Z; x_minValue : Z; x_maxValue : Z; x_sum : Z; x_count : Z
}.
(** cmd/read_example/main.go:76-81 [Reader]: what is used of it. *)
Record exReader : Type := mkExReader { x_data : list Z; x_version : Z; x_blockCount : Z; x_entries : list exEntry }.

(** cmd/read_example/main.go:111-156 [readFileHeader]: version and block count. *)
Definition exReadHeader (data : list Z) : res (Z * Z) :=
  let? (magic, p) := bread 8 data 0 in
  if negb (magic =? ExMagic) then Err ErrMagic
  else
    let? (version, p) := bread 4 data p in
    let? (columnType, p) := bread 4 data p in
    let? (blockCount, p) := bread 8 data p in
    let? (blockSizeTarget, p) := bread 4 data p in
    let? (compressionType, p) := bread 4 data p in
    let? (encodingType, p) := bread 4 data p in
    let? (creationTime, p) := bread 8 data p in
    Ok (version, blockCount).

(** cmd/read_example/main.go:198-223: one entry. *)
Definition exReadEntry (data : list Z) (p : Z) : res (exEntry * Z) :=
  let? (offset, p) := bread 8 data p in
  let? (size, p) := bread 4 data p in
  let? (minID, p) := bread 8 data p in
  let? (maxID, p) := bread 8 data p in
  let? (minValue, p) := bread 8 data p in
  let? (maxValue, p) := bread 8 data p in
  let? (sum, p) := bread 8 data p in
  let? (count, p) := bread 4 data p in
  Ok (mkExEntry offset size minID maxID (i64 minValue) (i64 maxValue) (i64 sum) count, p).
(** cmd/read_example/main.go:165-229: the loop over the entries. *)
Fixpoint exReadEntries (n : nat) (data : list Z) (p : Z) : res (list exEntry) :=
  match n with
  | O => Ok []
  | S n' =>
      let? (e, p) := exReadEntry data p in
      let? es := exReadEntries n' data p in
      Ok (e :: es)
  end.
(** cmd/read_example/main.go:165-229 [readFooter]. *)
Definition exReadFooter (data : list Z) : res (list exEntry) :=
  if zlen data - 8 <? 0 then Err ErrIO
  else
    let? (magic, p) := bread 8 data (zlen data - 8) in
    if negb (magic =? ExMagic) then Err ErrMagic
    else
      let? (n, p) := bread 4 data 0x140 in
      exReadEntries (Z.to_nat n) data p.
(** cmd/read_example/main.go:84-108 [NewReader]. *)
Definition exNewReader (data : list Z) : res exReader :=
  let? (version, blockCount) := exReadHeader data in
  let? entries := exReadFooter data in
  Ok (mkExReader data version blockCount entries).

(** [n] consecutive 64-bit numbers (cmd/read_example/main.go:237-376). *)
Fixpoint bread64s (n : nat) (data : list Z) (p : Z) : res (list Z) :=
  match n with
  | O => Ok []
  | S n' =>
      let? (x, p) := bread 8 data p in
      let? l := bread64s n' data p in
      Ok (x :: l)
  end.
(** What [--dump] prints: the pairs, then count, min/max ID, min/max value and sum
    (cmd/read_example/main.go:237-376). *)
Record exDump : Type := mkDump {
  d_pairs : list (Z * Z); d_count : Z; d_minID : Z; d_maxID : Z; d_minValue : Z; d_maxValue : Z; d_sum : Z
}.
(** cmd/read_example/main.go:237-376 [DumpKVPairs]; the block header and layout are read and
    not used. *)
Definition exDumpKVPairs (r : exReader) : res exDump :=
  let data := x_data r in
  let? (minID, p) := bread 8 data 0x40 in
  let? (maxID, p) := bread 8 data p in
  let? (minValue, p) := bread 8 data p in
  let? (maxValue, p) := bread 8 data p in
  let? (sum, p) := bread 8 data p in
  let? (count, p) := bread 4 data p in
  let? (encodingType, p) := bread 4 data p in
  let? (compressionType, p) := bread 4 data p in
  let? (uncompressedSize, p) := bread 4 data p in
  let? (compressedSize, p) := bread 4 data p in
  let? (checksum, p) := bread 8 data p in
  let? (idOffset, p) := bread 4 data (p + 8) in
  let? (idSize, p) := bread 4 data p in
  let? (valueOffset, p) := bread 4 data p in
  let? (valueSize, p) := bread 4 data p in
  let? ids := bread64s 10 data 0xa0 in
  let? vals := bread64s 10 data 0xf0 in
  let values := map i64 vals in
  Ok (mkDump (combine ids values) 10 (minOf ids) (maxOf ids) (minOf values) (maxOf values) (sumOf values)).

(** cmd/read_example/main.go:380-411 [AggregateFromMetadataOnly]; [globalMin] starts at the
    largest int64. *)
Definition exAggregate (r : exReader) : aggResult :=
  let totalCount := fold_left (fun a e => u32 (a + x_count e)) (x_entries r) 0 in
  let totalSum := fold_left (fun a e => i64 (a + x_sum e)) (x_entries r) 0 in
  let globalMin := fold_left (fun a e => if x_minValue e <? a then x_minValue e else a) (x_entries r) max_int64 in
  let globalMax := fold_left (fun a e => if x_maxValue e >? a then x_maxValue e else a) (x_entries r) min_int64 in
  mkAgg totalCount globalMin globalMax totalSum
        (if totalCount >? 0 then f64_div (f64_of_Z totalSum) (f64_of_Z totalCount) else f64_zero).
