(** Model of NewReader on a file that is being written: pkg/col/reader.go:23-56 and
    reader_header.go, where every system call sees the file as it is at that moment. *)
From Verif Require Import Machine Encoding Sroar Writer Reader.

(** pkg/col/reader_header.go:70-142 [readFooter]: [size] is the file size found by Stat
    (reader.go:30-35); the three reads (lines 78, 102 and 121) see [d2], [d3] and [d4].
    For [size = zlen d2], [d2 = d3 = d4] this is [Reader.readFooter]. *)
Definition readFooterLive (size : Z) (d2 d3 d4 : list Z) (h : fileHeader)
  : res (fileHeader * footerMetadata * list footerEntry) :=
  if size <? 24 then Err ErrFooter
  else
    let footerMetaOffset := size - 24 in
    let? buf := readBytesAt d2 true footerMetaOffset 24 in
    let? footerSize := readBufferedUint64 buf 0 in
    let? checksum := readBufferedUint64 buf 8 in
    let? magic := readBufferedUint64 buf 16 in
    if negb (magic =? MagicNumber) then Err ErrFooter
    else
      let footerStart := i64 (footerMetaOffset - i64 footerSize) in
      if footerStart <? 64 then Err ErrFooter
      else
        let? cbuf := readBytesAt d3 true footerStart 4 in
        let? blockIndexCount := readBufferedUint32 cbuf 0 in
        let h' := if blockIndexCount >? h_blockCount h then set_blockCount h blockIndexCount else h in
        let blockIndexSize := blockIndexCount * 56 in
        let? ibuf := readBytesAt d4 true (i64 (footerStart + 4)) blockIndexSize in
        let? index := readEntries ibuf (zseq blockIndexCount) in
        Ok (h', mkMeta footerSize checksum magic, index).

(** pkg/col/reader.go:23-56 [NewReader]: Stat finds [size], the header is read from [d1],
    the footer from [d2], [d3] and [d4]; later reads see [d5].  [os.Open] and [Stat] are
    assumed to succeed. *)
Definition NewReaderLive (size : Z) (d1 d2 d3 d4 d5 : list Z) : res reader :=
  let? h := readHeader d1 in
  let? (h', meta, index) := readFooterLive size d2 d3 d4 h in
  Ok (mkReader d5 true h' meta index None false).

(** On a file nobody writes to this is [NewReader]. *)
Lemma live_quiet d : NewReaderLive (zlen d) d d d d d = NewReader d.
Proof. reflexivity. Qed.
