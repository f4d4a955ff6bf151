(** The write side of [os.File], with injected faults.

    A file is its bytes, the current offset, whether it is open, and a stream of
    faults.  Every system call takes the next element of the stream: [NoFault]
    (also when the stream is used up) lets it succeed, [Fault k] makes it fail; a
    failing write has written its first [k] bytes.  A crash of the process is a
    fault after which nothing else is called. *)
From Verif Require Import Machine.

(** A failing system call: the error branches of pkg/col/writer_header.go:12-15, 36-38, writer_block_io.go:105-108 and so on. *)
Inductive fault : Set := NoFault | Fault (k : Z).

(** [*os.File] as the field [file] of pkg/col/writer.go:19-28; [os.Create] at writer.go:32. *)
Record file : Type := mkFile {
  f_data : list Z;
  f_pos : Z;
  f_open : bool;
  f_faults : list fault
}.

(** Bytes of a file after writing [bs] at offset [pos] (POSIX write: a gap is
    filled with zeros, an empty write changes nothing)
    (called through [Write] at pkg/col/writer_block_io.go, writer_block.go and writer_finalize.go). *)
Definition overwrite (data : list Z) (pos : Z) (bs : list Z) : list Z :=
  match bs with
  | [] => data
  | _ => ztake pos data ++ zeros (pos - zlen data) ++ bs ++ zdrop (pos + zlen bs) data
  end.

(** The file after [Write] moved its offset. *)
Definition write_at (f : file) (bs : list Z) : file :=
  mkFile (overwrite (f_data f) (f_pos f) bs) (f_pos f + zlen bs) (f_open f) (tl (f_faults f)).

(** [f.Write(bs)]
    (pkg/col/writer_header.go:36, 48; writer_block_io.go:195, 218, 247; writer_finalize.go:22, 27) *)
Definition file_write (bs : list Z) (f : file) : res Z * file :=
  if f_open f then
    match f_faults f with
    | Fault k :: _ => (Err ErrIO, write_at f (ztake k bs))
    | _ => (Ok (zlen bs), write_at f bs)
    end
  else (Err ErrIO, f).

(** [io.SeekStart] and so on, as at pkg/col/writer_header.go:12 and writer_finalize.go:60, 92. *)
Inductive whence : Set := SeekStart | SeekCurrent | SeekEnd.

(** The file after [Seek] moved its offset. *)
Definition set_pos (f : file) (p : Z) : file :=
  mkFile (f_data f) p (f_open f) (tl (f_faults f)).

(** [f.Seek(off, whence)]; a negative target offset is an error
    (pkg/col/writer_header.go:12, writer_block_io.go:105, 152, writer_finalize.go:12, 60, 92). *)
Definition file_seek (off : Z) (wh : whence) (f : file) : res Z * file :=
  if f_open f then
    match f_faults f with
    | Fault _ :: _ => (Err ErrIO, set_pos f (f_pos f))
    | _ =>
        let p := off + match wh with
                       | SeekStart => 0
                       | SeekCurrent => f_pos f
                       | SeekEnd => zlen (f_data f)
                       end in
        if p <? 0 then (Err ErrIO, set_pos f (f_pos f))
        else (Ok p, set_pos f p)
    end
  else (Err ErrIO, f).

(** [f.Sync()] (pkg/col/writer_block_io.go:319, writer_finalize.go:199) *)
Definition file_sync (f : file) : res unit * file :=
  if f_open f then
    match f_faults f with
    | Fault _ :: _ => (Err ErrSync, set_pos f (f_pos f))
    | _ => (Ok tt, set_pos f (f_pos f))
    end
  else (Err ErrSync, f).

(** [f.Close()]: the descriptor is released even when an error is reported
    (pkg/col/writer_finalize.go:48, 208). *)
Definition file_close (f : file) : res unit * file :=
  if f_open f then
    let f' := mkFile (f_data f) (f_pos f) false (tl (f_faults f)) in
    match f_faults f with
    | Fault _ :: _ => (Err ErrIO, f')
    | _ => (Ok tt, f')
    end
  else (Err ErrIO, f).
