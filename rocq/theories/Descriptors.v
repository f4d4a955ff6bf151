(** Model of the file descriptors of a process that opens Readers and creates Writers
    (pkg/col/reader.go:23-56, 94-96; pkg/col/writer.go:31-60; pkg/multicol/aggregate.go:27-35).

    The process's table of descriptors is a list: [os.Open] and [os.Create] add an entry,
    the first [Close] of an [os.File] removes it, also when it reports an error; a second
    [Close] of the same [os.File] does not reach the operating system.  The entry of the
    [d]th opening call is [d] (operating systems use small numbers again; an os.File never
    passes on the number of another).  Every [os.Open], [os.Create], [Stat] and every read
    and write may fail. *)
From Verif Require Import Machine Encoding Sroar FileIO Writer Reader Aggregate Parallel Multi ReadFault.

Section Descriptors.
Context {Srr : Sroar}.

(** What the program holds: the result of its [d]th opening call (pkg/col/reader.go:23, writer.go:31). *)
Inductive handle : Type := NoHandle | ReaderHandle (r : reader) | WriterHandle (w : writer).
(** The process: its handles and its descriptors (no code). *)
Record process : Type := mkProcess { p_handles : list handle; p_table : list nat }.

(** No code: close(2) of the descriptor [d]. *)
Definition release (d : nat) (table : list nat) : list nat := filter (fun x => negb (Nat.eqb x d)) table.
(** No code: handle [i] replaced. *)
Fixpoint put_handle (i : nat) (h : handle) (hs : list handle) : list handle :=
  match hs, i with
  | [], _ => []
  | _ :: hs', O => h :: hs'
  | x :: hs', S i' => x :: put_handle i' h hs'
  end.

(** pkg/col/reader.go:23-56 [NewReader], with [file.Close()] at lines 32, 45 and 51. *)
Definition openFD (openOK statOK : bool) (io : Z -> Z -> bool) (data : list Z) (d : nat) (table : list nat) : res reader * list nat :=
  if negb openOK then (Err ErrIO, table)
  else
    let table := d :: table in
    if negb statOK then (Err ErrIO, release d table)
    else
      match readHeaderIO io data with
      | Panic => (Panic, table)
      | Err e => (Err e, release d table)
      | Ok h =>
          match readFooterIO io data h with
          | Panic => (Panic, table)
          | Err e => (Err e, release d table)
          | Ok (h', meta, index) => (Ok (mkReader data true h' meta index None false), table)
          end
      end.

(** pkg/col/writer.go:31-60 [NewWriter]; whether [file.Close()] at line 55 was called shows
    in the file's flag. *)
Definition createFD (createOK : bool) (now : Z) (options : list writerOption) (faults : list fault) (d : nat) (table : list nat)
  : res writer * list nat :=
  if negb createOK then (Err ErrIO, table)
  else
    let '(w, f) := NewWriter now options faults in
    (w, if f_open f then d :: table else release d (d :: table)).

(** pkg/col/reader.go:94-96 [Reader.Close] of handle [i]. *)
Definition closeFD (i : nat) (p : process) : res unit * process :=
  match nth_error (p_handles p) i with
  | Some (ReaderHandle r) =>
      let '(e, r') := RClose r in
      (e, mkProcess (put_handle i (ReaderHandle r') (p_handles p)) (if r_open r then release i (p_table p) else p_table p))
  | _ => (Err ErrIO, p)
  end.
(** pkg/multicol/aggregate.go:27-35 [MultiReader.Close]. *)
Fixpoint closeAllFD (which : list nat) (lastErr : option err) (p : process) : option err * process :=
  match which with
  | [] => (lastErr, p)
  | i :: which' =>
      let '(e, p') := closeFD i p in
      closeAllFD which' (match e with Err x => Some x | _ => lastErr end) p'
  end.
(** A method of the Writer [i] (pkg/col/writer_block_io.go:21, 328; writer_finalize.go:44, 52,
    207); whether it called [file.Close()] shows in the file's flag. *)
Definition writerFD (i : nat) (c : wcall) (p : process) : res Z * process :=
  match nth_error (p_handles p) i with
  | Some (WriterHandle w) =>
      let '(e, w') := run_call c w in
      (e, mkProcess (put_handle i (WriterHandle w') (p_handles p))
                    (if f_open (w_file w) && negb (f_open (w_file w')) then release i (p_table p) else p_table p))
  | _ => (Err ErrIO, p)
  end.

(** The calls of a program (pkg/col/reader.go:23, 94; writer.go:31; pkg/multicol/aggregate.go:27). *)
Inductive pcall : Type :=
| POpen (openOK statOK : bool) (io : Z -> Z -> bool) (data : list Z)
| PCreate (createOK : bool) (now : Z) (options : list writerOption) (faults : list fault)
| PClose (i : nat)
| PCloseAll (which : list nat)
| PWriter (i : nat) (c : wcall).

(** One call (the functions above); [Ok] carries the estimate of CEstimate, else 0. *)
Definition pstep (c : pcall) (p : process) : res Z * process :=
  match c with
  | POpen openOK statOK io data =>
      let '(r, table) := openFD openOK statOK io data (length (p_handles p)) (p_table p) in
      match r with
      | Ok r => (Ok 0, mkProcess (p_handles p ++ [ReaderHandle r]) table)
      | Err e => (Err e, mkProcess (p_handles p ++ [NoHandle]) table)
      | Panic => (Panic, mkProcess (p_handles p ++ [NoHandle]) table)
      end
  | PCreate createOK now options faults =>
      let '(w, table) := createFD createOK now options faults (length (p_handles p)) (p_table p) in
      match w with
      | Ok w => (Ok 0, mkProcess (p_handles p ++ [WriterHandle w]) table)
      | Err e => (Err e, mkProcess (p_handles p ++ [NoHandle]) table)
      | Panic => (Panic, mkProcess (p_handles p ++ [NoHandle]) table)
      end
  | PClose i => let '(e, p') := closeFD i p in (rbind e (fun _ => Ok 0), p')
  | PCloseAll which => let '(e, p') := closeAllFD which None p in (match e with Some x => Err x | None => Ok 0 end, p')
  | PWriter i c => writerFD i c p
  end.

(** The calls made so far and their results, from the start of the process (no code). *)
Inductive ran : list (pcall * res Z) -> process -> Prop :=
| ran_start : ran [] (mkProcess [] [])
| ran_step log p c a p' : ran log p -> pstep c p = (a, p') -> ran (log ++ [(c, a)]) p'.

End Descriptors.
