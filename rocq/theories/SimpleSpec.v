(** Specification vocabulary for SimpleWriter clients. *)
From Coq Require Import Sorting.Permutation Sorting.Sorted.
From Verif Require Import Machine Encoding FileIO Sroar Writer SimpleWriter Reader Spec.

(** Sorted by ID (equal IDs may follow each other). *)
Definition by_id (p q : Z * Z) : Prop := fst p <= fst q.
Definition ordered (batch : list (Z * Z)) : Prop := StronglySorted by_id batch.

(** What is assumed of [sort.Slice]: it returns the same pairs, ordered.  (The order of
    pairs with equal IDs is not fixed.) *)
Definition sorts (srt : sorter) : Prop := forall l, Permutation l (srt l) /\ ordered (srt l).

(** Arguments: the Go types, and batches of at most 100 million pairs. *)
Definition typed_scall (c : scall) : Prop :=
  match c with
  | SCWrite ids vals => Forall is_u64 ids /\ Forall is_i64 vals /\ zlen ids <= 100000000
  | _ => True
  end.

(** A run: a new SimpleWriter, any calls, and their outcomes. *)
Inductive simple_run {Srr : Sroar} (srt : sorter) (options : list writerOption) (faults : list fault)
    (h : list (scall * res unit)) (sw : swriter) : Prop :=
| simple_run_intro now0 sw0 cs outs :
    NewSimpleWriter now0 options faults = Ok sw0 ->
    Forall typed_option options -> Forall typed_scall cs ->
    run_scalls srt cs sw0 = (outs, sw) -> h = combine cs outs ->
    simple_run srt options faults h sw.

(** No call failed, except that calls may have been refused because of arguments of
    different lengths or because the writer was closed already. *)
Definition undisturbed (h : list (scall * res unit)) : Prop :=
  forall c r, In (c, r) h -> r = Ok tt \/ r = Err ErrLength \/ r = Err ErrClosed.

(** The batches of the Write calls that succeeded. *)
Definition written (h : list (scall * res unit)) : list (list (Z * Z)) :=
  flat_map (fun '(c, r) => match c, r with
                           | SCWrite ids vals, Ok _ => [combine ids vals]
                           | _, _ => []
                           end) h.

(** Number of items handed over: those of every Write call that was not refused. *)
Definition submitted (h : list (scall * res unit)) : Z :=
  zsum (map (fun '(c, r) => match c, r with
                            | SCWrite _ _, Err ErrLength | SCWrite _ _, Err ErrClosed => 0
                            | SCWrite ids _, _ => zlen ids
                            | _, _ => 0
                            end) h).

(** How a batch arrives in the file: unchanged if ordered, else reordered. *)
Definition arrives (batch out : list (Z * Z)) : Prop :=
  Permutation batch out /\ ordered out /\ (ordered batch -> out = batch).

(** The number of items in the buffer. *)
Definition buffered {Srr : Sroar} (sw : swriter) : Z := zlen (sw_pendingIDs sw).
(** The file of a SimpleWriter. *)
Definition file_of {Srr : Sroar} (sw : swriter) : list Z := bytes_of (sw_writer sw).

(** The pairs handed over by all Write calls that were not refused, failed or not. *)
Definition handed (h : list (scall * res unit)) : list (Z * Z) :=
  flat_map (fun '(c, r) => match c, r with
                           | SCWrite _ _, Err ErrLength | SCWrite _ _, Err ErrClosed => []
                           | SCWrite ids vals, _ => combine ids vals
                           | _, _ => []
                           end) h.
(** Every Close in [cs], called from state [sw] on, succeeds, or fails with items left in
    the buffer (it could not write the last blocks), or fails in Finalize but leaves the
    file offset at the end of the file (see C38). *)
Fixpoint closes_ok {Srr : Sroar} (srt : sorter) (cs : list scall) (sw : swriter) : Prop :=
  match cs with
  | [] => True
  | c :: cs' =>
      let '(r, sw') := run_scall srt c sw in
      (forall now, c = SCClose now -> r = Ok tt \/ 0 < buffered sw' \/ offset_at_end (sw_writer sw'))
      /\ closes_ok srt cs' sw'
  end.
(** A run in which no Close failed while it rewrote the header. *)
Inductive safe_simple_run {Srr : Sroar} (srt : sorter) (options : list writerOption) (faults : list fault)
    (h : list (scall * res unit)) (sw : swriter) : Prop :=
| safe_simple_run_intro now0 sw0 cs outs :
    NewSimpleWriter now0 options faults = Ok sw0 ->
    Forall typed_option options -> Forall typed_scall cs ->
    run_scalls srt cs sw0 = (outs, sw) -> h = combine cs outs -> closes_ok srt cs sw0 ->
    safe_simple_run srt options faults h sw.

(** The same call, made at another time (C44). *)
Inductive same_scall : scall -> scall -> Prop :=
| same_swrite ids vals : same_scall (SCWrite ids vals) (SCWrite ids vals)
| same_target size : same_scall (SCSetTarget size) (SCSetTarget size)
| same_sclose now1 now2 : same_scall (SCClose now1) (SCClose now2).
