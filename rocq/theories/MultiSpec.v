(** Specification vocabulary for several files read together and for bitmap caching. *)
From Verif Require Import Machine Encoding FileIO Sroar Writer SimpleWriter Reader Aggregate Multi Spec SimpleSpec.

Section MultiSpec.
Context {Srr : Sroar}.

(** [r] was opened on a file that holds [pairs]: one written through a Writer, no
    WriteBlock of which failed half way, or one written through a SimpleWriter. *)
Inductive file_with (r : reader) (pairs : list (Z * Z)) : Prop :=
| from_writer options faults h now w blocks :
    finished_run options faults h now w -> faithful (encoding_of options) -> no_torn_block h ->
    NewReader (bytes_of w) = Ok r -> contents h r blocks -> pairs = all_pairs blocks ->
    file_with r pairs
| from_simple_writer srt options faults h sw :
    simple_run srt options faults h sw -> sorts srt -> undisturbed h -> IsClosed sw = true ->
    fits (sw_writer sw) (file_of sw) -> faithful (encoding_of options) ->
    NewReader (file_of sw) = Ok r -> pairs = concat (written h) ->
    file_with r pairs.

(** The ID occurs among the pairs. *)
Definition occurs (id : Z) (pairs : list (Z * Z)) : bool := existsb (fun p => fst p =? id) pairs.

(** The pairs that are seen when files are read together, oldest first: those whose ID
    does not occur in a newer file. *)
Fixpoint visible (files : list (list (Z * Z))) : list (Z * Z) :=
  match files with
  | [] => []
  | file :: newer => filter (fun p => negb (occurs (fst p) (concat newer))) file ++ visible newer
  end.

(** The ID is in the allow set, if there is one. *)
Definition allowed (allow : option bm) (p : Z * Z) : bool :=
  match allow with Some a => bm_contains a (fst p) | None => true end.

(** Replace element [i]. *)
Definition put {A} (i : nat) (x : A) (l : list A) : list A := firstn i l ++ x :: skipn (S i) l.

(** A program that works with readers [rs0]: it switches caching on and off, fetches
    bitmaps, aggregates over all of them, makes bitmaps of its own and changes those;
    it does not change bitmaps it got from a reader.  [own] are its own bitmaps. *)
Inductive session (rs0 : list reader) : list reader -> heap -> list nat -> Prop :=
| s_start hp own : (forall p, In p own -> (p < length hp)%nat) -> session rs0 rs0 hp own
| s_enable rs hp own i r : session rs0 rs hp own -> nth_error rs i = Some r ->
    session rs0 (put i (EnableGlobalIDBitmapCaching r) rs) hp own
| s_disable rs hp own i r : session rs0 rs hp own -> nth_error rs i = Some r ->
    session rs0 (put i (DisableGlobalIDBitmapCaching r) rs) hp own
| s_get rs hp own i r out r' hp' : session rs0 rs hp own -> nth_error rs i = Some r ->
    GetGlobalIDBitmap r hp = (out, r', hp') -> session rs0 (put i r' rs) hp' own
| s_aggregate rs hp own opts out rs' hp' : session rs0 rs hp own ->
    MultiAggregate opts rs hp = (out, rs', hp') -> session rs0 rs' hp' own
| s_new rs hp own b : session rs0 rs hp own -> session rs0 rs (hp ++ [b]) (length hp :: own)
| s_change rs hp own p b : session rs0 rs hp own -> In p own -> session rs0 rs (put p b hp) own.

End MultiSpec.

(** The values of a block, if it can be read. *)
Definition readable_values (r : reader) (i : Z) : list Z :=
  match GetPairs r i with Ok (_, values) => values | _ => [] end.
