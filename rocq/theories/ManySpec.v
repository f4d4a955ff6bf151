(** Specification vocabulary for reading several files together whatever they contain (C75). *)
From Verif Require Import Machine Encoding Sroar Writer Reader Aggregate Spec MultiSpec AnySpec FormatSpec.

Section Many.
Context {Srr : Sroar}.

(** [r] was opened on some bytes; the sizes are those of C73. *)
Definition opened_on (data : list Z) (r : reader) : Prop :=
  Forall is_byte data /\ NewReader data = Ok r /\ Forall (fun e => 80 <= e_size e) (r_index r) /\ BlockCount r <= 2 ^ 42.

(** The bitmap of a file, as GetGlobalIDBitmap returns it. *)
Definition announces (r : reader) (b : bm) : Prop :=
  exists p r' hp, GetGlobalIDBitmap r [] = (Ok p, r', hp) /\ nth_error hp p = Some b.

(** The pairs of the blocks that can be read and whose ID range in the index meets the
    allow set. *)
Definition counted_pairs (allow : option bm) (r : reader) : list (Z * Z) :=
  flat_map (fun i => match GetPairs r i with
                     | Ok (ids, values) => if claimed_in_range r allow i then combine ids values else []
                     | _ => []
                     end) (zseq (BlockCount r)).

(** Files, oldest first, each with its pairs and its bitmap: a pair is seen if its ID is in
    no newer file's bitmap. *)
Fixpoint shown (files : list (list (Z * Z) * bm)) : list (Z * Z) :=
  match files with
  | [] => []
  | (pairs, _) :: newer =>
      filter (fun p => negb (existsb (fun b => bm_contains b (fst p)) (map snd newer))) pairs ++ shown newer
  end.

(** [r] was opened on a file that follows the format document, whoever wrote it, whose
    bitmap holds the IDs of its pairs and no others. *)
Definition foreign_with (r : reader) (pairs : list (Z * Z)) : Prop :=
  exists F target encoding time b blocks,
    conforms F target encoding time b blocks /\ format_limits F blocks /\ In encoding [0; 1; 2; 3; 4; 7]
    /\ (forall id, is_u64 id -> bm_contains b id = true -> In id (flat_map fst blocks))
    /\ NewReader F = Ok r /\ pairs = all_pairs blocks.

End Many.
