(** Specification vocabulary for reading when reads fail (C61). *)
From Verif Require Import Machine Encoding Sroar Writer Reader Aggregate Multi Spec MultiSpec ReadFault.

(** The pairs of those blocks of an opened file that can be read while reads fail as
    [io] says. *)
Definition pairs_read (io : Z -> Z -> bool) (r : reader) : list (Z * Z) :=
  flat_map (fun i => match GetPairsIO io r i with Ok (ids, vals) => combine ids vals | _ => [] end)
           (zseq (BlockCount r)).

(** Several files read together, oldest first, each given by what it holds and what of it
    can be read: the pairs that can be read and whose ID is not held by a newer file,
    readable there or not. *)
Fixpoint visible_read (files : list (list (Z * Z) * list (Z * Z))) : list (Z * Z) :=
  match files with
  | [] => []
  | (_, readable) :: newer =>
      filter (fun p => negb (occurs (fst p) (concat (map fst newer)))) readable ++ visible_read newer
  end.
