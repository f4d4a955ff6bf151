(** Specification vocabulary for aggregating a file whatever it contains (C73). *)
From Verif Require Import Machine Encoding Sroar Writer Reader Aggregate Spec.

Section Any.
Context {Srr : Sroar}.

(** The index claims that block [i] could hold an ID of the allow set: its ID range
    meets the range from the smallest to the largest ID allowed. *)
Definition claimed_in_range (r : reader) (allow : option bm) (i : Z) : bool :=
  match allow with
  | None => true
  | Some a =>
      match nth_error (r_index r) (Z.to_nat i) with
      | Some e => (bm_min a <=? e_maxID e) && (e_minID e <=? bm_max a)
      | None => false
      end
  end.

(** What block [i] contributes: nothing if it cannot be read; otherwise the values that
    pass, unless the index claims that none can. *)
Definition taken (r : reader) (allow deny : option bm) (i : Z) : list Z :=
  match GetPairs r i with
  | Ok (ids, values) =>
      match allow, deny with
      | None, None => values
      | _, _ => if claimed_in_range r allow i
                then map snd (filter (fun p => passes allow deny (fst p)) (combine ids values))
                else []
      end
  | _ => []
  end.
Definition all_taken (r : reader) (allow deny : option bm) : list Z :=
  flat_map (taken r allow deny) (zseq (BlockCount r)).

(** The pairs of the blocks that can be read. *)
Definition readable_pairs (r : reader) : list (Z * Z) :=
  flat_map (fun i => match GetPairs r i with Ok (ids, values) => combine ids values | _ => [] end)
           (zseq (BlockCount r)).

(** The aggregation looks at the data, not just at the index. *)
Definition reads_data (r : reader) (opts : aggOptions) : Prop :=
  o_filter opts <> None \/ o_deny opts <> None \/ o_skip opts = true \/ r_index r = [].

(** The index claims an ID range for each block; for the readable ones it is true. *)
Definition ranges_true (r : reader) : Prop :=
  forall i ids values e id, GetPairs r i = Ok (ids, values) ->
    nth_error (r_index r) (Z.to_nat i) = Some e -> In id ids -> e_minID e <= id <= e_maxID e.

End Any.

(** The value a statistic of the index stands for: sign and magnitude. *)
Definition stat_value (x : Z) : Z := if x <? two63 then x else two63 - x.

(** [res] repeats what the index claims. *)
Definition as_claimed (index : list footerEntry) (res : aggResult) : Prop :=
  a_count res = i64 (zsum (map e_count index))
  /\ a_sum res = i64 (zsum (map (fun e => stat_value (e_sum e)) index))
  /\ is_minimum (a_min res) (map (fun e => stat_value (e_minValue e)) index)
  /\ is_maximum (a_max res) (map (fun e => stat_value (e_maxValue e)) index).
