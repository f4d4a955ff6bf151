(** Model of pkg/col/reader_aggregate.go, sequential paths and merging. *)
From Coq Require Import Floats.SpecFloat.
From Verif Require Import Machine Encoding Sroar Writer Reader.

(** pkg/col/format.go:91-97 [AggregateResult].  float64 is the IEEE-754 double of
    the standard library's [SpecFloat] (53 bits of precision, emax 1024). *)
Record aggResult : Type := mkAgg {
  a_count : Z; a_min : Z; a_max : Z; a_sum : Z; a_avg : spec_float
}.

(** [var avg float64 = 0] (pkg/col/reader_aggregate.go:81). *)
Definition f64_zero : spec_float := S754_zero false.
(** [float64(x)] (round to nearest, ties to even) and [x / y] (pkg/col/reader_aggregate.go:83). *)
Definition f64_of_Z (z : Z) : spec_float := binary_normalize 53 1024 z 0 false.
(** [x / y] on float64 (pkg/col/reader_aggregate.go:83). *)
Definition f64_div (x y : spec_float) : spec_float := SFdiv 53 1024 x y.

(** The four local accumulators [count], [min], [max], [sum]
    (pkg/col/reader_aggregate.go:58-61, 96-99, 229-232, 353-356, 457-460). *)
Record acc : Type := mkAcc { c_count : Z; c_min : Z; c_max : Z; c_sum : Z }.
(** pkg/col/reader_aggregate.go:58-61 *)
Definition acc0 : acc := mkAcc 0 max_int64 min_int64 0.

(** [avg := 0.0; if count > 0 { avg = float64(sum) / float64(count) }] (pkg/col/reader_aggregate.go:80-84). *)
Definition average (sum count : Z) : spec_float :=
  if count >? 0 then f64_div (f64_of_Z sum) (f64_of_Z count) else f64_zero.

(** pkg/col/reader_aggregate.go:80-92 (and 120-132, 254-266, 378-391, 494-507). *)
Definition result_of (a : acc) : aggResult :=
  mkAgg (c_count a) (c_min a) (c_max a) (c_sum a) (average (c_sum a) (c_count a)).

(** [AggregateResult{}] (pkg/col/reader_aggregate.go:219-225, 306-312, 400) *)
Definition zeroResult : aggResult := mkAgg 0 0 0 0 f64_zero.

(** pkg/col/reader_aggregate.go:63-78 and 360-375: one footer entry. *)
Definition add_entry (a : acc) (e : footerEntry) : acc :=
  let minValue := uint64ToInt64 (e_minValue e) in
  let maxValue := uint64ToInt64 (e_maxValue e) in
  let blockSum := uint64ToInt64 (e_sum e) in
  mkAcc (i64 (c_count a + e_count e))
        (if minValue <? c_min a then minValue else c_min a)
        (if maxValue >? c_max a then maxValue else c_max a)
        (i64 (c_sum a + blockSum)).

(** pkg/col/reader_aggregate.go:108-117, 242-251, 482-491: the values of one block. *)
Definition add_value (a : acc) (v : Z) : acc :=
  mkAcc (c_count a)
        (if v <? c_min a then v else c_min a)
        (if v >? c_max a then v else c_max a)
        (i64 (c_sum a + v)).
(** pkg/col/reader_aggregate.go:108-117: the loop over a block's values. *)
Definition add_values (a : acc) (values : list Z) : acc :=
  fold_left add_value values
    (mkAcc (i64 (c_count a + zlen values)) (c_min a) (c_max a) (c_sum a)).

Section Aggregate.
Context {Srr : Sroar}.

(** pkg/col/reader_aggregate.go:11-27 [AggregateOptions]. *)
Record aggOptions : Type := mkOpts {
  o_skip : bool; o_filter : option bm; o_deny : option bm; o_parallel : Z
}.
(** pkg/col/reader_aggregate.go:30-37 *)
Definition DefaultAggregateOptions : aggOptions := mkOpts false None None 0.

(** Go's [make] panics when the elements would need more memory than there are
    addresses: 2^48 bytes (the runtime's maxAlloc on 64-bit Linux).  Anything less is
    assumed to be available (pkg/col/reader_aggregate.go:139, 151, 298, 328, 432). *)
Definition make_panics (n size : Z) : bool := (n <? 0) || (n * size >? 2 ^ 48).

(** pkg/col/reader_aggregate.go:136-176 [FilteredBlockIterator]: the block numbers it
    lists; *)
Definition matchingBlocks (r : reader) (filter deny : option bm) : list Z :=
  match filter with
  | None => zseq (BlockCount r)
  | Some f =>
      let filterMin := bm_min f in
      let filterMax := bm_max f in
      map fst (List.filter (fun '(_, e) =>
                              negb ((e_maxID e <? filterMin) || (e_minID e >? filterMax)))
                           (combine (zseq (zlen (r_index r))) (r_index r)))
  end.
(** and the call, which without an allow filter starts with
    [make([]uint64, r.BlockCount())] (lines 139 and 151) (pkg/col/reader_aggregate.go:136-176). *)
Definition FilteredBlockIterator (r : reader) (filter deny : option bm) : res (list Z) :=
  match filter with
  | None => if make_panics (BlockCount r) 8 then Panic else Ok (matchingBlocks r filter deny)
  | Some _ => Ok (matchingBlocks r filter deny)
  end.

(** pkg/col/reader_aggregate.go:195-207: the filtering loop; [allValues[i]] panics
    when there are fewer values than IDs. *)
Definition keeps (filter deny : option bm) (id : Z) : bool :=
  let isAllowed := match filter with None => true | Some f => bm_contains f id end in
  let isDenied := match deny with None => false | Some d => bm_contains d id end in
  isAllowed && negb isDenied.

(** pkg/col/reader_aggregate.go:195-207. *)
Fixpoint filterPairs (filter deny : option bm) (ids values : list Z) : res (list Z * list Z) :=
  match ids with
  | [] => Ok ([], [])
  | id :: ids' =>
      if keeps filter deny id then
        match values with
        | [] => Panic
        | v :: values' =>
            let? (fi, fv) := filterPairs filter deny ids' values' in
            Ok (id :: fi, v :: fv)
        end
      else filterPairs filter deny ids' (tl values)
  end.

(** pkg/col/reader_aggregate.go:179-210 [readBlockFiltered]. *)
Definition readBlockFiltered (r : reader) (blockIndex : Z) (filter deny : option bm)
  : res (list Z * list Z) :=
  let? (allIDs, allValues) := readBlock r blockIndex in
  match filter, deny with
  | None, None => Ok (allIDs, allValues)
  | _, _ => filterPairs filter deny allIDs allValues
  end.

(** One iteration of a scan: blocks with errors are skipped, panics propagate
    (pkg/col/reader_aggregate.go:102-117, 236-251, 469-491). *)
Definition add_block (a : acc) (block : res (list Z * list Z)) : res acc :=
  match block with
  | Ok (_, values) => Ok (add_values a values)
  | Err _ => Ok a
  | Panic => Panic
  end.

(** pkg/col/reader_aggregate.go:101-118, 234-252. *)
Fixpoint scan (get : Z -> res (list Z * list Z)) (idx : list Z) (a : acc) : res acc :=
  match idx with
  | [] => Ok a
  | i :: idx' => let? a' := add_block a (get i) in scan get idx' a'
  end.

(** pkg/col/reader_aggregate.go:213-267 [aggregateWithFilter]. *)
Definition aggregateWithFilter (r : reader) (opts : aggOptions) : res aggResult :=
  let? matchingBlocks := FilteredBlockIterator r (o_filter opts) (o_deny opts) in
  if zlen matchingBlocks =? 0 then Ok zeroResult
  else
    let? a := scan (fun i => readBlockFiltered r (i64 i) (o_filter opts) (o_deny opts))
                   matchingBlocks acc0 in
    Ok (result_of a).

(** [opts.Filter != nil || opts.DenyFilter != nil] *)
(** pkg/col/reader_aggregate.go:52, 294, 469 *)
Definition has_filter (opts : aggOptions) : bool :=
  match o_filter opts, o_deny opts with None, None => false | _, _ => true end.

(** pkg/col/reader_aggregate.go:45-133 [AggregateWithOptions] for Parallel = 0. *)
Definition aggregateSequential (r : reader) (opts : aggOptions) : res aggResult :=
  if has_filter opts then aggregateWithFilter r opts
  else if (zlen (r_index r) >? 0) && negb (o_skip opts) then
    Ok (result_of (fold_left add_entry (r_index r) acc0))
  else
    let? a := scan (GetPairs r) (zseq (BlockCount r)) acc0 in
    Ok (result_of a).

(** pkg/col/reader_aggregate.go:40-42 [Aggregate]. *)
Definition Aggregate (r : reader) : res aggResult :=
  aggregateSequential r DefaultAggregateOptions.

End Aggregate.
