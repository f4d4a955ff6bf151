(** Model of pkg/multicol/aggregate.go. *)
From Verif Require Import Machine Encoding Sroar Writer Reader Aggregate.

(** pkg/multicol/aggregate.go:124-137 *)
Definition minInt64 (a b : Z) : Z := if a <? b then a else b.
(** pkg/multicol/aggregate.go:132-137 *)
Definition maxInt64 (a b : Z) : Z := if a >? b then a else b.

(** pkg/multicol/aggregate.go:98-121 [mergeAggregateResults]. *)
Definition mergeAggregateResults (a b : aggResult) : aggResult :=
  if a_count a =? 0 then b
  else if a_count b =? 0 then a
  else
    let count := i64 (a_count a + a_count b) in
    let sum := i64 (a_sum a + a_sum b) in
    mkAgg count (minInt64 (a_min a) (a_min b)) (maxInt64 (a_max a) (a_max b)) sum
          (average sum count).

Section Multi.
Context {Srr : Sroar}.

(** pkg/multicol/aggregate.go:38-45 [AggregateOptions]. *)
Record multiOptions : Type := mkMOpts { mo_skip : bool; mo_filter : option bm }.

(** pkg/multicol/aggregate.go:62-92: the loop, over the readers from newest to
    oldest.  Readers are threaded through because fetching a bitmap may fill a
    reader's cache; the updated readers are returned newest first. *)
Fixpoint multiLoop (opts : multiOptions) (readers : list reader) (deny : bm)
    (result : aggResult) (h : heap) : res aggResult * list reader * heap :=
  match readers with
  | [] => (Ok result, [], h)
  | r :: older =>
      let readerOpts := mkOpts (mo_skip opts) (mo_filter opts) (Some deny) 0 in
      match aggregateSequential r readerOpts with
      | Ok readerResult =>
          match GetGlobalIDBitmap r h with
          | (Ok p, r', h') =>
              match nth_error h' p with
              | Some globalIDs =>
                  let result' := if a_count result =? 0 then readerResult
                                 else mergeAggregateResults result readerResult in
                  let '(res, rs, h'') := multiLoop opts older (bm_or deny globalIDs) result' h' in
                  (res, r' :: rs, h'')
              | None => (Panic, r' :: older, h')
              end
          | (Err e, r', h') => (Err e, r' :: older, h')
          | (Panic, r', h') => (Panic, r' :: older, h')
          end
      | Err e => (Err e, readers, h)
      | Panic => (Panic, readers, h)
      end
  end.

(** pkg/multicol/aggregate.go:50-95 [MultiReader.Aggregate]; [readers] is ordered
    oldest to newest, as in the code.  A MultiReader is just its list of readers
    (aggregate.go:14-24 [MultiReader], [NewMultiReader]). *)
Definition MultiAggregate (opts : multiOptions) (readers : list reader) (h : heap)
  : res aggResult * list reader * heap :=
  if zlen readers =? 0 then (Ok zeroResult, readers, h)
  else
    let '(res, rs, h') := multiLoop opts (rev readers) bm_new zeroResult h in
    (res, rev rs, h').

(** pkg/multicol/aggregate.go:27-35 [MultiReader.Close]: closes every reader and
    returns the last error. *)
Fixpoint MultiClose (readers : list reader) (lastErr : option err) : option err * list reader :=
  match readers with
  | [] => (lastErr, [])
  | r :: rs =>
      let '(e, r') := RClose r in
      let '(le, rs') := MultiClose rs (match e with Err x => Some x | _ => lastErr end) in
      (le, r' :: rs')
  end.

End Multi.
