(** Model of examples/filtered_aggregation_example.go. *)
From Coq Require Import Ascii String.
From Verif Require Import Machine Encoding Sroar FileIO Writer Reader Aggregate Cli Debug.
Local Open Scope Z_scope.
Local Open Scope list_scope.

(** examples/filtered_aggregation_example.go:129-136, 141-148, 153-160: 100 IDs from
    [first] on, and each times [factor]. *)
Definition sampleIDs (first : Z) : list Z := map (fun i => u64 (i + first)) (zseq 100).
(** examples/filtered_aggregation_example.go:134, 145, 156: the values. *)
Definition sampleValues (first factor : Z) : list Z := map (fun i => i64 ((i + first) * factor)) (zseq 100).

(** The loops that fill a bitmap: from [a], below or at [b], by [step]
    (examples/filtered_aggregation_example.go:46-110). *)
Definition range (a b step : Z) : list Z := map (fun i => a + i * step) (zseq ((b - a) / step + 1)).

Section Example.
Context {Srr : Sroar}.
(** examples/filtered_aggregation_example.go:46-110: [Set] on a new bitmap. *)
Definition bitmapOf (l : list Z) : bm := fold_left bm_set l bm_new.

(** examples/filtered_aggregation_example.go:123-163 [createSampleData]: whether it
    succeeded, and the file. *)
Definition createSampleData (now0 now : Z) (faults : list fault) : res unit * file :=
  match NewWriter now0 [] faults with
  | (Err e, f) => (Err e, f)
  | (Panic, f) => (Panic, f)
  | (Ok w, _) =>
      let '(r, w') :=
        mbind (WriteBlock (sampleIDs 1) (sampleValues 1 10)) (fun _ =>
        mbind (WriteBlock (sampleIDs 101) (sampleValues 101 5)) (fun _ =>
        mbind (WriteBlock (sampleIDs 201) (sampleValues 201 2)) (fun _ =>
        FinalizeAndClose now))) w in
      (r, w_file w')
  end.

(** examples/filtered_aggregation_example.go:166-175 [printResult]. *)
Definition printResult (description : list Z) (a : aggResult) : list Z :=
  description ++ text ":" ++ [10] ++ text "  Count: " ++ decimal (a_count a) ++ [10]
  ++ (if a_count a >? 0
      then text "  Min: " ++ decimal (a_min a) ++ [10] ++ text "  Max: " ++ decimal (a_max a) ++ [10]
           ++ text "  Sum: " ++ decimal (a_sum a) ++ [10] ++ text "  Avg: " ++ format2f (a_avg a) ++ [10]
      else []).
(** examples/filtered_aggregation_example.go:38, 43, 57, 71, 92: a heading. *)
Definition section (n : list Z) : list Z := [10] ++ text "=== Example " ++ n ++ text " ===" ++ [10].

(** examples/filtered_aggregation_example.go:13-120 [main]; [filename] is the name of the
    temporary file, which is made and removed outside the model.  ParallelFactor is 0 in all
    options: AggregateWithOptions is the sequential aggregation. *)
Definition exampleMain (now0 now : Z) (faults : list fault) (filename : list Z) : exit * file :=
  let '(created, f) := createSampleData now0 now faults in
  match created with
  | Err _ => (Failed, f)
  | Panic => (Crashed, f)
  | Ok _ =>
      let result : res (list Z) :=
        let? r := NewReader (f_data f) in
        let? result := Aggregate r in
        let? allowResult := aggregateSequential r (mkOpts false (Some (bitmapOf [10; 20; 30; 110; 120; 130; 210; 220; 230])) None 0) in
        let? denyResult := aggregateSequential r (mkOpts false None (Some (bitmapOf (range 1 100 1))) 0) in
        let? combinedResult := aggregateSequential r (mkOpts false (Some (bitmapOf (range 1 200 1))) (Some (bitmapOf (range 2 200 2))) 0) in
        let? rangeResult := aggregateSequential r
          (mkOpts true (Some (bitmapOf (range 50 75 1 ++ range 150 175 1 ++ range 250 275 1))) (Some (bitmapOf (range 5 300 5))) 0) in
        Ok (text "Creating column file at: " ++ filename ++ [10]
            ++ section (text "1: No filters") ++ printResult (text "No filters") result
            ++ section (text "2: Only allow filter") ++ printResult (text "Allow specific IDs") allowResult
            ++ section (text "3: Only deny filter") ++ printResult (text "Deny first block") denyResult
            ++ section (text "4: Both allow and deny filters") ++ printResult (text "Allow IDs 1-200, deny even IDs") combinedResult
            ++ section (text "5: Complex filtering scenario") ++ printResult (text "Allow specific ranges, deny IDs divisible by 5") rangeResult) in
      (match result with Ok out => Exited out | Err _ => Failed | Panic => Crashed end, f)
  end.
End Example.
