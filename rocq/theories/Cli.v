(** Model of cmd/vibecol/main.go: the write and read commands.  Texts are lists of
    bytes.  Flag parsing is in CliMain.v; the wording of error messages is not modelled. *)
From Coq Require Import Ascii String.
From Verif Require Import Machine Encoding Sroar FileIO Writer Reader Aggregate.
From Coq Require Import Floats.SpecFloat.
Local Open Scope Z_scope.
Local Open Scope list_scope.

(** A Go string literal as bytes (those of cmd/vibecol/main.go:127-159). *)
Definition text (s : string) : list Z :=
  map (fun c => Z.of_N (N_of_ascii c)) (list_ascii_of_string s).

(** [strings.Split(s, ",")] (cmd/vibecol/main.go:59-60) *)
Fixpoint splitComma (s : list Z) : list (list Z) :=
  match s with
  | [] => [[]]
  | c :: s' =>
      if c =? 44 then [] :: splitComma s'
      else match splitComma s' with
           | x :: xs => (c :: x) :: xs
           | [] => [[c]]
           end
  end.

(** [strings.TrimSpace] on ASCII text (Unicode spaces beyond ASCII are not modelled)
    (cmd/vibecol/main.go:73, 82). *)
Definition isSpace (c : Z) : bool := ((9 <=? c) && (c <=? 13)) || (c =? 32).
(** [strings.TrimSpace], the left end (cmd/vibecol/main.go:73, 82). *)
Fixpoint trimLeft (s : list Z) : list Z :=
  match s with
  | c :: s' => if isSpace c then trimLeft s' else s
  | [] => []
  end.
(** [strings.TrimSpace] (cmd/vibecol/main.go:73, 82). *)
Definition trimSpace (s : list Z) : list Z := rev (trimLeft (rev (trimLeft s))).

(** [strconv.ParseUint(s, 10, 64)]; [None] is any error.  The loop of
    strconv/atoi.go: [n >= cutoff] and [n1 < n || n1 > maxVal] are range errors. *)
(** cmd/vibecol/main.go:73 *)
Definition cutoff : Z := (two64 - 1) / 10 + 1.
(** The loop of [strconv.ParseUint], base 10 (cmd/vibecol/main.go:73). *)
Fixpoint parseDigits (s : list Z) (n : Z) : option Z :=
  match s with
  | [] => Some n
  | c :: s' =>
      if (48 <=? c) && (c <=? 57) then
        if n >=? cutoff then None
        else
          let n := u64 (n * 10) in
          let n1 := u64 (n + (c - 48)) in
          if n1 <? n then None else parseDigits s' n1
      else None
  end.
(** [strconv.ParseUint(s, 10, 64)] (cmd/vibecol/main.go:73). *)
Definition ParseUint (s : list Z) : option Z :=
  match s with [] => None | _ => parseDigits s 0 end.

(** [strconv.ParseInt(s, 10, 64)] (cmd/vibecol/main.go:82) *)
Definition ParseInt (s : list Z) : option Z :=
  match s with
  | [] => None
  | c :: s' =>
      let '(neg, digits) := if c =? 45 then (true, s') else if c =? 43 then (false, s') else (false, s) in
      match ParseUint digits with
      | None => None
      | Some un =>
          if negb neg && (un >=? two63) then None
          else if neg && (un >? two63) then None
          else Some (if neg then i64 (- i64 un) else i64 un)
      end
  end.

(** cmd/vibecol/main.go:72-88: the conversion loops; the first failure ends the program. *)
Fixpoint parseAll (parse : list Z -> option Z) (l : list (list Z)) : option (list Z) :=
  match l with
  | [] => Some []
  | s :: l' =>
      match parse (trimSpace s) with
      | None => None
      | Some x => match parseAll parse l' with Some xs => Some (x :: xs) | None => None end
      end
  end.

(** [fmt] verb %d for 64-bit integers (fmt/format.go fmtInteger, base 10)
    (cmd/vibecol/main.go:128-129, 146, 155-158). *)
Fixpoint digits (fuel : nat) (z : Z) (acc : list Z) : list Z :=
  match fuel with
  | O => acc
  | S fuel' =>
      let acc' := (48 + z mod 10) :: acc in
      if z / 10 =? 0 then acc' else digits fuel' (z / 10) acc'
  end.
(** [fmt] verb %d (cmd/vibecol/main.go:128-129, 146, 155-158). *)
Definition decimal (z : Z) : list Z :=
  if z <? 0 then 45 :: digits 20 (- z) [] else digits 20 z [].

(** How a process ends
    ([os.Exit(1)] at cmd/vibecol/main.go:65, 76, 85, 94, 101, 107, 122, 141; or the end of main). *)
Inductive exit : Type :=
| Exited (stdout : list Z)     (* status 0 *)
| Failed                       (* a message on standard output, status 1 *)
| Crashed.                     (* panic *)

Section Commands.
Context {Srr : Sroar}.

(** cmd/vibecol/main.go:37-44 and 57-111 [runWrite]: how the process ends, and the output file if
    it was created.  [now0] and [now] are the times of [NewWriter] and
    [FinalizeAndClose]. *)
Definition runWrite (now0 now : Z) (faults : list fault) (outputFile idsStr valuesStr : list Z)
  : exit * option file :=
  match idsStr, valuesStr with
  | [], _ | _, [] => (Failed, None)
  | _, _ =>
      let idsStrArr := splitComma idsStr in
      let valuesStrArr := splitComma valuesStr in
      if negb (zlen idsStrArr =? zlen valuesStrArr) then (Failed, None)
      else
        match parseAll ParseUint idsStrArr with
        | None => (Failed, None)
        | Some ids =>
            match parseAll ParseInt valuesStrArr with
            | None => (Failed, None)
            | Some values =>
                match NewWriter now0 [] faults with
                | (Err _, f) => (Failed, Some f)
                | (Panic, f) => (Crashed, Some f)
                | (Ok w, _) =>
                    match WriteBlock ids values w with
                    | (Err _, w1) => (Failed, Some (w_file (snd (Close w1))))
                    | (Panic, w1) => (Crashed, Some (w_file w1))
                    | (Ok _, w1) =>
                        match FinalizeAndClose now w1 with
                        | (Err _, w2) => (Failed, Some (w_file w2))
                        | (Panic, w2) => (Crashed, Some (w_file w2))
                        | (Ok _, w2) =>
                            (Exited (text "Wrote file with " ++ decimal (zlen ids)
                                     ++ text " entries to " ++ outputFile ++ [10]),
                             Some (w_file w2))
                        end
                    end
                end
            end
        end
  end.

(** cmd/vibecol/main.go:145-147: one line per pair; [values[j]] panics if there are fewer values. *)
Fixpoint printPairs (ids values : list Z) : res (list Z) :=
  match ids with
  | [] => Ok []
  | id :: ids' =>
      match values with
      | [] => Panic
      | v :: values' =>
          let? rest := printPairs ids' values' in
          Ok (decimal id ++ [9] ++ decimal v ++ [10] ++ rest)
      end
  end.

(** cmd/vibecol/main.go:137-148: the loop over the blocks, with a uint32 counter. *)
Fixpoint dumpBlocks (r : reader) (idx : list Z) : res (list Z) :=
  match idx with
  | [] => Ok []
  | i :: idx' =>
      let? (ids, values) := GetPairs r i in
      let? lines := printPairs ids values in
      let? rest := dumpBlocks r idx' in
      Ok (lines ++ rest)
  end.

(** cmd/vibecol/main.go:113-167 [runRead].  [fmt2f] is the %.2f format, [help] the usage text. *)
Definition runRead (fmt2f : spec_float -> list Z) (help : list Z) (inputFile data : list Z)
    (dumpKV aggregate : bool) : exit :=
  let result : res (list Z) :=
    let? r := NewReader data in
    let info := text "File: " ++ inputFile ++ [10] ++ text "Version: " ++ decimal (RVersion r) ++ [10]
                ++ text "Blocks: " ++ decimal (BlockCount r) ++ [10; 10] in
    let? dump :=
      if dumpKV then
        let? lines := dumpBlocks r (zseq (u32 (BlockCount r))) in
        Ok (text "ID" ++ [9] ++ text "Value" ++ [10] ++ text "--" ++ [9] ++ text "-----" ++ [10]
            ++ lines ++ [10])
      else Ok [] in
    let? agg :=
      if aggregate then
        let? a := Aggregate r in
        Ok (text "Aggregate Statistics (from metadata only):" ++ [10]
            ++ text "Count: " ++ decimal (a_count a) ++ [10]
            ++ text "Min: " ++ decimal (a_min a) ++ [10]
            ++ text "Max: " ++ decimal (a_max a) ++ [10]
            ++ text "Sum: " ++ decimal (a_sum a) ++ [10]
            ++ text "Average: " ++ fmt2f (a_avg a) ++ [10])
      else Ok [] in
    let tail := if negb dumpKV && negb aggregate
                then text "No operation specified. Use --dump to show key-value pairs or --agg to show aggregations."
                     ++ [10] ++ help
                else [] in
    Ok (info ++ dump ++ agg ++ tail) in
  match result with
  | Ok out => Exited out
  | Err _ => Failed
  | Panic => Crashed
  end.

End Commands.
