(** Model of the main functions of cmd/loadtest, cmd/write_example and cmd/read_example,
    with the part of Go's flag and strconv packages they use.  Arguments and file names
    are lists of bytes; what is printed is given as the numbers. *)
From Coq Require Import Ascii String.
From Verif Require Import Machine Encoding Sroar FileIO Writer SimpleWriter Reader Aggregate Parallel Cli CliMain Loadtest ExampleTools.
Local Open Scope Z_scope.
Local Open Scope list_scope.

(** ** Numbers: Go's strconv, [ParseUint(s, 0, 64)] and [ParseInt(s, 0, 64)] *)

(** [lower(c)], that is [c | 32]. *)
(** strconv, reached from the flags of cmd/loadtest/main.go:27-37 *)
Definition lower (c : Z) : Z := Z.lor c 32.
(** The digit a byte stands for, and the test against the base
    (strconv, reached from the flags of cmd/loadtest/main.go:27-37). *)
Definition digitOf (base c : Z) : option Z :=
  let d := if (48 <=? c) && (c <=? 57) then Some (c - 48)
           else if (97 <=? lower c) && (lower c <=? 122) then Some (lower c - 97 + 10)
           else None in
  match d with
  | Some d => if d >=? base then None else Some d
  | None => None
  end.
(** The loop of [ParseUint] from the number [n] on; [u] says whether an underscore was
    seen.  [n >= cutoff] and the wrapped sum are the two range checks (cmd/loadtest/main.go:27-37). *)
Fixpoint uintLoop (base : Z) (s : list Z) (n : Z) (u : bool) : option (Z * bool) :=
  match s with
  | [] => Some (n, u)
  | c :: s' =>
      if c =? 95 then uintLoop base s' n true
      else
        match digitOf base c with
        | None => None
        | Some d =>
            if n >=? (two64 - 1) / base + 1 then None
            else
              let n1 := u64 (n * base) in
              let n2 := u64 (n1 + d) in
              if n2 <? n1 then None else uintLoop base s' n2 u
        end
  end.
(** The loop of [underscoreOK]; [saw] is the last kind of byte: '0' for a digit (or the
    prefix), '_' (95), anything else (cmd/loadtest/main.go:27-37). *)
Fixpoint underscoreLoop (hex : bool) (s : list Z) (saw : Z) : bool :=
  match s with
  | [] => negb (saw =? 95)
  | c :: s' =>
      if ((48 <=? c) && (c <=? 57)) || (hex && (97 <=? lower c) && (lower c <=? 102)) then underscoreLoop hex s' 48
      else if c =? 95 then (if saw =? 48 then underscoreLoop hex s' 95 else false)
      else if saw =? 95 then false
      else underscoreLoop hex s' 33
  end.
(** [underscoreOK]; the sign is gone when [ParseUint] calls it (cmd/loadtest/main.go:27-37). *)
Definition underscoreOK (s : list Z) : bool :=
  match s with
  | c0 :: c :: s' =>
      if (c0 =? 48) && ((lower c =? 98) || (lower c =? 111) || (lower c =? 120)) then underscoreLoop (lower c =? 120) s' 48
      else underscoreLoop false s 94
  | _ => underscoreLoop false s 94
  end.
(** The base and the digits: prefixes count if a byte follows them (cmd/loadtest/main.go:27-37). *)
Definition splitBase (s : list Z) : Z * list Z :=
  match s with
  | c0 :: s1 =>
      if c0 =? 48 then
        match s1 with
        | c :: (_ :: _) as s2 =>
            if lower c =? 98 then (2, s2) else if lower c =? 111 then (8, s2) else if lower c =? 120 then (16, s2) else (8, s1)
        | _ => (8, s1)
        end
      else (10, s)
  | [] => (10, s)
  end.
(** [strconv.ParseUint(s, 0, 64)], for the flag of cmd/loadtest/main.go:32. *)
Definition ParseUint0 (s : list Z) : option Z :=
  match s with
  | [] => None
  | _ =>
      let '(base, digits) := splitBase s in
      match uintLoop base digits 0 false with
      | None => None
      | Some (n, underscores) => if underscores && negb (underscoreOK s) then None else Some n
      end
  end.
(** A range error of [ParseUint] stays one
    ([strconv.ParseInt(s, 0, 64)], for the flags of cmd/loadtest/main.go:27-31, 37). *)
Definition ParseInt0 (s : list Z) : option Z :=
  match s with
  | [] => None
  | c :: s' =>
      if c =? 43 then match ParseUint0 s' with Some n => if n >=? two63 then None else Some n | None => None end
      else if c =? 45 then match ParseUint0 s' with Some n => if n >? two63 then None else Some (- n) | None => None end
      else match ParseUint0 s with Some n => if n >=? two63 then None else Some n | None => None end
  end.

(** ** Flags *)

(** The kinds of the flags of cmd/loadtest/main.go:27-37 and cmd/read_example/main.go:419-421, and their values. *)
Inductive kind : Type := KText | KBool | KInt | KUint.
(** The values of the flags of cmd/loadtest/main.go:27-37. *)
Inductive value : Type :=
| VText (t : list Z)
| VBool (b : bool)
| VNum (n : Z).
(** The flags of a FlagSet: cmd/loadtest/main.go:27-37. *)
Definition kinds := list (list Z * kind).
(** [flag.FlagSet] looks a name up (called at cmd/loadtest/main.go:48, 51). *)
Fixpoint lookupKind (defs : kinds) (name : list Z) : option kind :=
  match defs with
  | [] => None
  | (n, k) :: defs' => if same_text n name then Some k else lookupKind defs' name
  end.
(** Go's flag.go: the [Set] methods of the four kinds ([Int] and [Int64] are the same on a
    64-bit machine) (cmd/loadtest/main.go:48, 51). *)
Definition setValue (k : kind) (t : list Z) : option value :=
  match k with
  | KText => Some (VText t)
  | KBool => option_map VBool (ParseBool t)
  | KInt => option_map VNum (ParseInt0 t)
  | KUint => option_map VNum (ParseUint0 t)
  end.
(** How [Parse] ends: cmd/loadtest/main.go:23-24 (flag.ExitOnError). *)
Inductive flags : Type :=
| Set_ (l : list (list Z * value))
| Help              (* usage on standard error, status 0 *)
| Usage.            (* message and usage on standard error, status 2 *)
(** One setting, then the rest (not a function of the code). *)
Definition thenSet (x : list Z * value) (p : flags) : flags :=
  match p with Set_ l => Set_ (x :: l) | Help => Help | Usage => Usage end.
(** Go's flag.go, [FlagSet.Parse] with [ExitOnError] (called at cmd/loadtest/main.go:48, 51). *)
Fixpoint parseFlags (defs : kinds) (args : list (list Z)) : flags :=
  match args with
  | [] => Set_ []
  | s :: args' =>
      match lookArg s with
      | NotFlag | Terminator => Set_ []
      | BadSyntax => Usage
      | FlagArg name given =>
          match lookupKind defs name with
          | None => if same_text name (text "help") || same_text name (text "h") then Help else Usage
          | Some k =>
              match given with
              | Some t => match setValue k t with Some v => thenSet (name, v) (parseFlags defs args') | None => Usage end
              | None =>
                  match k with
                  | KBool => thenSet (name, VBool true) (parseFlags defs args')
                  | _ =>
                      match args' with
                      | [] => Usage
                      | t :: args'' => match setValue k t with Some v => thenSet (name, v) (parseFlags defs args'') | None => Usage end
                      end
                  end
              end
          end
      end
  end.
(** The variable of a flag after that (cmd/loadtest/main.go:49, 52: [*importNumValues] and so on). *)
Definition variable (name : list Z) (default : value) (l : list (list Z * value)) : value :=
  fold_left (fun v s => if same_text (fst s) name then snd s else v) l default.
(** The value by the kind of the flag: cmd/loadtest/main.go:49, 52. *)
Definition textOf (v : value) : list Z := match v with VText t => t | _ => [] end.
(** [*aggregateSkipCache] (cmd/loadtest/main.go:52). *)
Definition boolOf (v : value) : bool := match v with VBool b => b | _ => false end.
(** [*importNumValues] and so on (cmd/loadtest/main.go:49, 52). *)
Definition numOf (v : value) : Z := match v with VNum n => n | _ => 0 end.

(** ** cmd/loadtest *)

(** How it ends: with a report (status 0), with a status and no report, with a panic
    (cmd/loadtest/main.go:39-57). *)
Inductive loadEnd : Type :=
| Imported (r : importReport)
| Aggregated (r : aggReport)
| Status (code : Z)
| Panics.

(** cmd/loadtest/main.go:27-37: the flags; 15-19: the defaults. *)
Definition importFlags : kinds :=
  [(text "n", KInt); (text "block-size", KInt); (text "file", KText); (text "seed", KInt); (text "max-value", KInt); (text "max-id", KUint)].
(** cmd/loadtest/main.go:35-37 *)
Definition aggregateFlags : kinds := [(text "file", KText); (text "skip-cache", KBool); (text "parallel", KInt)].

Section LoadMain.
Context {Srr : Sroar}.

(** cmd/loadtest/main.go:21-58 [main] with the file system.  [rng seed] is the random
    sequence of a seed; [clock] the time when the flags are defined, which is the default
    seed; [can name] says whether the directory and the file can be created.  [None]: the
    schedule ends before the aggregation does.  [args] is [os.Args[1:]].  A writer that
    could not be made has created the file. *)
Definition loadtest (rng : Z -> nat -> Z) (srt : sorter) (clock now0 now : Z) (faults : list fault) (can : list Z -> bool)
    (gomaxprocs : Z) (sched : list nat) (fs : files) (args : list (list Z)) : option (loadEnd * files) :=
  match args with
  | [] => Some (Status 1, fs)
  | command :: args' =>
      if same_text command (text "import") then
        match parseFlags importFlags args' with
        | Help => Some (Status 0, fs)
        | Usage => Some (Status 2, fs)
        | Set_ l =>
            let n := numOf (variable (text "n") (VNum 10000000) l) in
            let blockSize := numOf (variable (text "block-size") (VNum 10000) l) in
            let name := textOf (variable (text "file") (VText (text "loadtest.col")) l) in
            let seed := numOf (variable (text "seed") (VNum clock) l) in
            let maxValue := numOf (variable (text "max-value") (VNum 1000000) l) in
            let maxID := numOf (variable (text "max-id") (VNum 20000000) l) in
            if can name then
              let '(e, sw) := runImport (rng seed) srt now0 now faults n blockSize maxValue maxID in
              let data := match sw with
                          | Some sw => f_data (w_file (sw_writer sw))
                          | None => f_data (snd (NewWriter now0 [WithBlockSize (u32 blockSize); WithEncoding EncodingVarIntBoth] faults))
                          end in
              Some (match e with Finished r => Imported r | Stopped => Status 1 | Crash => Panics end, put_file fs name data)
            else Some (Status 1, fs)
        end
      else if same_text command (text "aggregate") then
        match parseFlags aggregateFlags args' with
        | Help => Some (Status 0, fs)
        | Usage => Some (Status 2, fs)
        | Set_ l =>
            let name := textOf (variable (text "file") (VText (text "loadtest.col")) l) in
            let skip := boolOf (variable (text "skip-cache") (VBool true) l) in
            let parallel := numOf (variable (text "parallel") (VNum 0) l) in
            match fs name with
            | None => Some (Status 1, fs)
            | Some data =>
                match runAggregate gomaxprocs sched data skip parallel with
                | None => None
                | Some e => Some (match e with Finished r => Aggregated r | Stopped => Status 1 | Crash => Panics end, fs)
                end
            end
        end
      else Some (Status 1, fs)
  end.

End LoadMain.

(** ** cmd/write_example and cmd/read_example *)

(** cmd/write_example/main.go:204-210 [main]; [true] is status 0. *)
Definition writeExampleMain (now : Z) (crc : list Z -> Z) (faults : list fault) (can : bool) (fs : files) : res bool * files :=
  if can then
    let '(r, data) := writeExample now crc faults in
    (match r with Ok _ => Ok true | Err _ => Ok false | Panic => Panic end, put_file fs (text "example.col") data)
  else (Ok false, fs).

(** cmd/read_example/main.go:419-421: the flags. *)
Definition exampleFlags : kinds := [(text "file", KText); (text "dump", KBool); (text "agg", KBool)].
(** What it prints: version and block count, the dump and the aggregate if asked for
    (cmd/read_example/main.go:433-447). *)
Record exReport : Type := mkExReport { xr_version : Z; xr_blocks : Z; xr_dump : option exDump; xr_agg : option aggResult }.
(** cmd/read_example/main.go:413-454 [main]: a report (status 0) or a status.  [Ok (inr s)]
    is status [s] without a report. *)
Definition readExampleMain (fs : files) (args : list (list Z)) : res (exReport + Z) :=
  match parseFlags exampleFlags args with
  | Help => Ok (inr 0)
  | Usage => Ok (inr 2)
  | Set_ l =>
      let name := textOf (variable (text "file") (VText (text "example.col")) l) in
      let dumpKV := boolOf (variable (text "dump") (VBool false) l) in
      let agg := boolOf (variable (text "agg") (VBool false) l) in
      match fs name with
      | None => Ok (inr 1)
      | Some data =>
          match exNewReader data with
          | Panic => Panic
          | Err _ => Ok (inr 1)
          | Ok r =>
              let aggregate := if agg then Some (exAggregate r) else None in
              if dumpKV then
                match exDumpKVPairs r with
                | Panic => Panic
                | Err _ => Ok (inr 1)
                | Ok d => Ok (inl (mkExReport (x_version r) (x_blockCount r) (Some d) aggregate))
                end
              else Ok (inl (mkExReport (x_version r) (x_blockCount r) None aggregate))
          end
      end
  end.
