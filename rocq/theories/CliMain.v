(** Model of the main function of cmd/vibecol/main.go: the command line, with the part of
    Go's flag package it uses.  Arguments and file names are lists of bytes. *)
From Coq Require Import Ascii String.
From Verif Require Import Machine Encoding Sroar FileIO Writer Reader Aggregate Cli.
From Coq Require Import Floats.SpecFloat.
Local Open Scope Z_scope.
Local Open Scope list_scope.

(** Equality of strings, as at cmd/vibecol/main.go:38-50. *)
Definition same_text (a b : list Z) : bool := if list_eq_dec Z.eq_dec a b then true else false.

(** The flags a FlagSet defines: name, and whether it is a bool flag (the others are strings)
    (cmd/vibecol/main.go:15-26). *)
Definition flagSet := list (list Z * bool).
(** [f.formal[name]] of Go's flag package; cmd/vibecol/main.go:40, 48. *)
Fixpoint lookupFlag (defs : flagSet) (name : list Z) : option bool :=
  match defs with
  | [] => None
  | (n, b) :: defs' => if same_text n name then Some b else lookupFlag defs' name
  end.

(** What [Parse] does to the variables of the flags, in order (cmd/vibecol/main.go:40, 48). *)
Inductive setting : Type :=
| SetString (name value : list Z)
| SetBool (name : list Z) (value : bool).
(** How [Parse] ends (flag.ExitOnError, cmd/vibecol/main.go:15-16). *)
Inductive parsed : Type :=
| Parsed (settings : list setting)
| HelpAsked         (* usage on standard error, status 0 *)
| BadUsage.         (* message and usage on standard error, status 2 *)

(** Go's flag.go, [FlagSet.parseOne], up to the look-up: what kind of argument [s] is
    (reached from cmd/vibecol/main.go:40, 48). *)
Inductive argument : Type :=
| NotFlag
| Terminator
| BadSyntax
| FlagArg (name : list Z) (value : option (list Z)).
(** The search for '=' in [parseOne]. *)
Fixpoint cutEquals (s : list Z) : list Z * option (list Z) :=
  match s with
  | [] => ([], None)
  | c :: s' => if c =? 61 then ([], Some s') else let '(n, v) := cutEquals s' in (c :: n, v)
  end.
(** [flag.FlagSet.parseOne]: the name after the dashes (called at cmd/vibecol/main.go:40, 48). *)
Definition readName (name : list Z) : argument :=
  match name with
  | [] => BadSyntax
  | c :: name' => if (c =? 45) || (c =? 61) then BadSyntax else let '(n, v) := cutEquals name' in FlagArg (c :: n) v
  end.
(** [flag.FlagSet.parseOne]: one argument (called at cmd/vibecol/main.go:40, 48). *)
Definition lookArg (s : list Z) : argument :=
  match s with
  | c0 :: c1 :: rest =>
      if negb (c0 =? 45) then NotFlag
      else if c1 =? 45 then match rest with [] => Terminator | _ => readName rest end
      else readName (c1 :: rest)
  | _ => NotFlag
  end.

(** [strconv.ParseBool] (for the flags of cmd/vibecol/main.go:25-26) *)
Definition ParseBool (s : list Z) : option bool :=
  if existsb (same_text s) [text "1"; text "t"; text "T"; text "TRUE"; text "true"; text "True"] then Some true
  else if existsb (same_text s) [text "0"; text "f"; text "F"; text "FALSE"; text "false"; text "False"] then Some false
  else None.

(** One setting, then the rest (not a function of the code). *)
Definition andThen (x : setting) (p : parsed) : parsed :=
  match p with Parsed l => Parsed (x :: l) | HelpAsked => HelpAsked | BadUsage => BadUsage end.
(** Go's flag.go, [FlagSet.Parse] with [ExitOnError]: flags up to the first argument that
    is not one; the rest is left to the program (vibecol ignores it)
    (called at cmd/vibecol/main.go:40, 48). *)
Fixpoint flagParse (defs : flagSet) (args : list (list Z)) : parsed :=
  match args with
  | [] => Parsed []
  | s :: args' =>
      match lookArg s with
      | NotFlag | Terminator => Parsed []
      | BadSyntax => BadUsage
      | FlagArg name value =>
          match lookupFlag defs name with
          | None => if same_text name (text "help") || same_text name (text "h") then HelpAsked else BadUsage
          | Some true =>
              match (match value with Some v => ParseBool v | None => Some true end) with
              | None => BadUsage
              | Some b => andThen (SetBool name b) (flagParse defs args')
              end
          | Some false =>
              match value with
              | Some v => andThen (SetString name v) (flagParse defs args')
              | None =>
                  match args' with
                  | [] => BadUsage
                  | v :: args'' => andThen (SetString name v) (flagParse defs args'')
                  end
              end
          end
      end
  end.

(** The variables after that (cmd/vibecol/main.go:19-26: [*writeOutputFile] and so on). *)
Definition stringVar (name : list Z) (default : list Z) (l : list setting) : list Z :=
  fold_left (fun v s => match s with SetString n x => if same_text n name then x else v | _ => v end) l default.
(** [*dumpKV], [*aggregate] (cmd/vibecol/main.go:25-26). *)
Definition boolVar (name : list Z) (default : bool) (l : list setting) : bool :=
  fold_left (fun v s => match s with SetBool n x => if same_text n name then x else v | _ => v end) l default.

(** Files by name.  Different names are different files (the paths of cmd/vibecol/main.go:46, 49). *)
Definition files := list Z -> option (list Z).
(** [os.Create] of a path (pkg/col/writer.go:32). *)
Definition put_file (fs : files) (name data : list Z) : files := fun n => if same_text n name then Some data else fs n.

(** How a process ends: its status and what it wrote to standard output ([None]: a message
    that is not modelled); or with a panic (cmd/vibecol/main.go:29-54). *)
Inductive ended : Type :=
| Ended (status : Z) (stdout : option (list Z))
| Panicked.
(** cmd/vibecol/main.go:29-54 *)
Definition ending (e : exit) : ended :=
  match e with Exited out => Ended 0 (Some out) | Failed => Ended 1 None | Crashed => Panicked end.

(** cmd/vibecol/main.go:19-26: the flags. *)
Definition writeFlags : flagSet := [(text "o", false); (text "ids", false); (text "values", false)].
(** cmd/vibecol/main.go:24-26. *)
Definition readFlags : flagSet := [(text "f", false); (text "dump", true); (text "agg", true)].

Section Main.
Context {Srr : Sroar}.

(** cmd/vibecol/main.go:13-55 [main] and the calls to [os.Create] (91-95) and [os.Open];
    [can name] says whether [os.Create] of that name succeeds.  An existing file of that name
    is replaced.  [args] is [os.Args[1:]]. *)
Definition vibecol (now0 now : Z) (faults : list fault) (can : list Z -> bool) (fmt2f : spec_float -> list Z) (help : list Z)
    (fs : files) (args : list (list Z)) : ended * files :=
  match args with
  | [] => (Ended 1 None, fs)
  | command :: args' =>
      if same_text command (text "write") then
        match flagParse writeFlags args' with
        | HelpAsked => (Ended 0 (Some []), fs)
        | BadUsage => (Ended 2 (Some []), fs)
        | Parsed l =>
            let o := stringVar (text "o") (text "example.col") l in
            let '(e, f) := runWrite now0 now faults o (stringVar (text "ids") [] l) (stringVar (text "values") [] l) in
            match f with
            | None => (ending e, fs)
            | Some f => if can o then (ending e, put_file fs o (f_data f)) else (Ended 1 None, fs)
            end
        end
      else if same_text command (text "read") then
        match flagParse readFlags args' with
        | HelpAsked => (Ended 0 (Some []), fs)
        | BadUsage => (Ended 2 (Some []), fs)
        | Parsed l =>
            let name := stringVar (text "f") (text "example.col") l in
            match fs name with
            | None => (Ended 1 None, fs)
            | Some data => (ending (runRead fmt2f help name data (boolVar (text "dump") false l) (boolVar (text "agg") false l)), fs)
            end
        end
      else (Ended 1 None, fs)
  end.

End Main.
