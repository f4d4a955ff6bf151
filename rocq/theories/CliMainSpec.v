(** Specification vocabulary for command lines (C63); it is not used by the model. *)
From Coq Require Import Ascii String.
From Verif Require Import Machine Cli CliMain.
Local Open Scope Z_scope.
Local Open Scope list_scope.

Definition dashes (d : list Z) : Prop := d = text "-" \/ d = text "--".
Definition truth (t : list Z) (b : bool) : Prop :=
  (b = true /\ In t [text "1"; text "t"; text "T"; text "true"; text "True"; text "TRUE"])
  \/ (b = false /\ In t [text "0"; text "f"; text "F"; text "false"; text "False"; text "FALSE"]).

(** The arguments are these settings, each in one of the usual ways: "-name value",
    "-name=value", "-name" alone for a bool flag; with one dash or two. *)
Inductive spells (defs : flagSet) : list (list Z) -> list setting -> Prop :=
| spells_none : spells defs [] []
| spells_apart d name v args l : dashes d -> In (name, false) defs -> spells defs args l ->
    spells defs ((d ++ name) :: v :: args) (SetString name v :: l)
| spells_equals d name v args l : dashes d -> In (name, false) defs -> spells defs args l ->
    spells defs ((d ++ name ++ text "=" ++ v) :: args) (SetString name v :: l)
| spells_on d name args l : dashes d -> In (name, true) defs -> spells defs args l ->
    spells defs ((d ++ name) :: args) (SetBool name true :: l)
| spells_bool d name t b args l : dashes d -> In (name, true) defs -> truth t b -> spells defs args l ->
    spells defs ((d ++ name ++ text "=" ++ t) :: args) (SetBool name b :: l).

(** The flags end here: nothing, a dash alone, two dashes, or an argument without a dash. *)
Definition no_flag (rest : list (list Z)) : Prop :=
  rest = [] \/ exists s more, rest = s :: more /\ (s = [] \/ s = text "-" \/ s = text "--" \/ exists c t, s = c :: t /\ c <> 45).

(** The last setting of a flag counts; without one, the default. *)
Definition string_is (name default : list Z) (l : list setting) (v : list Z) : Prop :=
  (exists a b, l = a ++ SetString name v :: b /\ forall x, ~ In (SetString name x) b)
  \/ (v = default /\ forall x, ~ In (SetString name x) l).
Definition bool_is (name : list Z) (default : bool) (l : list setting) (v : bool) : Prop :=
  (exists a b, l = a ++ SetBool name v :: b /\ forall x, ~ In (SetBool name x) b)
  \/ (v = default /\ forall x, ~ In (SetBool name x) l).

(** The flags of the two commands; [true] marks one that needs no value. *)
Definition write_flags : list (list Z * bool) := [(text "o", false); (text "ids", false); (text "values", false)].
Definition read_flags : list (list Z * bool) := [(text "f", false); (text "dump", true); (text "agg", true)].
