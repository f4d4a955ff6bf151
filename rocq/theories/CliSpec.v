(** Specification vocabulary for the command line (C46). *)
From Coq Require Import Ascii String.
From Verif Require Import Machine Encoding Sroar FileIO Writer Reader Aggregate Cli.
Local Open Scope Z_scope.
Local Open Scope list_scope.

(** The number that a string of decimal digits denotes. *)
Definition is_digit (c : Z) : Prop := 48 <= c <= 57.
Definition number (s : list Z) : Z := fold_left (fun a c => 10 * a + (c - 48)) s 0.
Definition numeral (s : list Z) : Prop := s <> [] /\ Forall is_digit s.

(** [s] is written for the uint64 (int64) [z]. *)
Definition unsigned (s : list Z) (z : Z) : Prop := numeral s /\ number s = z /\ is_u64 z.
Definition signed (s : list Z) (z : Z) : Prop :=
  is_i64 z /\ exists d, numeral d
    /\ ((s = d /\ z = number d) \/ (s = 43 :: d /\ z = number d) \/ (s = 45 :: d /\ z = - number d)).

(** White space, as in ASCII. *)
Definition is_space (c : Z) : Prop := c = 32 \/ 9 <= c <= 13.
(** [s], with any white space around it. *)
Definition padded (denotes : list Z -> Z -> Prop) (t : list Z) (z : Z) : Prop :=
  exists before s after, t = before ++ s ++ after /\ Forall is_space before /\ Forall is_space after /\ denotes s z.

(** Texts with commas between them. *)
Fixpoint join (fields : list (list Z)) : list Z :=
  match fields with
  | [] => []
  | [s] => s
  | s :: fields' => s ++ 44 :: join fields'
  end.
(** [t] is a list of numbers, separated by commas. *)
Definition comma_list (denotes : list Z -> Z -> Prop) (t : list Z) (zs : list Z) : Prop :=
  exists fields, fields <> [] /\ t = join fields /\ Forall2 (padded denotes) fields zs.

(** The arguments give these IDs and as many values. *)
Definition pairs_given (idsStr valuesStr ids vals : list Z) : Prop :=
  comma_list unsigned idsStr ids /\ comma_list signed valuesStr vals /\ zlen ids = zlen vals.

(** The usual notation of an integer. *)
Definition canonical_decimal (s : list Z) (z : Z) : Prop :=
  (0 <= z /\ numeral s /\ number s = z /\ (hd 0 s = 48 -> s = [48]))
  \/ (z < 0 /\ exists d, s = 45 :: d /\ numeral d /\ number d = - z /\ hd 0 d <> 48).

(** One line per pair: the identifier, a tab, the value. *)
Inductive listing : list (Z * Z) -> list Z -> Prop :=
| listing_nil : listing [] []
| listing_cons id v rest s t u :
    canonical_decimal s id -> canonical_decimal t v -> listing rest u ->
    listing ((id, v) :: rest) (s ++ [9] ++ t ++ [10] ++ u).

(** What [vibecol read] prints first. *)
Definition header_of (name n : list Z) : list Z :=
  text "File: " ++ name ++ [10] ++ text "Version: 1" ++ [10] ++ text "Blocks: " ++ n ++ [10; 10].
(** What [vibecol read -dump] prints for a file with these blocks and pairs. *)
Definition dump_of (name : list Z) (blocks : Z) (pairs : list (Z * Z)) (out : list Z) : Prop :=
  exists n l, canonical_decimal n blocks /\ listing pairs l
    /\ out = header_of name n ++ text "ID" ++ [9] ++ text "Value" ++ [10] ++ text "--" ++ [9] ++ text "-----" ++ [10]
             ++ l ++ [10].
(** What [vibecol read -agg] prints for the answer [res]; [avg] is its average, printed. *)
Definition statistics_of (name : list Z) (blocks : Z) (res : aggResult) (avg out : list Z) : Prop :=
  exists n c mn mx s, canonical_decimal n blocks /\ canonical_decimal c (a_count res)
    /\ canonical_decimal mn (a_min res) /\ canonical_decimal mx (a_max res) /\ canonical_decimal s (a_sum res)
    /\ out = header_of name n ++ text "Aggregate Statistics (from metadata only):" ++ [10]
             ++ text "Count: " ++ c ++ [10] ++ text "Min: " ++ mn ++ [10] ++ text "Max: " ++ mx ++ [10]
             ++ text "Sum: " ++ s ++ [10] ++ text "Average: " ++ avg ++ [10].
