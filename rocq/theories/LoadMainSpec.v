(** Specification vocabulary for the command lines of loadtest and read_example (C70). *)
From Coq Require Import Ascii String.
From Verif Require Import Machine Cli CliMain CliMainSpec LoadMain.
Local Open Scope Z_scope.
Local Open Scope list_scope.

(** Integer literals as in the Go language: 0, decimal numbers not starting with 0, and
    numbers with prefix 0b, 0o, 0x (or capitals) or just 0 (octal); single underscores
    between digits and after the prefix.  [c] is the digit [d]: *)
Definition a_digit (base c d : Z) : Prop :=
  0 <= d < base /\ ((d < 10 /\ c = 48 + d) \/ (10 <= d /\ (c = 97 + (d - 10) \/ c = 65 + (d - 10)))).
(** a text, and its digits *)
Inductive numeral (base : Z) : list Z -> list Z -> Prop :=
| numeral_last c d : a_digit base c d -> numeral base [c] [d]
| numeral_digit c d s ds : a_digit base c d -> numeral base s ds -> numeral base (c :: s) (d :: ds)
| numeral_underscore c d s ds : a_digit base c d -> numeral base s ds -> numeral base (c :: text "_" ++ s) (d :: ds).
(** the number they make *)
Definition positional (base : Z) (ds : list Z) : Z := fold_left (fun n d => n * base + d) ds 0.
Definition prefix (base : Z) (p : list Z) : Prop :=
  (base = 2 /\ (p = text "0b" \/ p = text "0B")) \/ (base = 8 /\ (p = text "0o" \/ p = text "0O" \/ p = text "0"))
  \/ (base = 16 /\ (p = text "0x" \/ p = text "0X")).
Definition literal (s : list Z) (n : Z) : Prop :=
  (s = text "0" /\ n = 0)
  \/ (exists ds, numeral 10 s ds /\ (forall s', s <> text "0" ++ s') /\ n = positional 10 ds)
  \/ (exists base p u s' ds, prefix base p /\ (u = [] \/ u = text "_") /\ s = p ++ u ++ s' /\ numeral base s' ds /\ n = positional base ds).

(** What a flag of a kind accepts, and what it then is. *)
Definition accepts (k : kind) (t : list Z) (v : value) : Prop :=
  match k with
  | KText => v = VText t
  | KBool => exists b, truth t b /\ v = VBool b
  | KUint => exists n, literal t n /\ n < two64 /\ v = VNum n
  | KInt => exists n, v = VNum n /\ is_i64 n /\ (literal t n \/ (exists s, t = text "+" ++ s /\ literal s n) \/ (exists s, t = text "-" ++ s /\ literal s (- n)))
  end.

(** The arguments are these settings, each in one of the usual ways. *)
Inductive sets (defs : kinds) : list (list Z) -> list (list Z * value) -> Prop :=
| sets_none : sets defs [] []
| sets_apart d name k t v args l : dashes d -> In (name, k) defs -> k <> KBool -> accepts k t v -> sets defs args l ->
    sets defs ((d ++ name) :: t :: args) ((name, v) :: l)
| sets_equals d name k t v args l : dashes d -> In (name, k) defs -> accepts k t v -> sets defs args l ->
    sets defs ((d ++ name ++ text "=" ++ t) :: args) ((name, v) :: l)
| sets_on d name args l : dashes d -> In (name, KBool) defs -> sets defs args l ->
    sets defs ((d ++ name) :: args) ((name, VBool true) :: l).

(** The last setting of a flag counts; without one, the default. *)
Definition flag_is (name : list Z) (default : value) (l : list (list Z * value)) (v : value) : Prop :=
  (exists a b, l = a ++ (name, v) :: b /\ forall x, ~ In (name, x) b) \/ (v = default /\ forall x, ~ In (name, x) l).

(** The flags of the three programs, and their kinds. *)
Definition import_flags : kinds :=
  [(text "n", KInt); (text "block-size", KInt); (text "file", KText); (text "seed", KInt); (text "max-value", KInt); (text "max-id", KUint)].
Definition aggregate_flags : kinds := [(text "file", KText); (text "skip-cache", KBool); (text "parallel", KInt)].
Definition example_flags : kinds := [(text "file", KText); (text "dump", KBool); (text "agg", KBool)].

(** What the commands are asked to do. *)
Definition import_asks (clock : Z) (l : list (list Z * value)) (name : list Z) (n blockSize seed maxValue maxID : Z) : Prop :=
  flag_is (text "file") (VText (text "loadtest.col")) l (VText name) /\ flag_is (text "n") (VNum 10000000) l (VNum n)
  /\ flag_is (text "block-size") (VNum 10000) l (VNum blockSize) /\ flag_is (text "seed") (VNum clock) l (VNum seed)
  /\ flag_is (text "max-value") (VNum 1000000) l (VNum maxValue) /\ flag_is (text "max-id") (VNum 20000000) l (VNum maxID).
Definition aggregate_asks (l : list (list Z * value)) (name : list Z) (skip : bool) (parallel : Z) : Prop :=
  flag_is (text "file") (VText (text "loadtest.col")) l (VText name) /\ flag_is (text "skip-cache") (VBool true) l (VBool skip)
  /\ flag_is (text "parallel") (VNum 0) l (VNum parallel).
Definition example_asks (l : list (list Z * value)) (name : list Z) (dump agg : bool) : Prop :=
  flag_is (text "file") (VText (text "example.col")) l (VText name) /\ flag_is (text "dump") (VBool false) l (VBool dump)
  /\ flag_is (text "agg") (VBool false) l (VBool agg).
