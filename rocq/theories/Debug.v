(** Model of pkg/col/reader.go:98-125 [DebugInfo], and of the %.2f format with which
    cmd/vibecol/main.go:159, cmd/loadtest/main.go:213 and cmd/read_example/main.go:373, 410
    print averages. *)
From Coq Require Import Ascii String.
From Verif Require Import Machine Encoding Sroar FileIO Writer Reader Aggregate Cli.
From Coq Require Import Floats.SpecFloat.
Local Open Scope Z_scope.
Local Open Scope list_scope.

(** [fmt] verb %X for unsigned integers (fmt/format.go fmtInteger, base 16). *)
Definition hexDigit (d : Z) : Z := if d <? 10 then 48 + d else 55 + d.
(** Used at pkg/col/reader.go:100-107. *)
Fixpoint hexDigits (fuel : nat) (z : Z) (acc : list Z) : list Z :=
  match fuel with
  | O => acc
  | S fuel' =>
      let acc' := hexDigit (z mod 16) :: acc in
      if z / 16 =? 0 then acc' else hexDigits fuel' (z / 16) acc'
  end.
(** [fmt] verb %x (pkg/col/reader.go:100-107). *)
Definition hexadecimal (z : Z) : list Z := hexDigits 16 z [].

Section Info.
Context {Srr : Sroar}.

(** reader.go:111-122: the lines about block [i]. *)
Definition debugBlock (i : Z) (e : footerEntry) : list Z :=
  text "      Block " ++ decimal i ++ text ": Offset=" ++ decimal (e_offset e) ++ text ", Size=" ++ decimal (e_size e)
  ++ text ", Count=" ++ decimal (e_count e) ++ [10]
  ++ text "        ID range: " ++ decimal (e_minID e) ++ text "-" ++ decimal (e_maxID e) ++ [10]
  ++ text "        Value range: " ++ decimal (uint64ToInt64 (e_minValue e)) ++ text "-" ++ decimal (uint64ToInt64 (e_maxValue e))
  ++ text ", Sum=" ++ decimal (uint64ToInt64 (e_sum e)) ++ [10].
(** pkg/col/reader.go:111-122: the loop. *)
Fixpoint debugBlocks (i : Z) (es : list footerEntry) : list Z :=
  match es with
  | [] => []
  | e :: es' => debugBlock i e ++ debugBlocks (i + 1) es'
  end.

(** reader.go:98-125 [DebugInfo]. *)
Definition DebugInfo (r : reader) : list Z :=
  let h := r_header r in
  text "File header: Magic=0x" ++ hexadecimal (h_magic h) ++ text ", Version=" ++ decimal (h_version h)
  ++ text ", BlockCount=" ++ decimal (h_blockCount h) ++ [10]
  ++ text "    Encoding: Type=" ++ decimal (h_encodingType h) ++ text ", Compression=" ++ decimal (h_compressionType h) ++ [10]
  ++ text "    Footer: Size=" ++ decimal (fm_size (r_meta r)) ++ text ", Magic=0x" ++ hexadecimal (fm_magic (r_meta r)) ++ [10]
  ++ text "    Block index entries: " ++ decimal (zlen (r_index r)) ++ [10]
  ++ debugBlocks 0 (r_index r).

End Info.

(** [a / b] rounded to the nearest integer, ties to even ([0 <= a], [0 < b])
    (part of the %.2f of cmd/vibecol/main.go:159). *)
Definition roundHalfEven (a b : Z) : Z :=
  let q := a / b in
  let twice := 2 * (a mod b) in
  if twice <? b then q else if twice >? b then q + 1 else if Z.even q then q else q + 1.

(** [fmt] verb %.2f (strconv.FormatFloat(x, 'f', 2, 64): the exact decimal expansion,
    rounded half to even; [fmt] writes a plus sign before infinity)
    (cmd/vibecol/main.go:159, cmd/loadtest/main.go:213, cmd/read_example/main.go:373, 410). *)
Definition hundredths (m : positive) (e : Z) : Z :=
  if 0 <=? e then 100 * Z.pos m * 2 ^ e else roundHalfEven (100 * Z.pos m) (2 ^ (- e)).
(** Sign, integer part and two decimals (cmd/vibecol/main.go:159). *)
Definition places2 (neg : bool) (h : Z) : list Z :=
  (if neg then [45] else []) ++ digits 400 (h / 100) [] ++ [46; 48 + h mod 100 / 10; 48 + h mod 10].
(** [fmt] verb %.2f (cmd/vibecol/main.go:159). *)
Definition format2f (x : spec_float) : list Z :=
  match x with
  | S754_zero s => places2 s 0
  | S754_infinity s => if s then text "-Inf" else text "+Inf"
  | S754_nan => text "NaN"
  | S754_finite s m e => places2 s (hundredths m e)
  end.
