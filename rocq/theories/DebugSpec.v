(** Specification vocabulary for the texts of C56 and C57. *)
From Coq Require Import Ascii String.
From Verif Require Import Machine Encoding Sroar FileIO Writer Reader Aggregate Spec Cli CliSpec.
Local Open Scope Z_scope.
Local Open Scope list_scope.

(** The lines about the blocks from number [i] on; where each block is in the file and how
    long it is comes from its index entry, the rest from what was written. *)
Inductive block_lines : Z -> list block -> list footerEntry -> list Z -> Prop :=
| lines_nil i : block_lines i [] [] []
| lines_cons i b blocks e es rest mn mx mnID mxID si so ss sc smnID smxID smn smx ssum :
    is_minimum mnID (fst b) -> is_maximum mxID (fst b) -> is_minimum mn (snd b) -> is_maximum mx (snd b) ->
    canonical_decimal si i -> canonical_decimal so (e_offset e) -> canonical_decimal ss (e_size e) ->
    canonical_decimal sc (zlen (snd b)) -> canonical_decimal smnID mnID -> canonical_decimal smxID mxID ->
    canonical_decimal smn mn -> canonical_decimal smx mx -> canonical_decimal ssum (i64 (zsum (snd b))) ->
    block_lines (i + 1) blocks es rest ->
    block_lines i (b :: blocks) (e :: es)
      (text "      Block " ++ si ++ text ": Offset=" ++ so ++ text ", Size=" ++ ss ++ text ", Count=" ++ sc ++ [10]
       ++ text "        ID range: " ++ smnID ++ text "-" ++ smxID ++ [10]
       ++ text "        Value range: " ++ smn ++ text "-" ++ smx ++ text ", Sum=" ++ ssum ++ [10] ++ rest).

(** The whole report about a file with these blocks and this encoding. *)
Definition debug_report (encoding : Z) (blocks : list block) (es : list footerEntry) (out : list Z) : Prop :=
  exists n enc size lines, canonical_decimal n (zlen blocks) /\ canonical_decimal enc encoding
    /\ canonical_decimal size (4 + 56 * zlen blocks) /\ block_lines 0 blocks es lines
    /\ out = text "File header: Magic=0x5642455F434F4C00, Version=1, BlockCount=" ++ n ++ [10]
             ++ text "    Encoding: Type=" ++ enc ++ text ", Compression=0" ++ [10]
             ++ text "    Footer: Size=" ++ size ++ text ", Magic=0x5642455F434F4C00" ++ [10]
             ++ text "    Block index entries: " ++ n ++ [10] ++ lines.

(** [t] is a number with two decimals: [h] hundredths, with a minus sign if [neg]. *)
Definition two_places (t : list Z) (neg : bool) (h : Z) : Prop :=
  0 <= h /\ exists whole d1 d2, t = (if neg then [45] else []) ++ whole ++ [46; d1; d2]
    /\ canonical_decimal whole (h / 100) /\ is_digit d1 /\ is_digit d2 /\ number [d1; d2] = h mod 100.

(** Hexadecimal numbers, with capitals and no leading zeros. *)
Definition hex_digit (c d : Z) : Prop := (0 <= d <= 9 /\ c = 48 + d) \/ (10 <= d <= 15 /\ c = 65 + (d - 10)).
Definition canonical_hex (s : list Z) (z : Z) : Prop :=
  exists ds, ds <> [] /\ Forall2 hex_digit s ds /\ fold_left (fun n d => 16 * n + d) ds 0 = z /\ (hd 0 ds = 0 -> ds = [0]).

(** The index entries of any file, in the notation of the report. *)
Inductive entry_lines : Z -> list footerEntry -> list Z -> Prop :=
| entries_nil i : entry_lines i [] []
| entries_cons i e es rest si so ss sc smnID smxID smn smx ssum :
    canonical_decimal si i -> canonical_decimal so (e_offset e) -> canonical_decimal ss (e_size e) ->
    canonical_decimal sc (e_count e) -> canonical_decimal smnID (e_minID e) -> canonical_decimal smxID (e_maxID e) ->
    canonical_decimal smn (uint64ToInt64 (e_minValue e)) -> canonical_decimal smx (uint64ToInt64 (e_maxValue e)) ->
    canonical_decimal ssum (uint64ToInt64 (e_sum e)) ->
    entry_lines (i + 1) es rest ->
    entry_lines i (e :: es)
      (text "      Block " ++ si ++ text ": Offset=" ++ so ++ text ", Size=" ++ ss ++ text ", Count=" ++ sc ++ [10]
       ++ text "        ID range: " ++ smnID ++ text "-" ++ smxID ++ [10]
       ++ text "        Value range: " ++ smn ++ text "-" ++ smx ++ text ", Sum=" ++ ssum ++ [10] ++ rest).

(** The report about any file that opens: what the Reader's accessors say of it, the
    compression field and footer size it has, and its index. *)
Definition accessor_report (r : reader) (out : list Z) : Prop :=
  exists blocks enc comp size n lines, canonical_decimal blocks (BlockCount r) /\ canonical_decimal enc (EncodingType r)
    /\ canonical_decimal comp (h_compressionType (r_header r)) /\ canonical_decimal size (fm_size (r_meta r))
    /\ canonical_decimal n (zlen (r_index r)) /\ entry_lines 0 (r_index r) lines
    /\ out = text "File header: Magic=0x5642455F434F4C00, Version=1, BlockCount=" ++ blocks ++ [10]
             ++ text "    Encoding: Type=" ++ enc ++ text ", Compression=" ++ comp ++ [10]
             ++ text "    Footer: Size=" ++ size ++ text ", Magic=0x5642455F434F4C00" ++ [10]
             ++ text "    Block index entries: " ++ n ++ [10] ++ lines.
