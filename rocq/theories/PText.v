(** Texts: DebugInfo (C56) and the printed average (C57).  Only statements and concrete
    cases; proofs are in DebugFacts.v and PrintFacts.v. *)
From Coq Require Import Ascii String ZArith Reals Lra Lia Floats.SpecFloat.
From Verif Require Import Machine MachineFacts Encoding Sroar SroarFacts FileIO Writer Reader Aggregate Parallel Spec Cli CliSpec CliFacts Debug DebugSpec
  DebugFacts FloatSpec AvgFacts PrintFacts Examples PAggregate.
Local Open Scope Z_scope.
Local Open Scope list_scope.

(** C56: DebugInfo of a finished file is the truth about it: magic number, version, block
    count, encoding, footer size, and for every block where it is (its index entry), how
    many pairs it has, the least and the greatest ID and value and the sum; unless a
    statistic is the minimum int64. *)
Theorem C56_debug_info : forall {Srr : Sroar} options faults h now w, finished_run options faults h now w ->
  exists r blocks, NewReader (bytes_of w) = Ok r /\ stored h blocks /\ Forall2 (fun e b => true_entry b e) (r_index r) blocks
    /\ (Forall no_min_stat blocks -> debug_report (encoding_of options) blocks (r_index r) (DebugInfo r)).
Proof. exact @debug_info. Qed.
Print Assumptions C56_debug_info.
Definition lines (l : list string) : list Z := flat_map (fun s => text s ++ [10]) l.
Example C56_case : finished_run agg_options [] agg_history 12 agg_writer /\ Forall no_min_stat agg_blocks
  /\ DebugInfo agg_reader = lines
    ["File header: Magic=0x5642455F434F4C00, Version=1, BlockCount=2";
     "    Encoding: Type=7, Compression=0"; "    Footer: Size=116, Magic=0x5642455F434F4C00"; "    Block index entries: 2";
     "      Block 0: Offset=64, Size=4032, Count=2"; "        ID range: 2-5"; "        Value range: -3-10, Sum=7";
     "      Block 1: Offset=4096, Size=4096, Count=1"; "        ID range: 7-7"; "        Value range: 4-4, Sum=4"]%string.
Proof.
  split; [apply agg_finished|]. split; [|vm_compute; reflexivity].
  repeat (constructor; [split; [cbn; intros H; repeat (destruct H as [H|H]; [discriminate H|]); exact H|vm_compute; discriminate]|]). constructor.
Qed.

(** C56: whatever opens, written by this library or not: DebugInfo says what the accessors
    say, and repeats its index, entry by entry. *)
Theorem C56_any_file : forall {Srr : Sroar} data r, Forall is_byte data -> NewReader data = Ok r -> accessor_report r (DebugInfo r).
Proof. intros Srr. exact debug_any. Qed.
Print Assumptions C56_any_file.
Example C56_any_file_case : Forall is_byte (bytes_of agg_writer) /\ NewReader (bytes_of agg_writer) = Ok agg_reader /\ zlen (r_index agg_reader) = 2.
Proof. split; [|split; vm_compute; reflexivity]. apply Forall_forall. intros x Hx. assert (K : forallb (fun b => (0 <=? b) && (b <? 256)) (bytes_of agg_writer) = true) by (vm_compute; reflexivity). rewrite forallb_forall in K. specialize (K x Hx). apply andb_true_iff in K as [K1 K2]. apply Z.leb_le in K1. apply Z.ltb_lt in K2. unfold is_byte, two8. lia. Qed.

(** C56: numbers are shown in hexadecimal with capitals and no leading zeros. *)
Theorem C56_hexadecimal : forall z, is_u64 z -> canonical_hex (hexadecimal z) z.
Proof. exact hexadecimal_spec. Qed.
Print Assumptions C56_hexadecimal.
Example C56_hexadecimal_case : map hexadecimal [0; 9; 10; 16; 255; 18446744073709551615] = map text ["0"; "9"; "A"; "10"; "FF"; "FFFFFFFFFFFFFFFF"]%string.
Proof. vm_compute. reflexivity. Qed.

(** C56, without the exception it is false: a block with the minimum int64 is shown with a
    value range 0-0 and sum 0. *)
Definition low_calls : list wcall := [CWriteBlock [9] [min_int64]].
Definition low_writer : writer := final [] [] low_calls 5.
Theorem C56_min_refuted : finished_run [] [] (hist [] [] low_calls) 5 low_writer
  /\ GetPairs (opened (NewReader (bytes_of low_writer))) 0 = Ok ([9], [min_int64])
  /\ DebugInfo (opened (NewReader (bytes_of low_writer))) = lines
    ["File header: Magic=0x5642455F434F4C00, Version=1, BlockCount=1";
     "    Encoding: Type=0, Compression=0"; "    Footer: Size=60, Magic=0x5642455F434F4C00"; "    Block index entries: 1";
     "      Block 0: Offset=64, Size=4032, Count=1"; "        ID range: 9-9"; "        Value range: 0-0, Sum=0"]%string.
Proof.
  split; [unfold low_writer; apply check_finished_sound; vm_compute; reflexivity|]. split; vm_compute; reflexivity.
Qed.
Print Assumptions C56_min_refuted.

(** C57: %.2f of any finite double is the nearest number with two decimals, ties to even. *)
Theorem C57_two_decimals : forall x, valid_binary 53 1024 x = true -> finite x ->
  exists h, two_places (format2f x) (match x with S754_finite s _ _ | S754_zero s => s | _ => false end) h
    /\ (Rabs (100 * Rabs (value x) - IZR h) <= / 2)%R
    /\ (Rabs (100 * Rabs (value x) - IZR h) = / 2 -> Z.even h = true)%R.
Proof. exact format2f_nearest. Qed.
Print Assumptions C57_two_decimals.

(** C57: whatever the file, the options and the schedule, the average as printed has the
    sign of the sum and differs from the exact quotient of the reported sum and count by at
    most 0.005 and 2^-53 of its size; a whole average is printed exactly. *)
Theorem C57_printed_average : forall {Srr : Sroar} gomaxprocs sched r opts res,
  AggregateWithOptions gomaxprocs sched r opts = Some (Ok res) ->
  0 < a_count res <= 2 ^ 53 -> Z.abs (a_sum res) <= 2 ^ 53 ->
  (exists h, two_places (format2f (a_avg res)) (a_sum res <? 0) h
     /\ (Rabs (IZR h / 100 - Rabs (IZR (a_sum res) / IZR (a_count res))) <= / 200 + Rabs (IZR (a_sum res) / IZR (a_count res)) * / 2 ^ 53)%R)
  /\ (forall k, a_sum res = k * a_count res -> two_places (format2f (a_avg res)) (k <? 0) (100 * Z.abs k)).
Proof.
  intros Srr g sched r opts res H Hc Hs. destruct (coherent_options _ _ _ _ _ H) as (_ & _ & ->). split; [apply printed_average; assumption|].
  intros k E. rewrite E in *. apply printed_whole; assumption.
Qed.
Print Assumptions C57_printed_average.
Example C57_case : exists res, AggregateWithOptions 4 [] agg_reader (mkOpts false None None 0) = Some (Ok res)
  /\ 0 < a_count res <= 2 ^ 53 /\ Z.abs (a_sum res) <= 2 ^ 53
  /\ a_sum res = 11 /\ a_count res = 3 /\ format2f (a_avg res) = text "3.67".
Proof. eexists. split; [vm_compute; reflexivity|]. cbn [a_count a_sum a_avg]. split; [lia|]. split; [lia|]. split; [reflexivity|]. split; [reflexivity|]. vm_compute. reflexivity. Qed.

(** C57: what [vibecol read -agg] prints, for any finished file. *)
Theorem C57_read_average : forall {Srr : Sroar} options faults h now w help name, finished_run options faults h now w ->
  exists blocks, stored h blocks
    /\ forall vs, vs = map snd (all_pairs blocks) -> Forall no_min_stat blocks -> zlen vs <= 2 ^ 53 -> Z.abs (zsum vs) <= 2 ^ 53 ->
        exists res out avg hd, aggregate_of vs res /\ runRead format2f help name (bytes_of w) false true = Exited out
          /\ statistics_of name (zlen blocks) res avg out /\ two_places avg (zsum vs <? 0) hd
          /\ (vs = [] -> hd = 0)
          /\ (vs <> [] -> Rabs (IZR hd / 100 - Rabs (IZR (zsum vs) / IZR (zlen vs))) <= / 200 + Rabs (IZR (zsum vs) / IZR (zlen vs)) * / 2 ^ 53)%R.
Proof.
  intros Srr options faults h now w help name H. destruct (read_statistics _ _ _ _ _ format2f help name H) as (blocks & S & K).
  exists blocks. split; [exact S|]. intros vs -> HN HL HZ. destruct (K HN) as (res & out & A & R & T). set (vs := map snd (all_pairs blocks)) in *. clearbody vs.
  destruct A as (A1 & A2 & A3 & A4 & A5). rewrite (i64_id (zsum vs)) in * by (unfold is_i64, two63; lia).
  destruct vs as [|v vs'].
  - exists res, out, (format2f (a_avg res)), 0. repeat (split; [first [exact R|exact T|unfold aggregate_of; rewrite i64_id by (unfold is_i64, two63; lia); repeat (split; [assumption|]); assumption]|]).
    rewrite (A4 eq_refl). split; [|split; [reflexivity|congruence]]. apply places2_spec; [lia|reflexivity].
  - assert (P : 0 < zlen (v :: vs')) by (rewrite zlen_cons; pose proof (zlen_nonneg vs'); lia). set (l := v :: vs') in *.
    assert (E : a_avg res = average (zsum l) (zlen l)) by (rewrite A5 by discriminate; unfold average; destruct (Z.gtb_spec (zlen l) 0); [reflexivity|lia]).
    destruct (printed_average (zsum l) (zlen l) HZ ltac:(lia)) as (hd & P1 & P2). rewrite <- E in P1.
    exists res, out, (format2f (a_avg res)), hd. split; [unfold aggregate_of; rewrite i64_id by (unfold is_i64, two63; lia); repeat (split; [assumption|]); assumption|].
    split; [exact R|]. split; [exact T|]. split; [exact P1|]. split; [discriminate|]. intros _. exact P2.
Qed.
Print Assumptions C57_read_average.

(** C57, "the average is printed correctly rounded (ties to even)" is false: the average
    2.675 of 200 values with sum 535 is printed as 2.67.  And a small negative average
    is printed as minus zero. *)
Theorem C57_tie_refuted : format2f (average 535 200) = text "2.67" /\ 535 * 1000 = 2675 * 200 /\ format2f (average (-1) 1000) = text "-0.00".
Proof. split; [vm_compute; reflexivity|]. split; [reflexivity|]. vm_compute. reflexivity. Qed.
Print Assumptions C57_tie_refuted.
