(** C46: the command line tool, for every argument, clock and I/O failure. *)
From Coq Require Import Ascii String.
From Verif Require Import Machine MachineFacts Encoding Sroar SroarFacts FileIO Writer Reader Aggregate Spec Cli CliSpec CliFacts
  Examples PAggregate PReader.
From Coq Require Import Lia ZifyBool.
Local Open Scope Z_scope.
Local Open Scope list_scope.

(** If [vibecol write] ends with status 0, its arguments were comma-separated lists of
    equally many uint64 IDs and int64 values; it reports that number, and [vibecol read
    -dump] on the file lists exactly these pairs in this order, in the usual decimal
    notation (whatever I/O failures there were). *)
Theorem C46_write_reads_back : forall {Srr : Sroar} now0 now faults name idsStr valuesStr out f fmt2f help,
  runWrite now0 now faults name idsStr valuesStr = (Exited out, Some f) ->
  exists ids vals, pairs_given idsStr valuesStr ids vals
    /\ (zlen ids <= max_items -> zlen (f_data f) < two63 -> zlen (bm_ser (fold_left bm_set ids bm_new)) < two32 ->
        (exists n, canonical_decimal n (zlen ids) /\ out = text "Wrote file with " ++ n ++ text " entries to " ++ name ++ [10])
        /\ exists dump, runRead fmt2f help name (f_data f) true false = Exited dump
             /\ dump_of name 1 (combine ids vals) dump).
Proof. exact @write_reads_back. Qed.
Print Assumptions C46_write_reads_back.

(** Without I/O failures the command succeeds exactly if there are at most 1015 pairs
    (what fits into the default block size target): it never splits its input over
    several blocks. *)
Theorem C46_write_succeeds : forall {Srr : Sroar} now0 now faults name idsStr valuesStr ids vals,
  fault_free faults -> pairs_given idsStr valuesStr ids vals -> zlen ids <= max_items ->
  exists f, (zlen ids <= 1015 -> exists out, runWrite now0 now faults name idsStr valuesStr = (Exited out, Some f))
         /\ (1015 < zlen ids -> runWrite now0 now faults name idsStr valuesStr = (Failed, Some f)).
Proof.
  intros Srr now0 now faults name idsStr valuesStr ids vals H1 H2 H3.
  destruct (write_succeeds now0 now faults name idsStr valuesStr ids vals H1 H2 H3) as (f & E). exists f.
  destruct (zlen ids <=? 1015) eqn:K; split; intros; try lia; [eauto|exact E].
Qed.
Print Assumptions C46_write_succeeds.

(** With any other arguments the command fails and touches no file. *)
Theorem C46_bad_arguments : forall {Srr : Sroar} now0 now faults name idsStr valuesStr,
  (forall ids vals, ~ pairs_given idsStr valuesStr ids vals) ->
  runWrite now0 now faults name idsStr valuesStr = (Failed, None).
Proof. exact @runWrite_bad. Qed.
Print Assumptions C46_bad_arguments.

(** [vibecol read -dump] on any finished file in a faithful encoding lists all the
    pairs that were stored, block after block. *)
Theorem C46_dump : forall {Srr : Sroar} options faults h now w fmt2f help name,
  finished_run options faults h now w -> faithful (encoding_of options) ->
  exists blocks out, stored h blocks
    /\ runRead fmt2f help name (bytes_of w) true false = Exited out
    /\ dump_of name (zlen blocks) (all_pairs blocks) out.
Proof. exact @read_dump. Qed.
Print Assumptions C46_dump.

(** [vibecol read -agg] on any finished file prints the aggregate of all stored values
    (unless a statistic of a block is the minimum int64). *)
Theorem C46_statistics : forall {Srr : Sroar} options faults h now w fmt2f help name,
  finished_run options faults h now w ->
  exists blocks, stored h blocks
    /\ (Forall no_min_stat blocks ->
        exists res out, aggregate_of (map snd (all_pairs blocks)) res
          /\ runRead fmt2f help name (bytes_of w) false true = Exited out
          /\ statistics_of name (zlen blocks) res (fmt2f (a_avg res)) out).
Proof. exact @read_statistics. Qed.
Print Assumptions C46_statistics.

(** Neither command crashes, whatever its arguments, the I/O failures, and the bytes of
    the file, unless an index entry of the file claims a size under 80 bytes ... *)
Theorem C46_no_crash : forall {Srr : Sroar},
  (forall now0 now faults name idsStr valuesStr,
     (forall ids vals, pairs_given idsStr valuesStr ids vals -> zlen ids <= max_items) ->
     fst (runWrite now0 now faults name idsStr valuesStr) <> Crashed)
  /\ (forall fmt2f help name data dump agg, Forall is_byte data ->
     (forall r, NewReader data = Ok r -> Forall (fun e => 80 <= e_size e) (r_index r)) ->
     runRead fmt2f help name data dump agg <> Crashed).
Proof. intros Srr. split; [exact write_never_crashes|exact read_never_crashes]. Qed.
Print Assumptions C46_no_crash.
(** ... which does crash it. *)
Theorem C46_crash_refuted : exists data, Forall is_byte data
  /\ forall fmt2f help name agg, runRead fmt2f help name data true agg = Crashed.
Proof.
  exists short_entry_file. split; [apply bytesb_sound; vm_compute; reflexivity|].
  intros fmt2f help name agg. unfold runRead.
  rewrite (opened_ok (NewReader short_entry_file)) by (vm_compute; reflexivity). cbn [rbind].
  replace (dumpBlocks _ _) with (@Panic (list Z)); [reflexivity|]. vm_compute. reflexivity.
Qed.
Print Assumptions C46_crash_refuted.

(** The decimal notation that is printed is one that is accepted, for the same number. *)
Theorem C46_notation : forall z, (is_u64 z \/ is_i64 z) ->
  canonical_decimal (decimal z) z
  /\ (is_u64 z -> ParseUint (decimal z) = Some z) /\ (is_i64 z -> ParseInt (decimal z) = Some z).
Proof.
  intros z Hz. assert (H : canonical_decimal (decimal z) z)
    by (apply decimal_canonical; unfold is_u64, is_i64, two63, two64 in *; lia).
  split; [exact H|]. split; intros K.
  - apply ParseUint_spec, canonical_unsigned; assumption.
  - apply ParseInt_spec, canonical_signed; assumption.
Qed.
Print Assumptions C46_notation.

(** A case: "7, 5 ,12" and "-3,+40,9223372036854775807". *)
Definition cli_ids : list Z := text "7, 5 ,12".
Definition cli_vals : list Z := text "-3,+40,9223372036854775807".
Definition cli_status (x : exit * option file) : bool := match x with (Exited _, Some _) => true | _ => false end.
Definition cli_file (x : exit * option file) : list Z := match x with (_, Some f) => f_data f | _ => [] end.
Example C46_case : pairs_given cli_ids cli_vals [7; 5; 12] [-3; 40; 9223372036854775807]
  /\ cli_status (runWrite 1 2 [] (text "a.col") cli_ids cli_vals) = true
  /\ zlen (bm_ser (fold_left bm_set [7; 5; 12] bm_new)) < two32
  /\ runRead (fun _ => []) [] (text "a.col") (cli_file (runWrite 1 2 [] (text "a.col") cli_ids cli_vals)) true false
     = Exited (text "File: a.col" ++ [10] ++ text "Version: 1" ++ [10] ++ text "Blocks: 1" ++ [10; 10]
        ++ text "ID" ++ [9] ++ text "Value" ++ [10] ++ text "--" ++ [9] ++ text "-----" ++ [10]
        ++ text "7" ++ [9] ++ text "-3" ++ [10] ++ text "5" ++ [9] ++ text "40" ++ [10]
        ++ text "12" ++ [9] ++ text "9223372036854775807" ++ [10; 10]).
Proof.
  split.
  - split; [|split; [|reflexivity]].
    + apply (parse_list ParseUint _ _ ParseUint_spec unsigned_clean). vm_compute. reflexivity.
    + apply (parse_list ParseInt _ _ ParseInt_spec signed_clean). vm_compute. reflexivity.
  - split; [vm_compute; reflexivity|]. split; [vm_compute; reflexivity|]. vm_compute. reflexivity.
Qed.
Example C46_bad_case : runWrite 1 2 [] (text "a.col") (text "18446744073709551616") (text "1") = (Failed, None)
  /\ runWrite 1 2 [] (text "a.col") (text "1,2") (text "1") = (Failed, None).
Proof. split; vm_compute; reflexivity. Qed.
