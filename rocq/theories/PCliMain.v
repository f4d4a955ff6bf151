(** C63: vibecol, run with any command line.  Statements and cases; proofs in CliMainFacts.v. *)
From Coq Require Import Ascii String Lia.
From Verif Require Import Machine MachineFacts Encoding Sroar SroarFacts FileIO Writer Reader Aggregate Spec Cli CliSpec CliFacts CliMain CliMainSpec CliMainFacts
  Examples PAggregate PReader PCli.
Local Open Scope Z_scope.
Local Open Scope list_scope.

(** C63: the flags can be given in any order, repeated, with one dash or two, with "=" or
    apart.  If vibecol write ends with status 0, only the file -o names has changed;
    vibecol read -f with that name and -dump, with any spelling of these flags, then lists
    the pairs that -ids and -values gave. *)
Theorem C63_write_then_read : forall {Srr : Sroar} now0 now faults can fmt2f help fs fs1 a b l o idsStr valuesStr out,
  spells write_flags a l -> no_flag b ->
  string_is (text "o") (text "example.col") l o -> string_is (text "ids") [] l idsStr -> string_is (text "values") [] l valuesStr ->
  vibecol now0 now faults can fmt2f help fs (text "write" :: a ++ b) = (Ended 0 out, fs1) ->
  (forall name, name <> o -> fs1 name = fs name)
  /\ exists ids vals, pairs_given idsStr valuesStr ids vals
     /\ (zlen ids <= max_items -> (forall data, fs1 o = Some data -> zlen data < two63) -> zlen (bm_ser (fold_left bm_set ids bm_new)) < two32 ->
         (exists n, canonical_decimal n (zlen ids) /\ out = Some (text "Wrote file with " ++ n ++ text " entries to " ++ o ++ [10]))
         /\ forall now2 now3 faults2 can2 fmt2f2 help2 a2 b2 l2, spells read_flags a2 l2 -> no_flag b2 ->
              string_is (text "f") (text "example.col") l2 o -> bool_is (text "dump") false l2 true -> bool_is (text "agg") false l2 false ->
              exists dump, vibecol now2 now3 faults2 can2 fmt2f2 help2 fs1 (text "read" :: a2 ++ b2) = (Ended 0 (Some dump), fs1)
                /\ dump_of o 1 (combine ids vals) dump).
Proof. change write_flags with writeFlags. change read_flags with readFlags.
  intros Srr now0 now faults can fmt2f help fs fs1 a b l o idsStr valuesStr out HS HB Ho Hi Hv E. unfold vibecol in E. rewrite same_text_refl in E.
  rewrite (parse_spelled _ _ _ _ write_proper HS HB) in E. rewrite (string_last _ _ _ _ Ho), (string_last _ _ _ _ Hi), (string_last _ _ _ _ Hv) in E.
  cbv zeta in E. destruct (runWrite now0 now faults o idsStr valuesStr) as [e f] eqn:W.
  assert (X : exists out', e = Exited out' /\ exists f', f = Some f' /\ can o = true /\ fs1 = put_file fs o (f_data f') /\ out = Some out').
  { destruct f as [f|].
    - destruct (can o); [|discriminate E]. apply (f_equal fst) in E as E1. apply (f_equal snd) in E as E2. cbn [fst snd] in E1, E2. subst fs1.
      destruct e as [out'| |]; try discriminate E1. injection E1 as <-. exists out'. split; [reflexivity|]. exists f. auto.
    - destruct e as [out'| |]; try discriminate E. exfalso. destruct (pairs_given_or idsStr valuesStr) as [(ids & vals & G)|G]; [|rewrite (runWrite_bad _ _ _ _ _ _ G) in W; discriminate W].
      rewrite (runWrite_good _ _ _ _ _ _ _ _ G) in W. unfold write_pairs in W. repeat (match type of W with context [match ?x with _ => _ end] => destruct x end; try discriminate W). }
  destruct X as (out' & -> & f' & -> & _ & -> & ->). split; [intros name Hn; apply put_other; exact Hn|].
  pose proof (C46_write_reads_back now0 now faults o idsStr valuesStr out' f') as R.
  destruct (R (fun _ => []) [] W) as (ids & vals & G & _). exists ids, vals. split; [exact G|]. intros L1 L2 L3.
  specialize (L2 (f_data f') (put_same _ _ _)).
  assert (R' : forall fmt help, (exists n, canonical_decimal n (zlen ids) /\ out' = text "Wrote file with " ++ n ++ text " entries to " ++ o ++ [10])
        /\ exists dump, runRead fmt help o (f_data f') true false = Exited dump /\ dump_of o 1 (combine ids vals) dump).
  { intros fmt hlp. destruct (R fmt hlp W) as (ids' & vals' & G' & K).
    assert (EE : ids' = ids /\ vals' = vals).
    { destruct G as (G1 & G2 & _), G' as (G1' & G2' & _).
      apply (parse_list ParseUint _ _ ParseUint_spec unsigned_clean) in G1, G1'. apply (parse_list ParseInt _ _ ParseInt_spec signed_clean) in G2, G2'. split; congruence. }
    destruct EE as [-> ->]. apply K; assumption. }
  split. { destruct (R' (fun _ => []) []) as [(n & N1 & N2) _]. exists n. split; [exact N1|]. f_equal. exact N2. }
  intros now2 now3 faults2 can2 fmt2f2 help2 a2 b2 l2 HS2 HB2 Hf Hd Ha. destruct (R' fmt2f2 help2) as [_ (dump & D1 & D2)]. exists dump. split; [|exact D2].
  unfold vibecol. replace (same_text (text "read") (text "write")) with false by reflexivity. rewrite same_text_refl.
  rewrite (parse_spelled _ _ _ _ read_proper HS2 HB2). cbv zeta. rewrite (string_last _ _ _ _ Hf), (bool_last _ _ _ _ Hd), (bool_last _ _ _ _ Ha), put_same, D1. reflexivity.
Qed.
Print Assumptions C63_write_then_read.

(** C63: without I/O failures, lists of at most 1015 pairs can be written this way. *)
Theorem C63_write_succeeds : forall {Srr : Sroar} now0 now can fmt2f help fs a b l o idsStr valuesStr ids vals,
  spells write_flags a l -> no_flag b ->
  string_is (text "o") (text "example.col") l o -> string_is (text "ids") [] l idsStr -> string_is (text "values") [] l valuesStr ->
  pairs_given idsStr valuesStr ids vals -> can o = true -> zlen ids <= 1015 ->
  exists out fs1, vibecol now0 now [] can fmt2f help fs (text "write" :: a ++ b) = (Ended 0 (Some out), fs1).
Proof. change write_flags with writeFlags.
  intros Srr now0 now can fmt2f help fs a b l o idsStr valuesStr ids vals HS HB Ho Hi Hv G C L. unfold vibecol. rewrite same_text_refl.
  rewrite (parse_spelled _ _ _ _ write_proper HS HB), (string_last _ _ _ _ Ho), (string_last _ _ _ _ Hi), (string_last _ _ _ _ Hv). cbv zeta.
  destruct (C46_write_succeeds now0 now [] o idsStr valuesStr ids vals) as (f & F & _); [constructor|exact G|unfold max_items; lia|]. destruct (F L) as (out & ->). rewrite C. cbn [ending]. eauto.
Qed.
Print Assumptions C63_write_succeeds.

(** C63, for every command line: either no file changes, or it was vibecol write with
    flags spelled as above, equally many IDs and values, and only the file -o names changes. *)
Theorem C63_only_the_output : forall {Srr : Sroar} now0 now faults can fmt2f help fs args e fs1,
  vibecol now0 now faults can fmt2f help fs args = (e, fs1) ->
  fs1 = fs
  \/ exists a b l o idsStr valuesStr ids vals, args = text "write" :: a ++ b /\ spells write_flags a l /\ no_flag b
       /\ string_is (text "o") (text "example.col") l o /\ string_is (text "ids") [] l idsStr /\ string_is (text "values") [] l valuesStr
       /\ pairs_given idsStr valuesStr ids vals /\ can o = true
       /\ forall name, name <> o -> fs1 name = fs name.
Proof. change write_flags with writeFlags.
  intros Srr now0 now faults can fmt2f help fs args e fs1 E. destruct args as [|c args]; [injection E; auto|]. unfold vibecol in E.
  destruct (same_text c (text "write")) eqn:K.
  - apply same_text_spec in K. subst c. destruct (flagParse writeFlags args) as [l| |] eqn:P; [|injection E; auto..]. cbv zeta in E.
    destruct (runWrite _ _ _ _ _ _) as [x f] eqn:W. destruct f as [f|]; [|injection E; auto]. destruct (can _) eqn:C; [|injection E; auto]. apply (f_equal snd) in E. cbn [snd] in E. subst fs1.
    destruct (parse_only_spelled _ write_proper (length args) args l (le_n _) P) as (a & b & -> & S & B).
    destruct (pairs_given_or (stringVar (text "ids") [] l) (stringVar (text "values") [] l)) as [(ids & vals & G)|G]; [|rewrite (runWrite_bad _ _ _ _ _ _ G) in W; discriminate W].
    right. exists a, b, l, (stringVar (text "o") (text "example.col") l), (stringVar (text "ids") [] l), (stringVar (text "values") [] l), ids, vals.
    repeat (split; [first [reflexivity|assumption|apply stringVar_is]|]). intros name Hn. apply put_other. exact Hn.
  - destruct (same_text c (text "read")); [|injection E; auto]. destruct (flagParse readFlags args); [|injection E; auto..]. cbv zeta in E. destruct (fs _); injection E; auto.
Qed.
Print Assumptions C63_only_the_output.

(** C63: an argument list that is not understood ends the program with status 2 (or with
    the help text and status 0), and nothing is done; everything else is flags, spelled as
    above, and then arguments which make no difference. *)
Theorem C63_other_arguments : forall {Srr : Sroar} now0 now faults can fmt2f help fs args,
  (forall command defs, (command = text "write" /\ defs = write_flags) \/ (command = text "read" /\ defs = read_flags) ->
     (exists a b l, args = a ++ b /\ spells defs a l /\ no_flag b
        /\ vibecol now0 now faults can fmt2f help fs (command :: a ++ b) = vibecol now0 now faults can fmt2f help fs (command :: a))
     \/ vibecol now0 now faults can fmt2f help fs (command :: args) = (Ended 2 (Some []), fs)
     \/ vibecol now0 now faults can fmt2f help fs (command :: args) = (Ended 0 (Some []), fs))
  /\ (forall command, command <> text "write" -> command <> text "read" -> vibecol now0 now faults can fmt2f help fs (command :: args) = (Ended 1 None, fs))
  /\ vibecol now0 now faults can fmt2f help fs [] = (Ended 1 None, fs).
Proof. change write_flags with writeFlags. change read_flags with readFlags.
  intros Srr now0 now faults can fmt2f help fs args. split; [|split; [|reflexivity]].
  - intros command defs [[-> ->]|[-> ->]].
    + destruct (flagParse writeFlags args) as [l| |] eqn:P.
      * left. destruct (parse_only_spelled _ write_proper (length args) args l (le_n _) P) as (a & b & -> & S & B). exists a, b, l. repeat (split; [first [reflexivity|assumption]|]).
        unfold vibecol. rewrite same_text_refl, P, <- (app_nil_r a), (parse_spelled _ _ _ _ write_proper S (or_introl eq_refl)). reflexivity.
      * right; right. unfold vibecol. rewrite same_text_refl, P. reflexivity.
      * right; left. unfold vibecol. rewrite same_text_refl, P. reflexivity.
    + assert (K : same_text (text "read") (text "write") = false) by reflexivity. destruct (flagParse readFlags args) as [l| |] eqn:P.
      * left. destruct (parse_only_spelled _ read_proper (length args) args l (le_n _) P) as (a & b & -> & S & B). exists a, b, l. repeat (split; [first [reflexivity|assumption]|]).
        unfold vibecol. rewrite K, same_text_refl, P, <- (app_nil_r a), (parse_spelled _ _ _ _ read_proper S (or_introl eq_refl)). reflexivity.
      * right; right. unfold vibecol. rewrite K, same_text_refl, P. reflexivity.
      * right; left. unfold vibecol. rewrite K, same_text_refl, P. reflexivity.
  - intros command N1 N2. unfold vibecol. apply same_text_neq in N1, N2. rewrite N1, N2. reflexivity.
Qed.
Print Assumptions C63_other_arguments.

(** C63: vibecol read -agg, any spelling, on any finished file: the statistics of all values. *)
Theorem C63_statistics : forall {Srr : Sroar} options faults h now w now0 now1 faults1 can fmt2f help fs a b l name,
  finished_run options faults h now w -> fs name = Some (bytes_of w) ->
  spells read_flags a l -> no_flag b -> string_is (text "f") (text "example.col") l name -> bool_is (text "dump") false l false -> bool_is (text "agg") false l true ->
  exists blocks, stored h blocks
    /\ (Forall no_min_stat blocks ->
        exists res out, aggregate_of (map snd (all_pairs blocks)) res
          /\ vibecol now0 now1 faults1 can fmt2f help fs (text "read" :: a ++ b) = (Ended 0 (Some out), fs)
          /\ statistics_of name (zlen blocks) res (fmt2f (a_avg res)) out).
Proof. change read_flags with readFlags.
  intros Srr options faults h now w now0 now1 faults1 can fmt2f help fs a b l name H F S B Hn Hd Ha.
  destruct (C46_statistics options faults h now w fmt2f help name H) as (blocks & SB & K). exists blocks. split; [exact SB|]. intros N.
  destruct (K N) as (res & out & A & R & T). exists res, out. split; [exact A|]. split; [|exact T].
  unfold vibecol. replace (same_text (text "read") (text "write")) with false by reflexivity. rewrite same_text_refl, (parse_spelled _ _ _ _ read_proper S B).
  cbv zeta. rewrite (string_last _ _ _ _ Hn), (bool_last _ _ _ _ Hd), (bool_last _ _ _ _ Ha), F, R. reflexivity.
Qed.
Print Assumptions C63_statistics.

(** C63: no command line makes it panic, as long as the lists given have at most
    200,000,000 items and the index entries of the files read state sizes of at least 80. *)
Theorem C63_no_crash : forall {Srr : Sroar} now0 now faults can fmt2f help fs args,
  (forall a b l idsStr valuesStr ids vals, args = text "write" :: a ++ b -> spells write_flags a l ->
     string_is (text "ids") [] l idsStr -> string_is (text "values") [] l valuesStr -> pairs_given idsStr valuesStr ids vals -> zlen ids <= max_items) ->
  (forall name data r, fs name = Some data -> Forall is_byte data /\ (NewReader data = Ok r -> Forall (fun e => 80 <= e_size e) (r_index r))) ->
  fst (vibecol now0 now faults can fmt2f help fs args) <> Panicked.
Proof. change write_flags with writeFlags.
  intros Srr now0 now faults can fmt2f help fs args HW HR. destruct args as [|c args]; [discriminate|]. unfold vibecol.
  destruct (same_text c (text "write")) eqn:K.
  - apply same_text_spec in K. subst c. destruct (flagParse writeFlags args) as [l| |] eqn:P; [|discriminate..]. cbv zeta.
    destruct (parse_only_spelled _ write_proper (length args) args l (le_n _) P) as (a & b & -> & S & B).
    pose proof (write_never_crashes now0 now faults (stringVar (text "o") (text "example.col") l) (stringVar (text "ids") [] l) (stringVar (text "values") [] l)
      (fun ids vals G => HW a b l _ _ ids vals eq_refl S (stringVar_is _ _ _) (stringVar_is _ _ _) G)) as N.
    destruct (runWrite _ _ _ _ _ _) as [x f]. cbn [fst] in N. destruct f as [f|]; [destruct (can _)|]; cbn [fst]; try discriminate; destruct x; try discriminate; congruence.
  - destruct (same_text c (text "read")); [|discriminate]. destruct (flagParse readFlags args) as [l| |]; [|discriminate..]. cbv zeta.
    set (name := stringVar _ _ _). destruct (fs name) as [data|] eqn:F; [|discriminate]. cbn [fst].
    assert (BY : Forall is_byte data) by (apply (HR name data no_reader F)).
    pose proof (read_never_crashes fmt2f help name data (boolVar (text "dump") false l) (boolVar (text "agg") false l) BY (fun r => proj2 (HR name data r F))) as N.
    destruct (runRead _ _ _ _ _ _); try discriminate; congruence.
Qed.
Print Assumptions C63_no_crash.

(** C63, "vibecol read FILE -dump lists FILE" is false: the file name ends the flags; what
    is shown is example.col, and without -dump, or, if there is none, an error. *)
Theorem C63_file_argument_refuted : forall {Srr : Sroar} now0 now faults can fmt2f help fs name c s more, name = c :: s -> c <> 45 ->
  vibecol now0 now faults can fmt2f help fs (text "read" :: name :: text "-dump" :: more)
  = match fs (text "example.col") with
    | None => (Ended 1 None, fs)
    | Some data => (ending (runRead fmt2f help (text "example.col") data false false), fs)
    end.
Proof.
  intros Srr now0 now faults can fmt2f help fs name c s more -> Hc. unfold vibecol. replace (same_text (text "read") (text "write")) with false by reflexivity. rewrite same_text_refl.
  assert (P : flagParse readFlags ((c :: s) :: text "-dump" :: more) = Parsed []).
  { apply (parse_spelled readFlags [] [] ((c :: s) :: text "-dump" :: more) read_proper (spells_none _)). right. eexists. eexists. split; [reflexivity|]. right; right; right. eauto. }
  rewrite P.
  cbv zeta. unfold stringVar, boolVar. cbn [fold_left]. destruct (fs _); reflexivity.
Qed.
Print Assumptions C63_file_argument_refuted.

(** A case: --values=1 is overridden later; -o apart; then -dump=T and a stray argument. *)
Definition main_write : list (list Z) := [text "--values=1"; text "-o"; text "a.col"; text "-ids=7"; text "-values"; text "-3"].
Definition main_settings : list setting :=
  [SetString (text "values") (text "1"); SetString (text "o") (text "a.col"); SetString (text "ids") (text "7"); SetString (text "values") (text "-3")].
Definition main_read : list (list Z) := [text "--f=a.col"; text "-dump=T"].
Definition main_read_settings : list setting := [SetString (text "f") (text "a.col"); SetBool (text "dump") true].
Definition no_files : files := fun _ => None.
Definition main_after : ended * files := vibecol 1 2 [] (fun _ => true) (fun _ => []) [] no_files (text "write" :: main_write).
Example C63_case : spells write_flags main_write main_settings
  /\ string_is (text "o") (text "example.col") main_settings (text "a.col") /\ string_is (text "values") [] main_settings (text "-3")
  /\ fst main_after = Ended 0 (Some (text "Wrote file with 1 entries to a.col" ++ [10]))
  /\ spells read_flags main_read main_read_settings /\ no_flag [text "x"; text "-agg"]
  /\ fst (vibecol 3 4 [] (fun _ => false) (fun _ => []) [] (snd main_after) (text "read" :: main_read ++ [text "x"; text "-agg"]))
     = Ended 0 (Some (text "File: a.col" ++ [10] ++ text "Version: 1" ++ [10] ++ text "Blocks: 1" ++ [10; 10]
        ++ text "ID" ++ [9] ++ text "Value" ++ [10] ++ text "--" ++ [9] ++ text "-----" ++ [10] ++ text "7" ++ [9] ++ text "-3" ++ [10; 10])).
Proof.
  split.
  { apply (spells_equals _ (text "--") (text "values") (text "1")); [right; reflexivity|cbn; tauto|].
    apply (spells_apart _ (text "-") (text "o") (text "a.col")); [left; reflexivity|cbn; tauto|].
    apply (spells_equals _ (text "-") (text "ids") (text "7")); [left; reflexivity|cbn; tauto|].
    apply (spells_apart _ (text "-") (text "values") (text "-3")); [left; reflexivity|cbn; tauto|constructor]. }
  split; [exact (stringVar_is (text "o") main_settings (text "example.col"))|].
  split; [exact (stringVar_is (text "values") main_settings [])|].
  split; [vm_compute; reflexivity|]. split.
  { apply (spells_equals _ (text "--") (text "f") (text "a.col")); [right; reflexivity|cbn; tauto|].
    apply (spells_bool _ (text "-") (text "dump") (text "T") true); [left; reflexivity|cbn; tauto|left; cbn; tauto|constructor]. }
  split; [right; eexists; eexists; split; [reflexivity|right; right; right; eexists; eexists; split; [reflexivity|discriminate]]|].
  vm_compute. reflexivity.
Qed.
