(** C70: loadtest and read_example, run with any command line.  Statements, their proofs
    from LoadMainFacts.v and C54/C55, and cases. *)
From Coq Require Import Ascii String Lia Sorting.Permutation.
From Verif Require Import Machine MachineFacts Encoding Sroar SroarFacts FileIO Writer WriterFacts SimpleWriter Reader ReaderFacts Aggregate Parallel
  Spec SimpleSpec AggFacts SimpleFacts Loadtest LoadSpec LoadFacts ExampleTools ExampleFacts Cli CliMain CliMainSpec CliMainFacts
  LoadMain LoadMainSpec LoadMainFacts PAggregate PSimple PLoad PExample.
Local Open Scope Z_scope.
Local Open Scope list_scope.

(** ** What the flags can be *)
Lemma sets_in defs a l : sets defs a l -> forall name v, In (name, v) l ->
  exists k, In (name, k) defs /\ ((exists t, accepts k t v) \/ (k = KBool /\ v = VBool true)).
Proof.
  induction 1 as [|d n k t x args l D I K A H IH|d n k t x args l D I A H IH|d n args l D I H IH]; intros name v Hin; [destruct Hin|..];
    (destruct Hin as [[= <- <-]|Hin]; [|exact (IH _ _ Hin)]); eauto.
Qed.
Lemma flag_in name default l v : flag_is name default l v -> v = default \/ In (name, v) l.
Proof. intros [(a & b & -> & _)|[-> _]]; [right; apply in_app_iff; right; left; reflexivity|left; reflexivity]. Qed.
Lemma flag_kind defs a l name k default v : proper_kinds defs -> sets defs a l -> In (name, k) defs -> flag_is name default l v ->
  v = default \/ (exists t, accepts k t v) \/ (k = KBool /\ v = VBool true).
Proof.
  intros [_ N] S I F. apply flag_in in F. destruct F as [F|F]; [left; exact F|right]. destruct (sets_in _ _ _ S _ _ F) as (k' & I' & H).
  apply (lookupKind_in defs N) in I, I'. replace k with k' by congruence. exact H.
Qed.
Ltac in_flags := cbn; tauto.
Lemma import_flags_typed clock a l : sets importFlags a l -> exists name n blockSize seed maxValue maxID, import_asks clock l name n blockSize seed maxValue maxID.
Proof.
  intros S.
  assert (T : forall name default, In (name, KText) importFlags -> exists t, flag_is name (VText default) l (VText t)).
  { intros name default I. pose proof (variable_is name l (VText default)) as F. destruct (flag_kind _ _ _ _ _ _ _ import_proper S I F) as [E|[(t & E)|[E _]]]; [| |discriminate E].
    - exists default. rewrite E in F. exact F.
    - cbn in E. exists t. rewrite E in F. exact F. }
  assert (M : forall name k default, In (name, k) importFlags -> k = KInt \/ k = KUint -> exists n, flag_is name (VNum default) l (VNum n)).
  { intros name k default I K. pose proof (variable_is name l (VNum default)) as F. destruct (flag_kind _ _ _ _ _ _ _ import_proper S I F) as [E|[(t & E)|[E _]]].
    - exists default. rewrite E in F. exact F.
    - destruct K as [->| ->]; cbn in E; destruct E as (n & E); exists n; [destruct E as (E & _)|destruct E as (_ & _ & E)]; rewrite E in F; exact F.
    - destruct K; congruence. }
  destruct (T (text "file") (text "loadtest.col") ltac:(in_flags)) as (name & F1).
  destruct (M (text "n") KInt 10000000 ltac:(in_flags) (or_introl eq_refl)) as (n & F2).
  destruct (M (text "block-size") KInt 10000 ltac:(in_flags) (or_introl eq_refl)) as (bs & F3).
  destruct (M (text "seed") KInt clock ltac:(in_flags) (or_introl eq_refl)) as (seed & F4).
  destruct (M (text "max-value") KInt 1000000 ltac:(in_flags) (or_introl eq_refl)) as (mv & F5).
  destruct (M (text "max-id") KUint 20000000 ltac:(in_flags) (or_intror eq_refl)) as (mi & F6).
  exists name, n, bs, seed, mv, mi. repeat split; assumption.
Qed.
Lemma max_value_typed clock a l name n blockSize seed maxValue maxID : sets importFlags a l -> import_asks clock l name n blockSize seed maxValue maxID -> is_i64 maxValue.
Proof.
  intros S (_ & _ & _ & _ & F & _). destruct (flag_kind _ _ _ (text "max-value") KInt _ _ import_proper S ltac:(in_flags) F) as [[= ->]|[(t & E)|[E _]]]; [unfold is_i64, two63; lia| |discriminate E].
  cbn in E. destruct E as (m & [= ->] & R & _). exact R.
Qed.

(** ** Sizes *)
Section Sizes.
Context {Srr : Sroar} {Lw : SroarLaws Srr}.
Lemma blocks_few (L : list pblock) : Forall (fun p => good_block (snd p)) L -> zlen L <= zlen (all_pairs (map snd L)) /\ zlen (flat_map fst (map snd L)) = zlen (all_pairs (map snd L)).
Proof.
  induction 1 as [|[p [ids vals]] L (_ & _ & E & H) _ IH]; [split; [reflexivity|reflexivity]|]. cbn [fst snd] in *.
  change (all_pairs (map snd ((p, (ids, vals)) :: L))) with (combine ids vals ++ all_pairs (map snd L)).
  change (flat_map fst (map snd ((p, (ids, vals)) :: L))) with (ids ++ flat_map fst (map snd L)).
  rewrite !zlen_app, zlen_cons, zlen_combine by exact E. unfold max_items in H. unfold block in *. lia.
Qed.
Lemma import_fits draws maxValue maxID srt now0 now faults n blockSize rep sw : is_i64 maxValue -> sorts srt -> n + 10000 < two63 ->
  runImport draws srt now0 now faults n blockSize maxValue maxID = (Finished rep, Some sw) ->
  56 * n < two32 -> zlen (file_of sw) < two63 -> (forall ids, zlen ids <= Z.max 0 n -> zlen (bm_ser (fold_left bm_set ids bm_new)) < two32) ->
  fits (sw_writer sw) (file_of sw).
Proof.
  intros HM Hs Hn H S1 S2 S3. destruct (runImport_run draws maxValue maxID HM srt Hs _ _ _ _ _ _ _ Hn H) as (bs & HP & Hr & Hc & R).
  destruct (plan_typed draws maxValue maxID HM n 0 bs HP) as [HT HL].
  destruct R as [now1 sw0 cs outs Hnew Hopt Hty Hrun E].
  pose proof (undisturbed_calls bs now) as HU. rewrite E in HU.
  pose proof (new_state False now1 (import_options blockSize) faults sw0 ltac:(tauto) Hopt Hnew) as H0.
  pose proof (history_state False srt _ cs Hs Hty _ _ _ _ H0 Hrun HU) as [(Hc' & _)|(_ & Hd)]; [unfold IsClosed in Hc; congruence|].
  destruct Hd as (t & L & now2 & X & off & Ht & Hp & HF & Hcnt & Hids). cbn [app] in Hp.
  assert (HG : Forall (fun p => good_block (snd p)) L).
  { pose proof (fz_blocks _ _ _ _ _ _ _ _ HF) as B. eapply Forall_impl; [|exact B]. intros p Q. apply Q. }
  destruct (blocks_few L HG) as [B1 B2].
  assert (LN : zlen (all_pairs (map snd L)) = Z.max 0 n).
  { rewrite Hp, <- E. assert (Q : zlen (flat_map (adds srt) (combine (calls bs now) (fine bs ++ [Ok tt]))) = zlen (concat (map pairs bs))).
    { unfold calls. clear - Hs. induction bs as [|b bs IH]; [reflexivity|]. cbn [writes fine map app combine flat_map concat]. rewrite !zlen_app. f_equal; [|exact IH].
      cbn [adds fst snd]. unfold zlen. f_equal. symmetry. apply Permutation_length. apply arrange_perm. exact Hs. }
    rewrite Q. exact HL. }
  constructor.
  - exact S2.
  - unfold pblock in *. rewrite Hcnt. unfold two32 in *. lia.
  - rewrite Hids. apply S3. lia.
Qed.
End Sizes.

(** ** Running the commands *)
Section Run.
Context {Srr : Sroar}.
Lemma not_import : same_text (text "aggregate") (text "import") = false. Proof. reflexivity. Qed.
Lemma import_run rng srt clock now0 now faults can g sched fs a b l name n blockSize seed maxValue maxID :
  sets importFlags a l -> no_flag b -> import_asks clock l name n blockSize seed maxValue maxID ->
  loadtest rng srt clock now0 now faults can g sched fs (text "import" :: a ++ b)
  = if can name then
      let '(e, sw) := runImport (rng seed) srt now0 now faults n blockSize maxValue maxID in
      Some (match e with Finished r => Imported r | Stopped => Status 1 | Crash => Panics end,
            put_file fs name (match sw with
                              | Some sw => file_of sw
                              | None => f_data (snd (NewWriter now0 [WithBlockSize (u32 blockSize); WithEncoding EncodingVarIntBoth] faults))
                              end))
    else Some (Status 1, fs).
Proof.
  intros S B (F1 & F2 & F3 & F4 & F5 & F6). unfold loadtest. rewrite same_text_refl, (parse_sets _ _ _ _ import_proper S B). cbv zeta.
  rewrite (flag_last _ _ _ _ F1), (flag_last _ _ _ _ F2), (flag_last _ _ _ _ F3), (flag_last _ _ _ _ F4), (flag_last _ _ _ _ F5), (flag_last _ _ _ _ F6).
  cbn [numOf textOf]. reflexivity.
Qed.
Lemma aggregate_run rng srt clock now0 now faults can g sched fs a b l name skip parallel :
  sets aggregateFlags a l -> no_flag b -> aggregate_asks l name skip parallel ->
  loadtest rng srt clock now0 now faults can g sched fs (text "aggregate" :: a ++ b)
  = match fs name with
    | None => Some (Status 1, fs)
    | Some data =>
        match runAggregate g sched data skip parallel with
        | None => None
        | Some e => Some (match e with Finished r => Aggregated r | Stopped => Status 1 | Crash => Panics end, fs)
        end
    end.
Proof.
  intros S B (F1 & F2 & F3). unfold loadtest. rewrite not_import, same_text_refl, (parse_sets _ _ _ _ aggregate_proper S B). cbv zeta.
  rewrite (flag_last _ _ _ _ F1), (flag_last _ _ _ _ F2), (flag_last _ _ _ _ F3). cbn [numOf textOf boolOf]. reflexivity.
Qed.
Lemma imported_inv rng srt clock now0 now faults can g sched fs a b l name n blockSize seed maxValue maxID rep fs1 :
  sets importFlags a l -> no_flag b -> import_asks clock l name n blockSize seed maxValue maxID ->
  loadtest rng srt clock now0 now faults can g sched fs (text "import" :: a ++ b) = Some (Imported rep, fs1) ->
  exists sw, runImport (rng seed) srt now0 now faults n blockSize maxValue maxID = (Finished rep, Some sw) /\ fs1 = put_file fs name (file_of sw) /\ can name = true.
Proof.
  intros S B A E. rewrite (import_run _ _ _ _ _ _ _ _ _ _ _ _ _ _ _ _ _ _ _ S B A) in E. destruct (can name) eqn:C; [|discriminate E].
  destruct (runImport _ _ _ _ _ _ _ _ _) as [e sw] eqn:R. injection E as E1 E2. destruct e as [r| |]; try discriminate E1. injection E1 as ->.
  destruct sw as [sw|]; [exists sw; auto|]. exfalso. clear - R. unfold runImport in R. destruct (NewSimpleWriter _ _ _); [|discriminate R..].
  destruct (importLoop _ _ _ _ _ _ _ _ _ _) as [[]?]; try discriminate R. destruct (SClose _ _) as [[]?]; discriminate R.
Qed.

(** C70: the flags can be given in any order, repeated, with one dash or two, with "=" or
    apart, the numbers as decimal, hexadecimal, octal or binary Go literals.  If loadtest
    import ends with status 0, only the file -file names has changed; loadtest aggregate
    with that name, with any spelling of its flags, with or without the stored statistics
    and with any number of workers, under any schedule, then reports version 1, encoding
    7, the aggregate of exactly the values generated from the seed and a full scan of all
    of them. *)
Theorem C70_import_then_aggregate {Lw : SroarLaws Srr} : forall rng srt clock now0 now faults can g sched fs a b l name n blockSize seed maxValue maxID rep fs1,
  sorts srt -> sets import_flags a l -> no_flag b -> import_asks clock l name n blockSize seed maxValue maxID -> n + 10000 < two63 ->
  loadtest rng srt clock now0 now faults can g sched fs (text "import" :: a ++ b) = Some (Imported rep, fs1) ->
  (forall other, other <> name -> fs1 other = fs other) /\ rep = mkImport (Z.max 0 n) (Z.max 0 n)
  /\ exists batches, generated (rng seed) maxValue maxID n 0 batches /\ zlen (concat batches) = Z.max 0 n
     /\ (56 * n < two32 -> (forall data, fs1 name = Some data -> zlen data < two63) ->
         (forall ids, zlen ids <= Z.max 0 n -> zlen (bm_ser (fold_left bm_set ids bm_new)) < two32) ->
         exists blocks, forall rng2 srt2 clock2 now2 now3 faults2 can2 g2 sched2 a2 b2 l2 skip parallel x,
           sets aggregate_flags a2 l2 -> no_flag b2 -> aggregate_asks l2 name skip parallel ->
           skip = true \/ (sensible maxValue maxID /\ maxValue <= 2 ^ 34) ->
           loadtest rng2 srt2 clock2 now2 now3 faults2 can2 g2 sched2 fs1 (text "aggregate" :: a2 ++ b2) = Some x ->
           exists res, x = (Aggregated (mkReport 1 7 blocks res
               (if parallel =? 0 then None else Some (if parallel <? 0 then g2 else parallel)) (Some (Z.max 0 n))), fs1)
             /\ aggregate_of (map snd (concat batches)) res).
Proof. change import_flags with importFlags. change aggregate_flags with aggregateFlags.
  intros rng srt clock now0 now faults can g sched fs a b l name n blockSize seed maxValue maxID rep fs1 Hs S B A Hn E.
  destruct (imported_inv _ _ _ _ _ _ _ _ _ _ _ _ _ _ _ _ _ _ _ _ _ S B A E) as (sw & R & -> & C).
  pose proof (max_value_typed _ _ _ _ _ _ _ _ _ S A) as HM.
  destruct (import_complete (rng seed) srt maxValue maxID now0 now faults n blockSize rep sw Hs HM Hn R) as (batches & G & L & -> & K).
  split; [intros other Ho; apply put_other; exact Ho|]. split; [reflexivity|]. exists batches. split; [exact G|]. split; [exact L|].
  intros S1 S2 S3. specialize (S2 _ (put_same _ _ _)).
  destruct (K (import_fits _ _ _ _ _ _ _ _ _ _ _ HM Hs Hn R S1 S2 S3)) as (r & blocks & outs & _ & _ & _ & _ & _ & Q).
  exists (zlen blocks). intros rng2 srt2 clock2 now2 now3 faults2 can2 g2 sched2 a2 b2 l2 skip parallel x SA BA AA HS EA.
  rewrite (aggregate_run _ _ _ _ _ _ _ _ _ _ _ _ _ _ _ _ SA BA AA), put_same in EA. destruct (runAggregate g2 sched2 (file_of sw) skip parallel) as [e|] eqn:RA; [|discriminate EA].
  destruct (Q _ _ _ _ _ HS RA) as (res & -> & AG). apply (f_equal (fun o => match o with Some z => z | None => x end)) in EA. cbv beta iota in EA. subst x. exists res. split; [reflexivity|exact AG].
Qed.

(** C70: the seed decides the data.  Two imports with the same -seed, -n, -max-value and
    -max-id, on different machines, into different files, with different block sizes,
    give the same aggregate. *)
Lemma generated_det draws maxValue maxID n k b1 : generated draws maxValue maxID n k b1 -> forall b2, generated draws maxValue maxID n k b2 -> b1 = b2.
Proof.
  induction 1 as [n k H|n k ids vals k' rest H M G IH]; intros b2 G2; inversion G2 as [? ? H2|? ? ids2 vals2 k2 rest2 H2 M2 G2']; subst; try reflexivity; try lia.
  rewrite M in M2. injection M2 as <- <- <-. f_equal. apply IH. exact G2'.
Qed.
Theorem C70_same_seed {Lw : SroarLaws Srr} : forall rng n seed maxValue maxID
    srt1 clock1 now1 now1' faults1 can1 g1 sched1 fs1 a1 b1 l1 name1 blockSize1 rep1 fs1'
    srt2 clock2 now2 now2' faults2 can2 g2 sched2 fs2 a2 b2 l2 name2 blockSize2 rep2 fs2'
    sched3 c1 d1 m1 skip1 parallel1 agg1 sched4 c2 d2 m2 skip2 parallel2 agg2,
  1 <= n -> 56 * n < two32 -> (forall ids, zlen ids <= n -> zlen (bm_ser (fold_left bm_set ids bm_new)) < two32) ->
  sorts srt1 -> sets import_flags a1 l1 -> no_flag b1 -> import_asks clock1 l1 name1 n blockSize1 seed maxValue maxID ->
  sorts srt2 -> sets import_flags a2 l2 -> no_flag b2 -> import_asks clock2 l2 name2 n blockSize2 seed maxValue maxID ->
  loadtest rng srt1 clock1 now1 now1' faults1 can1 g1 sched1 fs1 (text "import" :: a1 ++ b1) = Some (Imported rep1, fs1') ->
  loadtest rng srt2 clock2 now2 now2' faults2 can2 g2 sched2 fs2 (text "import" :: a2 ++ b2) = Some (Imported rep2, fs2') ->
  (forall data, fs1' name1 = Some data -> zlen data < two63) -> (forall data, fs2' name2 = Some data -> zlen data < two63) ->
  skip1 = true \/ (sensible maxValue maxID /\ maxValue <= 2 ^ 34) -> skip2 = true \/ (sensible maxValue maxID /\ maxValue <= 2 ^ 34) ->
  sets aggregate_flags c1 m1 -> no_flag d1 -> aggregate_asks m1 name1 skip1 parallel1 ->
  sets aggregate_flags c2 m2 -> no_flag d2 -> aggregate_asks m2 name2 skip2 parallel2 ->
  loadtest rng srt1 clock1 now1 now1' faults1 can1 g1 sched3 fs1' (text "aggregate" :: c1 ++ d1) = Some (Aggregated agg1, fs1') ->
  loadtest rng srt2 clock2 now2 now2' faults2 can2 g2 sched4 fs2' (text "aggregate" :: c2 ++ d2) = Some (Aggregated agg2, fs2') ->
  rep1 = rep2 /\ rp_result agg1 = rp_result agg2 /\ rp_scan agg1 = rp_scan agg2.
Proof. change import_flags with importFlags. change aggregate_flags with aggregateFlags.
  intros * N1 N2 SB HS1 S1 B1 A1 HS2 S2 B2 A2 E1 E2 Z1 Z2 K1 K2 SA1 BA1 AA1 SA2 BA2 AA2 EA1 EA2.
  assert (Hn : n + 10000 < two63) by (unfold two32, two63 in *; lia).
  assert (SB' : forall ids, zlen ids <= Z.max 0 n -> zlen (bm_ser (fold_left bm_set ids bm_new)) < two32) by (intros ids Hi; apply SB; lia).
  destruct (C70_import_then_aggregate _ _ _ _ _ _ _ _ _ _ _ _ _ _ _ _ _ _ _ _ _ HS1 S1 B1 A1 Hn E1) as (_ & -> & bt1 & G1 & L1 & Q1).
  destruct (C70_import_then_aggregate _ _ _ _ _ _ _ _ _ _ _ _ _ _ _ _ _ _ _ _ _ HS2 S2 B2 A2 Hn E2) as (_ & -> & bt2 & G2 & L2 & Q2).
  split; [reflexivity|]. destruct (Q1 N2 Z1 SB') as (bl1 & R1). destruct (Q2 N2 Z2 SB') as (bl2 & R2).
  destruct (R1 _ _ _ _ _ _ _ _ _ _ _ _ _ _ _ SA1 BA1 AA1 K1 EA1) as (res1 & X1 & Y1). destruct (R2 _ _ _ _ _ _ _ _ _ _ _ _ _ _ _ SA2 BA2 AA2 K2 EA2) as (res2 & X2 & Y2).
  injection X1 as ->. injection X2 as ->. cbn [rp_result rp_scan]. split; [|reflexivity].
  rewrite (generated_det _ _ _ _ _ _ G2 _ G1) in Y2. apply (aggregate_unique (map snd (concat bt1))); [|exact Y1|exact Y2].
  intros W. apply (f_equal (@length Z)) in W. rewrite map_length in W. cbn in W. unfold zlen in L1. lia.
Qed.

(** C70: with sensible numbers, a file that can be created and no I/O failure the import
    ends with status 0. *)
Theorem C70_import_succeeds : forall rng srt clock now0 now can g sched fs a b l name n blockSize seed maxValue maxID,
  sorts srt -> sets import_flags a l -> no_flag b -> import_asks clock l name n blockSize seed maxValue maxID -> n + 10000 < two63 ->
  sensible maxValue maxID -> can name = true ->
  exists rep fs1, loadtest rng srt clock now0 now [] can g sched fs (text "import" :: a ++ b) = Some (Imported rep, fs1).
Proof. change import_flags with importFlags.
  intros rng srt clock now0 now can g sched fs a b l name n blockSize seed maxValue maxID Hs S B A Hn HS C.
  rewrite (import_run _ _ _ _ _ _ _ _ _ _ _ _ _ _ _ _ _ _ _ S B A), C.
  destruct (import_succeeds (rng seed) maxValue maxID (max_value_typed _ _ _ _ _ _ _ _ _ S A) srt Hs now0 now [] n blockSize Hn HS (Forall_nil _)) as (rep & sw & ->). eauto.
Qed.

(** C70, for every command line: it is understood (flags spelled as above, then arguments
    which make no difference), or it ends with status 2 (or help and status 0) before
    anything is done; only an import that is understood changes a file, the one -file
    names. *)
Theorem C70_other_arguments : forall rng srt clock now0 now faults can g sched fs args,
  let run := loadtest rng srt clock now0 now faults can g sched fs in
  ((exists a b l name n blockSize seed maxValue maxID, args = a ++ b /\ sets import_flags a l /\ no_flag b /\ import_asks clock l name n blockSize seed maxValue maxID
      /\ run (text "import" :: args) = run (text "import" :: a)
      /\ forall e fs1, run (text "import" :: args) = Some (e, fs1) -> forall other, other <> name -> fs1 other = fs other)
   \/ run (text "import" :: args) = Some (Status 2, fs) \/ run (text "import" :: args) = Some (Status 0, fs))
  /\ ((exists a b l, args = a ++ b /\ sets aggregate_flags a l /\ no_flag b /\ run (text "aggregate" :: args) = run (text "aggregate" :: a)
        /\ forall e fs1, run (text "aggregate" :: args) = Some (e, fs1) -> fs1 = fs)
      \/ run (text "aggregate" :: args) = Some (Status 2, fs) \/ run (text "aggregate" :: args) = Some (Status 0, fs))
  /\ (forall command, command <> text "import" -> command <> text "aggregate" -> run (command :: args) = Some (Status 1, fs))
  /\ run [] = Some (Status 1, fs).
Proof. change import_flags with importFlags. change aggregate_flags with aggregateFlags.
  intros rng srt clock now0 now faults can g sched fs args run. split; [|split; [|split; [|reflexivity]]].
  - destruct (parseFlags importFlags args) as [l| |] eqn:P.
    + left. destruct (parse_only_sets _ import_proper (length args) args l (le_n _) P) as (a & b & -> & S & B).
      destruct (import_flags_typed clock a l S) as (name & n & bs & seed & mv & mi & A). exists a, b, l, name, n, bs, seed, mv, mi.
      split; [reflexivity|]. split; [exact S|]. split; [exact B|]. split; [exact A|]. split.
      * unfold run. rewrite <- (app_nil_r a) at 2. rewrite (import_run rng srt clock now0 now faults can g sched fs a b l name n bs seed mv mi S B A),
          (import_run rng srt clock now0 now faults can g sched fs a [] l name n bs seed mv mi S (or_introl eq_refl) A). reflexivity.
      * intros e fs1. unfold run. rewrite (import_run _ _ _ _ _ _ _ _ _ _ _ _ _ _ _ _ _ _ _ S B A). destruct (can name); [|intros [= _ <-]; reflexivity].
        destruct (runImport _ _ _ _ _ _ _ _ _) as [x sw]. intros E other Ho. apply (f_equal (fun o => match o with Some z => snd z | None => fs end)) in E. cbv beta iota in E. cbn [snd] in E.
        subst fs1. apply put_other. exact Ho.
    + right; right. unfold run, loadtest. rewrite same_text_refl, P. reflexivity.
    + right; left. unfold run, loadtest. rewrite same_text_refl, P. reflexivity.
  - destruct (parseFlags aggregateFlags args) as [l| |] eqn:P.
    + left. destruct (parse_only_sets _ aggregate_proper (length args) args l (le_n _) P) as (a & b & -> & S & B). exists a, b, l.
      split; [reflexivity|]. split; [exact S|]. split; [exact B|]. split.
      * unfold run, loadtest. rewrite not_import, same_text_refl, P. rewrite <- (app_nil_r a), (parse_sets _ _ _ _ aggregate_proper S (or_introl eq_refl)). reflexivity.
      * intros e fs1. unfold run, loadtest. rewrite not_import, same_text_refl, P. cbv zeta. destruct (fs _); [destruct (runAggregate _ _ _ _ _); [|discriminate]|]; intros E;
          apply (f_equal (fun o => match o with Some z => snd z | None => fs end)) in E; symmetry; exact E.
    + right; right. unfold run, loadtest. rewrite not_import, same_text_refl, P. reflexivity.
    + right; left. unfold run, loadtest. rewrite not_import, same_text_refl, P. reflexivity.
  - intros command N1 N2. unfold run, loadtest. apply same_text_neq in N1, N2. rewrite N1, N2. reflexivity.
Qed.

(** C70, "-skip-cache false uses the stored statistics" is false: "false" ends the flags,
    so that -skip-cache is true and a file name given after it is ignored. *)
Theorem C70_skip_cache_refuted : forall rng srt clock now0 now faults can g sched fs more,
  loadtest rng srt clock now0 now faults can g sched fs (text "aggregate" :: text "-skip-cache" :: text "false" :: more)
  = loadtest rng srt clock now0 now faults can g sched fs (text "aggregate" :: []).
Proof. intros. reflexivity. Qed.

(** C70, "numbers are decimal" is false: -n 010 asks for 8 values, and 08 is refused. *)
Theorem C70_octal_refuted : forall rng srt clock now0 now faults can g sched fs more,
  loadtest rng srt clock now0 now faults can g sched fs (text "import" :: text "-n" :: text "010" :: more)
  = loadtest rng srt clock now0 now faults can g sched fs (text "import" :: text "-n" :: text "8" :: more)
  /\ loadtest rng srt clock now0 now faults can g sched fs (text "import" :: text "-n" :: text "08" :: more) = Some (Status 2, fs).
Proof. intros. split; reflexivity. Qed.
End Run.

(** C70: exactly the Go literals that fit are numbers. *)
Theorem C70_numbers : forall t v, (setValue KInt t = Some v <-> accepts KInt t v) /\ (setValue KUint t = Some v <-> accepts KUint t v).
Proof. intros t v. split; apply setValue_spec. Qed.

Lemma write_example_run now crc faults can fs r data : writeExample now crc faults = (r, data) -> can = true ->
  writeExampleMain now crc faults can fs = (match r with Ok _ => Ok true | Err _ => Ok false | Panic => Panic end, put_file fs (text "example.col") data).
Proof. intros E ->. unfold writeExampleMain. rewrite E. reflexivity. Qed.
Lemma read_example_run fs a b l name dump agg data r d g : sets exampleFlags a l -> no_flag b -> example_asks l name dump agg ->
  fs name = Some data -> exNewReader data = Ok r -> exDumpKVPairs r = Ok d -> exAggregate r = g ->
  readExampleMain fs (a ++ b) = Ok (inl (mkExReport (x_version r) (x_blockCount r) (if dump then Some d else None) (if agg then Some g else None))).
Proof.
  intros S B (F1 & F2 & F3) F R D G. unfold readExampleMain. rewrite (parse_sets _ _ _ _ example_proper S B). cbv zeta.
  rewrite (flag_last _ _ _ _ F1), (flag_last _ _ _ _ F2), (flag_last _ _ _ _ F3). cbn [textOf boolOf]. rewrite F, R, D, G. destruct dump; reflexivity.
Qed.
(** C70: write_example writes example.col, and read_example, with its flags in any
    spelling, shows what C55 says of that file; other files and arguments it rejects
    without a panic. *)
Theorem C70_example_programs : forall now crc fs,
  exists fs1, writeExampleMain now crc [] true fs = (Ok true, fs1)
  /\ (forall other, other <> text "example.col" -> fs1 other = fs other)
  /\ forall a b l dump agg, sets example_flags a l -> no_flag b -> example_asks l (text "example.col") dump agg ->
     readExampleMain fs1 (a ++ b) = Ok (inl (mkExReport 1 1
       (if dump then Some (mkDump (combine exIDs exValues) 10 1 45 100 1000 5500) else None)
       (if agg then Some (mkAgg 10 100 1000 5500 (f64_of_Z 550)) else None))).
Proof. change example_flags with exampleFlags.
  intros now crc fs. destruct (example_round_trip now crc) as (data & E & r & R1 & R2 & R3 & R4 & R5).
  exists (put_file fs (text "example.col") data). split; [exact (write_example_run _ _ _ _ _ _ _ E eq_refl)|].
  split; [intros other Ho; apply put_other; exact Ho|]. intros a b l dump agg S B A.
  rewrite (read_example_run _ _ _ _ _ _ _ _ _ _ _ S B A (put_same _ _ _) R1 R4 R5), R2, R3. reflexivity.
Qed.
Theorem C70_read_example_no_crash : forall fs args, (forall name data, fs name = Some data -> Forall is_byte data) ->
  match readExampleMain fs args with
  | Ok (inl rep) => exists a b l name dump agg data r, args = a ++ b /\ sets example_flags a l /\ no_flag b /\ example_asks l name dump agg
      /\ fs name = Some data /\ exNewReader data = Ok r /\ xr_version rep = x_version r /\ xr_blocks rep = x_blockCount r
      /\ (xr_dump rep = None <-> dump = false) /\ (forall d, xr_dump rep = Some d -> ExampleSpec.dump_of data d)
      /\ (xr_agg rep = None <-> agg = false) /\ (forall g, xr_agg rep = Some g -> ExampleSpec.of_entries (x_entries r) g)
  | Ok (inr status) => status = 0 \/ status = 1 \/ status = 2
  | _ => False
  end.
Proof. change example_flags with exampleFlags.
  intros fs args HB. unfold readExampleMain. destruct (parseFlags exampleFlags args) as [l| |] eqn:P; [|tauto..]. cbv zeta.
  set (name := textOf _). destruct (fs name) as [data|] eqn:F; [|tauto]. specialize (HB _ _ F).
  destruct (parse_only_sets _ example_proper (length args) args l (le_n _) P) as (a & b & -> & S & B).
  assert (TB : forall nm default, In (nm, KBool) exampleFlags -> flag_is nm (VBool default) l (VBool (boolOf (variable nm (VBool default) l)))).
  { intros nm default I. pose proof (variable_is nm l (VBool default)) as G. destruct (flag_kind _ _ _ _ _ _ _ example_proper S I G) as [E|[(t & E)|[_ E]]].
    - rewrite E in G |- *. exact G.
    - cbn [accepts] in E. destruct E as (x & _ & E). rewrite E in G |- *. exact G.
    - rewrite E in G |- *. exact G. }
  assert (TF : flag_is (text "file") (VText (text "example.col")) l (VText name)).
  { subst name. pose proof (variable_is (text "file") l (VText (text "example.col"))) as G. destruct (flag_kind _ _ _ (text "file") KText _ _ example_proper S ltac:(cbn; tauto) G) as [E|[(t & E)|[E _]]]; [| |discriminate E].
    - rewrite E in G |- *. exact G.
    - cbn [accepts] in E. rewrite E in G |- *. exact G. }
  pose proof (TB (text "dump") false ltac:(cbn; tauto)) as TD. pose proof (TB (text "agg") false ltac:(cbn; tauto)) as TA.
  set (dump := boolOf (variable (text "dump") (VBool false) l)) in *. set (agg := boolOf (variable (text "agg") (VBool false) l)) in *. clearbody dump agg name.
  destruct (exNewReader data) as [r|e|] eqn:R; [|tauto|].
  - destruct (C55_accepted_files data r HB R) as (_ & _ & _ & (d & D1 & D2) & AG).
    assert (G : forall rep, rep = mkExReport (x_version r) (x_blockCount r) (if dump then Some d else None) (if agg then Some (exAggregate r) else None) ->
      exists a0 b0 l0 name0 dump0 agg0 data0 r0, a ++ b = a0 ++ b0 /\ sets exampleFlags a0 l0 /\ no_flag b0 /\ example_asks l0 name0 dump0 agg0
        /\ fs name0 = Some data0 /\ exNewReader data0 = Ok r0 /\ xr_version rep = x_version r0 /\ xr_blocks rep = x_blockCount r0
        /\ (xr_dump rep = None <-> dump0 = false) /\ (forall d, xr_dump rep = Some d -> ExampleSpec.dump_of data0 d)
        /\ (xr_agg rep = None <-> agg0 = false) /\ (forall g, xr_agg rep = Some g -> ExampleSpec.of_entries (x_entries r0) g)).
    { intros rep ->. exists a, b, l, name, dump, agg, data, r. repeat (split; [first [reflexivity|assumption|repeat split; assumption]|]). cbn [xr_version xr_blocks xr_dump xr_agg].
      split; [destruct dump; (split; intros Q; (discriminate Q || reflexivity))|]. split; [destruct dump; [intros x [= <-]; exact D2|discriminate]|].
      split; [destruct agg; (split; intros Q; (discriminate Q || reflexivity))|]. destruct agg; [intros x [= <-]; exact AG|discriminate]. }
    destruct dump; [rewrite D1|]; apply G; reflexivity.
  - exfalso. clear - R. unfold exNewReader, exReadHeader, exReadFooter, bread in R.
    assert (NE : forall n data p, exReadEntries n data p <> Panic).
    { clear. induction n as [|n IH]; intros data p; cbn [exReadEntries]; [discriminate|]. unfold exReadEntry, bread.
      repeat (match goal with |- context [zlen ?x <? ?y] => destruct (zlen x <? y); cbn [rbind]; [discriminate|] end).
      destruct (exReadEntries n _ _) eqn:E; cbn [rbind]; try discriminate. exfalso. eapply IH. exact E. }
    repeat (match type of R with context [zlen ?x <? ?y] => destruct (zlen x <? y); cbn [rbind] in R; [discriminate R|]
                               | context [negb ?x] => destruct x; cbn [negb rbind] in R; [|discriminate R] end).
    repeat (match type of R with context [if ?x then _ else _] => destruct x; cbn [rbind negb] in R; try discriminate R end).
    all: match type of R with context [exReadEntries ?n ?d ?p] => pose proof (NE n d p); destruct (exReadEntries n d p); cbn [rbind] in R; congruence end.
Qed.
(** C70: read_example, asked properly for a file, ends with status 1 exactly when the file
    is missing or no file of its format, and with a report otherwise. *)
Theorem C70_read_example_status : forall fs a b l name dump agg, (forall name data, fs name = Some data -> Forall is_byte data) ->
  sets example_flags a l -> no_flag b -> example_asks l name dump agg ->
  ((fs name = None \/ (exists data e, fs name = Some data /\ exNewReader data = Err e)) /\ readExampleMain fs (a ++ b) = Ok (inr 1))
  \/ (exists data r rep, fs name = Some data /\ exNewReader data = Ok r /\ readExampleMain fs (a ++ b) = Ok (inl rep)
        /\ xr_version rep = x_version r /\ xr_blocks rep = x_blockCount r
        /\ (xr_dump rep = None <-> dump = false) /\ (forall d, xr_dump rep = Some d -> ExampleSpec.dump_of data d)
        /\ (xr_agg rep = None <-> agg = false) /\ (forall g, xr_agg rep = Some g -> ExampleSpec.of_entries (x_entries r) g)).
Proof. change example_flags with exampleFlags.
  intros fs a b l name dump agg HB S B (F1 & F2 & F3). pose proof (C70_read_example_no_crash fs (a ++ b) HB) as NP.
  assert (E : readExampleMain fs (a ++ b) = match fs name with
    | None => Ok (inr 1)
    | Some data => match exNewReader data with
      | Panic => Panic | Err _ => Ok (inr 1)
      | Ok r => if dump then match exDumpKVPairs r with Panic => Panic | Err _ => Ok (inr 1)
                  | Ok d => Ok (inl (mkExReport (x_version r) (x_blockCount r) (Some d) (if agg then Some (exAggregate r) else None))) end
                else Ok (inl (mkExReport (x_version r) (x_blockCount r) None (if agg then Some (exAggregate r) else None)))
      end end).
  { unfold readExampleMain. rewrite (parse_sets _ _ _ _ example_proper S B). cbv zeta.
    rewrite (flag_last _ _ _ _ F1), (flag_last _ _ _ _ F2), (flag_last _ _ _ _ F3). cbn [textOf boolOf]. reflexivity. }
  rewrite E in NP |- *. clear E. destruct (fs name) as [data|] eqn:F; [|left; auto]. specialize (HB _ _ F).
  destruct (exNewReader data) as [r|e|] eqn:R; [right|left; split; [right; eauto|reflexivity]|contradiction].
  destruct (C55_accepted_files data r HB R) as (_ & _ & _ & (d & D1 & D2) & AG). exists data, r. rewrite D1.
  exists (mkExReport (x_version r) (x_blockCount r) (if dump then Some d else None) (if agg then Some (exAggregate r) else None)).
  split; [reflexivity|]. split; [exact R|]. split; [destruct dump; reflexivity|]. cbn [xr_version xr_blocks xr_dump xr_agg].
  split; [reflexivity|]. split; [reflexivity|].
  split; [destruct dump; split; congruence|]. split; [intros d'; destruct dump; [intros [= <-]; exact D2|discriminate]|].
  split; [destruct agg; split; congruence|]. intros g; destruct agg; [intros [= <-]; exact AG|discriminate].
Qed.
Print Assumptions C70_import_then_aggregate.
Print Assumptions C70_same_seed.
Print Assumptions C70_import_succeeds.
Print Assumptions C70_other_arguments.
Print Assumptions C70_skip_cache_refuted.
Print Assumptions C70_octal_refuted.
Print Assumptions C70_numbers.
Print Assumptions C70_example_programs.
Print Assumptions C70_read_example_no_crash.
Print Assumptions C70_read_example_status.

(** A case: numbers in three bases, a repeated flag, a stray argument; the run of C54. *)
Definition lm_import : list (list Z) :=
  [text "-n=7"; text "--n"; text "0x5"; text "-max-value=1_00"; text "--max-id=0b11_0010"; text "-file"; text "a.col"; text "-block-size=4096"].
Definition lm_settings : list (list Z * value) :=
  [(text "n", VNum 7); (text "n", VNum 5); (text "max-value", VNum 100); (text "max-id", VNum 50); (text "file", VText (text "a.col")); (text "block-size", VNum 4096)].
Definition lm_aggregate : list (list Z) := [text "-file=a.col"; text "--skip-cache=F"].
Definition lm_agg_settings : list (list Z * value) := [(text "file", VText (text "a.col")); (text "skip-cache", VBool false)].
Definition lm_rng (seed : Z) (k : nat) : Z := ld_draws k.
Definition lm_run (fs : files) (args : list (list Z)) : option (loadEnd * files) := loadtest lm_rng isort 9 1 2 [] (fun _ => true) 4 [] fs args.
Definition lm_files (x : option (loadEnd * files)) : files := match x with Some (_, fs) => fs | None => fun _ => None end.
Definition lm_imported (x : option (loadEnd * files)) : bool :=
  match x with
  | Some (Imported r, fs) => (im_values r =? 5) && (im_items r =? 5) && match fs (text "a.col") with Some data => zlen data <? 20000 | None => false end
  | _ => false
  end.
Definition lm_answer (x : option (loadEnd * files)) : bool :=
  match x with
  | Some (Aggregated r, _) =>
      let g := rp_result r in
      (rp_version r =? 1) && (rp_encoding r =? 7) && (rp_blocks r =? 1) && (a_count g =? 5) && (a_min g =? 4) && (a_max g =? 92) && (a_sum g =? 208)
      && match rp_scan r with Some n => n =? 5 | None => false end
  | _ => false
  end.
Lemma parsed_sets defs args l : proper_kinds defs -> parseFlags defs args = Set_ l -> exists a b, args = a ++ b /\ sets defs a l /\ no_flag b.
Proof. intros P E. exact (parse_only_sets defs P (length args) args l (le_n _) E). Qed.
Example C70_case : sorts isort
  /\ (exists a b, lm_import ++ [text "x"] = a ++ b /\ sets import_flags a lm_settings /\ no_flag b)
  /\ import_asks 9 lm_settings (text "a.col") 5 4096 9 100 50 /\ sensible 100 50 /\ 100 <= 2 ^ 34
  /\ (forall ids, zlen ids <= Z.max 0 5 -> zlen (bm_ser (fold_left bm_set ids bm_new)) < two32)
  /\ lm_imported (lm_run (fun _ => None) (text "import" :: lm_import ++ [text "x"])) = true
  /\ (exists a b, lm_aggregate = a ++ b /\ sets aggregate_flags a lm_agg_settings /\ no_flag b)
  /\ aggregate_asks lm_agg_settings (text "a.col") false 0
  /\ lm_answer (lm_run (lm_files (lm_run (fun _ => None) (text "import" :: lm_import ++ [text "x"]))) (text "aggregate" :: lm_aggregate)) = true.
Proof.
  split; [exact isort_sorts|]. split; [apply parsed_sets; [exact import_proper|reflexivity]|].
  split. { repeat split; match goal with |- flag_is ?nm ?d ?l _ => exact (variable_is nm l d) end. }
  split; [unfold sensible, two63; lia|]. split; [lia|].
  split.
  { assert (G : forall ids b, zlen (fold_left bm_set ids b) <= zlen ids + zlen b).
    { induction ids as [|x ids IH]; intros b; cbn [fold_left]; [change (zlen (@nil Z)) with 0; lia|]. specialize (IH (bm_set b x)). rewrite zlen_cons.
      assert (K : zlen (bm_set b x) <= zlen b + 1) by (cbn [bm_set list_sroar]; destruct (existsb _ b); [lia|rewrite zlen_cons; lia]). lia. }
    intros ids H. specialize (G ids bm_new). change (zlen (@bm_new list_sroar)) with 0 in G.
    assert (Q : forall b : list Z, zlen (@bm_ser list_sroar b) = 8 * zlen b).
    { induction b as [|x b IH]; [reflexivity|]. change (@bm_ser list_sroar (x :: b)) with (le_bytes 8 x ++ @bm_ser list_sroar b). rewrite zlen_app, zlen_cons, IH, zlen_le_bytes. lia. }
    rewrite Q. unfold two32. lia. }
  split; [vm_compute; reflexivity|]. split; [apply parsed_sets; [exact aggregate_proper|reflexivity]|].
  split. { repeat split; match goal with |- flag_is ?nm ?d ?l _ => exact (variable_is nm l d) end. }
  vm_compute. reflexivity.
Qed.
(** -dump and -agg on example.col; numbers. *)
Example C70_example_case :
  (exists a b, [text "-dump"; text "--agg=1"] = a ++ b /\ sets example_flags a [(text "dump", VBool true); (text "agg", VBool true)] /\ no_flag b)
  /\ example_asks [(text "dump", VBool true); (text "agg", VBool true)] (text "example.col") true true
  /\ accepts KInt (text "-0X_fF") (VNum (-255)) /\ accepts KUint (text "18446744073709551615") (VNum 18446744073709551615)
  /\ (forall v, ~ accepts KUint (text "18446744073709551616") v) /\ (forall v, ~ accepts KInt (text "1__0") v) /\ (forall v, ~ accepts KInt (text "0x") v).
Proof.
  split; [apply parsed_sets; [exact example_proper|reflexivity]|].
  split. { repeat split; match goal with |- flag_is ?nm ?d ?l _ => exact (variable_is nm l d) end. }
  split; [apply setValue_spec; reflexivity|]. split; [apply setValue_spec; reflexivity|].
  repeat split; intros v H; apply setValue_spec in H; vm_compute in H; discriminate H.
Qed.
