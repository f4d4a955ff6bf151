(** Several files read together, and bitmap caching (C27, C29, C47-C49).  Only statements
    and concrete cases; proofs are in MultiFacts.v. *)
From Coq Require Import Floats.SpecFloat.
From Verif Require Import Machine Encoding FileIO Sroar SroarFacts Writer SimpleWriter Reader Aggregate Multi Spec SimpleSpec MultiSpec
  AggFacts MultiFacts ArbFacts CloseFacts Examples PAggregate PReader PSimple.

(** C27: readers on any files written by Writers or SimpleWriters, ordered oldest to
    newest, in any state of their caches: Aggregate returns the aggregate of exactly
    those pairs whose ID occurs in no newer file and is in the allow set, if there is
    one.  Bitmaps in memory stay as they are. *)
Theorem C27_newest_file_wins : forall {Srr : Sroar} {Laws : SroarLaws Srr} rs0 files rs hp own opts,
  Forall2 file_with rs0 files -> session rs0 rs hp own -> zlen (concat files) < two63 ->
  exists res rs' hp' new, MultiAggregate opts rs hp = (Ok res, rs', hp')
    /\ aggregate_of (map snd (filter (allowed (mo_filter opts)) (visible files))) res
    /\ hp' = hp ++ new.
Proof. exact @newest_wins. Qed.
Print Assumptions C27_newest_file_wins.

(** The older file is that of C19_case, the newer one that of C15_case; ID 2 is in
    both. *)
Definition s_reader : reader := opened (NewReader (file_of s_writer)).
Definition two_files : list (list (Z * Z)) := [[(5, 10); (2, -3); (7, 4)]; [(9, -5); (2, 7); (4, 1); (4, max_int64)]].
Lemma stored_det h b1 : Forall (fun p => is_ok (snd p) = true) h -> stored h b1 -> forall b2, stored h b2 -> b1 = b2.
Proof.
  intros H S1. induction S1 as [|c r h x y S _ IH]; intros b2 S2; inversion S2 as [|? ? ? x' y' S' S2']; subst; [reflexivity|].
  inversion H as [|? ? H1 H2]; subst. rewrite (IH H2 _ S2'). f_equal. cbn in H1.
  destruct S; inversion S'; subst; try reflexivity; try discriminate; try (exfalso; eauto; fail).
  - destruct (H0 _ _ eq_refl).
  - destruct (H0 _ _ eq_refl).
Qed.
Lemma Ok_inj {A} (x y : A) : Ok x = Ok y -> x = y.
Proof. congruence. Qed.
Lemma two_readers : Forall2 file_with [agg_reader; s_reader] two_files.
Proof.
  constructor; [|constructor; [|constructor]].
  - destruct (finished_indexed _ _ _ _ _ (proj1 agg_finished)) as (r & blocks & HR & Hs & _ & HC).
    destruct (HC agg_faithful) as [_ HC']. rewrite (proj2 agg_finished) in HR. apply Ok_inj in HR. subst r.
    assert (E : agg_blocks = blocks).
    { eapply stored_det; [|exact agg_stored|exact Hs].
      assert (X : forallb (fun p => is_ok (snd p)) agg_history = true) by (vm_compute; reflexivity).
      eapply forallb_Forall'; [|exact X]. intros p Hp. exact Hp. }
    subst blocks. eapply from_writer; [exact (proj1 agg_finished)|exact agg_faithful| |exact (proj2 agg_finished)|exact HC'|reflexivity].
    apply notorn_sound. vm_compute. reflexivity.
  - eapply from_simple_writer; [exact s_run|exact isort_sorts|exact s_undisturbed|exact s_closed|exact s_fits|exact s_faithful| |].
    + unfold s_reader. apply opened_ok. vm_compute. reflexivity.
    + symmetry. replace (written s_history) with [[(9, -5); (2, 7)]; [(4, 1); (4, max_int64)]] by (vm_compute; reflexivity). reflexivity.
Qed.
Definition counts (x : res aggResult) : option (Z * Z * Z * Z) :=
  match x with Ok a => Some (a_count a, a_min a, a_max a, a_sum a) | _ => None end.
Example C27_case : Forall2 file_with [agg_reader; s_reader] two_files
  /\ visible two_files = [(5, 10); (7, 4); (9, -5); (2, 7); (4, 1); (4, max_int64)]
  /\ counts (fst (fst (MultiAggregate (mkMOpts false (Some [2; 5; 7; 9])) [agg_reader; s_reader] []))) = Some (4, -5, 10, 16)
  /\ session [agg_reader; s_reader] [agg_reader; EnableGlobalIDBitmapCaching s_reader] [[1]] [0%nat].
Proof.
  split; [exact two_readers|]. split; [reflexivity|]. split; [vm_compute; reflexivity|].
  change [agg_reader; EnableGlobalIDBitmapCaching s_reader] with (put 1 (EnableGlobalIDBitmapCaching s_reader) [agg_reader; s_reader]).
  apply s_enable; [|reflexivity]. apply s_start. cbn. intros p [<-|[]]. auto.
Qed.

(** A file of which a WriteBlock failed half way has too many IDs in its bitmap, and
    then hides values that it does not replace: the older file holds IDs 5, 2 and 7, the
    newer file holds nothing, but together they show nothing of ID 2. *)
Definition torn_calls : list wcall := [CWriteBlock [2] [1]].
Definition torn_writer : writer := final [] (fault_at 15 0) torn_calls 1.
Definition torn_reader : reader := opened (NewReader (bytes_of torn_writer)).
Theorem C27_torn_file_refuted :
  finished_run [] (fault_at 15 0) (hist [] (fault_at 15 0) torn_calls) 1 torn_writer
  /\ hist [] (fault_at 15 0) torn_calls = [(CWriteBlock [2] [1], Err ErrIO)]
  /\ NewReader (bytes_of torn_writer) = Ok torn_reader /\ BlockCount torn_reader = 0
  /\ counts (fst (fst (MultiAggregate (mkMOpts false None) [agg_reader] []))) = Some (3, -3, 10, 11)
  /\ counts (fst (fst (MultiAggregate (mkMOpts false None) [agg_reader; torn_reader] []))) = Some (2, 4, 10, 14).
Proof.
  split; [apply check_finished_sound; vm_compute; reflexivity|]. split; [vm_compute; reflexivity|].
  split; [unfold torn_reader; apply opened_ok; vm_compute; reflexivity|]. split; [vm_compute; reflexivity|].
  split; vm_compute; reflexivity.
Qed.
Print Assumptions C27_torn_file_refuted.

(** C29: readers on any files (any bytes that NewReader accepts): whatever caching was
    switched on or off and whatever was fetched and aggregated before, GetGlobalIDBitmap
    answers like a newly opened reader - the same bitmap, or the same error -, as long as
    the program does not change bitmaps it got from a reader. *)
Theorem C29_caching_invisible : forall {Srr : Sroar} datas rs0 rs hp own i r0 r,
  Forall2 (fun data r => NewReader data = Ok r) datas rs0 -> session rs0 rs hp own ->
  nth_error rs0 i = Some r0 -> nth_error rs i = Some r ->
  match GetGlobalIDBitmap r0 [] with
  | (Ok p0, _, hp0) => exists b p r' hp', nth_error hp0 p0 = Some b
       /\ GetGlobalIDBitmap r hp = (Ok p, r', hp') /\ nth_error hp' p = Some b
  | (Err e, _, _) => GetGlobalIDBitmap r hp = (Err e, r, hp)
  | (Panic, _, _) => GetGlobalIDBitmap r hp = (Panic, r, hp)
  end.
Proof.
  intros Srr datas rs0 rs hp own i r0 r H. apply caching_invisible.
  induction H as [|d x ds xs H _ IH]; constructor; [apply (opened_fresh d); exact H|exact IH].
Qed.
Print Assumptions C29_caching_invisible.
(** In particular, for the files of C27, it is the set of the IDs in the file. *)
Theorem C29_always_the_stored_ids : forall {Srr : Sroar} {Laws : SroarLaws Srr} rs0 files rs hp own i file r,
  Forall2 file_with rs0 files -> session rs0 rs hp own -> nth_error files i = Some file -> nth_error rs i = Some r ->
  exists p r' hp' b, GetGlobalIDBitmap r hp = (Ok p, r', hp') /\ nth_error hp' p = Some b
    /\ forall id, is_u64 id -> bm_contains b id = occurs id file.
Proof. exact @always_stored_ids. Qed.
Print Assumptions C29_always_the_stored_ids.

(** The condition is needed: with caching on, a program that adds 77 to the bitmap it
    got makes the reader say that 77 is in the file; without caching it does not. *)
Definition answer_after_change (r : reader) : option bool :=
  match GetGlobalIDBitmap r [] with
  | (Ok p, r1, hp1) =>
      match nth_error hp1 p with
      | Some b =>
          match GetGlobalIDBitmap r1 (put p (bm_set b 77) hp1) with
          | (Ok p2, _, hp2) => option_map (fun b2 => bm_contains b2 77) (nth_error hp2 p2)
          | _ => None
          end
      | None => None
      end
  | _ => None
  end.
Theorem C29_changed_bitmap_refuted :
  NewReader (bytes_of agg_writer) = Ok agg_reader
  /\ answer_after_change agg_reader = Some false
  /\ answer_after_change (EnableGlobalIDBitmapCaching agg_reader) = Some true
  /\ occurs 77 (all_pairs agg_blocks) = false.
Proof. split; [exact (proj2 agg_finished)|]. split; [vm_compute; reflexivity|]. split; vm_compute; reflexivity. Qed.
Print Assumptions C29_changed_bitmap_refuted.

(** The hypothesis of C29 holds after caching was switched on and the bitmap fetched;
    the second answer then comes from the cache. *)
Definition cache_on : reader := EnableGlobalIDBitmapCaching agg_reader.
Definition cache_filled : reader := snd (fst (GetGlobalIDBitmap cache_on [])).
Example C29_case : session [agg_reader] [cache_filled] (snd (GetGlobalIDBitmap cache_on [])) []
  /\ r_globalIDs cache_filled = Some 0%nat /\ r_cacheGlobalIDs cache_filled = true.
Proof.
  split; [|split; vm_compute; reflexivity].
  change [cache_filled] with (put 0 cache_filled [cache_on]).
  apply (s_get _ [cache_on] [] [] 0 cache_on (fst (fst (GetGlobalIDBitmap cache_on [])))); [|reflexivity|unfold cache_filled; destruct (GetGlobalIDBitmap cache_on []) as [[a b] c]; reflexivity].
  change [cache_on] with (put 0 (EnableGlobalIDBitmapCaching agg_reader) [agg_reader]). apply s_enable; [|reflexivity].
  apply s_start. intros p [].
Qed.

(** C47: closing a MultiReader closes every reader, also after one of them reports an
    error, and reports an error exactly if some reader was closed before; afterwards
    aggregation over finalized files is an error, not a wrong answer. *)
Theorem C47_close_closes_all : forall rs e rs', MultiClose rs None = (e, rs') ->
  Forall (fun r => r_open r = false) rs' /\ length rs' = length rs
  /\ (e = None <-> Forall (fun r => r_open r = true) rs).
Proof. intros rs e rs' H. destruct (multi_close _ _ _ _ H) as (H1 & H2 & H3). split; [exact H1|]. split; [exact H2|]. rewrite H3. tauto. Qed.
Theorem C47_closed_aggregate_fails : forall {Srr : Sroar} rs e rs' opts hp, rs <> [] ->
  Forall (fun r => exists options faults h now w, finished_run options faults h now w /\ NewReader (bytes_of w) = Ok r) rs ->
  MultiClose rs None = (e, rs') ->
  e = None /\ fst (fst (MultiAggregate opts rs' hp)) = Err ErrIO.
Proof. exact @closed_multi. Qed.
Print Assumptions C47_close_closes_all.
Print Assumptions C47_closed_aggregate_fails.
Example C47_case : finished_run agg_options [] agg_history 12 agg_writer /\ NewReader (bytes_of agg_writer) = Ok agg_reader
  /\ fst (MultiClose [agg_reader; agg_reader] None) = None
  /\ fst (MultiClose [agg_reader; snd (RClose agg_reader); agg_reader] None) = Some ErrIO.
Proof. split; [apply agg_finished|]. split; [apply agg_finished|]. split; vm_compute; reflexivity. Qed.
(** The second half needs the readers as they were opened: with a cached bitmap the
    closed reader goes unnoticed and its values are missing from the answer. *)
Theorem C47_cached_refuted :
  session [agg_reader] [cache_filled] (snd (GetGlobalIDBitmap cache_on [])) []
  /\ counts (fst (fst (MultiAggregate (mkMOpts false None) [cache_filled] (snd (GetGlobalIDBitmap cache_on []))))) = Some (3, -3, 10, 11)
  /\ option_map (fun '(n, _, _, s) => (n, s))
       (counts (fst (fst (MultiAggregate (mkMOpts false None) (snd (MultiClose [cache_filled] None)) (snd (GetGlobalIDBitmap cache_on [])))))) = Some (0, 0).
Proof. split; [exact (proj1 C29_case)|]. split; vm_compute; reflexivity. Qed.
Print Assumptions C47_cached_refuted.

(** C48: what a closed reader answers.  GetPairs and GetGlobalIDBitmap are errors;
    but aggregation has no error to return: from data it answers "no pairs", whatever the
    file holds, and from the footer it answers as if the file were open.  (So the claim
    "an aggregation that cannot read the data does not return a result" is false.) *)
Theorem C48_closed_reader_answers : forall {Srr : Sroar} options faults h now w r r' e,
  finished_run options faults h now w -> NewReader (bytes_of w) = Ok r -> RClose r = (e, r') ->
  e = Ok tt
  /\ (forall i, exists err, GetPairs r' i = Err err)
  /\ (forall hp, GetGlobalIDBitmap r' hp = (Err ErrIO, r', hp))
  /\ (forall opts, has_filter opts = true \/ o_skip opts = true ->
        exists res, aggregateSequential r' opts = Ok res /\ aggregate_of [] res)
  /\ (0 < BlockCount r -> Aggregate r' = Aggregate r)
  /\ fst (RClose r') = Err ErrIO.
Proof. exact @closed_file. Qed.
Print Assumptions C48_closed_reader_answers.
Theorem C48_errors_reported_refuted : exists options h now w r, finished_run options [] h now w /\ NewReader (bytes_of w) = Ok r
  /\ counts (aggregateSequential r (mkOpts true None None 0)) = Some (3, -3, 10, 11)
  /\ option_map (fun '(n, _, _, s) => (n, s)) (counts (aggregateSequential (snd (RClose r)) (mkOpts true None None 0))) = Some (0, 0).
Proof.
  exists agg_options, agg_history, 12, agg_writer, agg_reader. split; [apply agg_finished|]. split; [apply agg_finished|].
  split; vm_compute; reflexivity.
Qed.
Print Assumptions C48_errors_reported_refuted.

(** C49: on any bytes that NewReader accepts (with block sizes of at least 80), a scan
    returns the aggregate of exactly the values of those blocks that GetPairs can read;
    the others are passed over. *)
Theorem C49_scan_takes_readable_blocks : forall {Srr : Sroar} data r, Forall is_byte data -> NewReader data = Ok r ->
  Forall (fun e => 80 <= e_size e) (r_index r) ->
  zlen (flat_map (readable_values r) (zseq (BlockCount r))) < two63 ->
  exists res, aggregateSequential r (mkOpts true None None 0) = Ok res
    /\ aggregate_of (flat_map (readable_values r) (zseq (BlockCount r))) res.
Proof. intros Srr data r HB HR HS. apply scan_exact; [exact HS|]. apply typed_counts. eapply NewReader_typed; eassumption. Qed.
Print Assumptions C49_scan_takes_readable_blocks.
(** Two index entries: a readable block and one whose sections are empty. *)
Definition half_readable : list Z :=
  craft_header 2 0 ++ craft_block (le_bytes 8 7) (le_bytes 8 9)
  ++ craft_footer [craft_entry 64 96 1; craft_entry 66 96 1].
Definition half_reader : reader := opened (NewReader half_readable).
Example C49_case : Forall is_byte half_readable /\ NewReader half_readable = Ok half_reader
  /\ Forall (fun e => 80 <= e_size e) (r_index half_reader) /\ BlockCount half_reader = 2
  /\ GetPairs half_reader 0 = Ok ([7], [9]) /\ is_ok (GetPairs half_reader 1) = false
  /\ zlen (flat_map (readable_values half_reader) (zseq (BlockCount half_reader))) < two63
  /\ counts (aggregateSequential half_reader (mkOpts true None None 0)) = Some (1, 9, 9, 9).
Proof.
  split; [apply bytesb_sound; vm_compute; reflexivity|]. split; [unfold half_reader; apply opened_ok; vm_compute; reflexivity|].
  split; [apply sizesb_sound; vm_compute; reflexivity|]. split; [vm_compute; reflexivity|]. split; [vm_compute; reflexivity|].
  split; [vm_compute; reflexivity|]. split; vm_compute; reflexivity.
Qed.
