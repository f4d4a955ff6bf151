(** C66: replacing files among those a MultiReader reads.  Statements and cases; proofs in
    MergeFacts.v, over C27. *)
From Coq Require Import Lia ZArith Permutation.
From Verif Require Import Machine MachineFacts Encoding Sroar SroarFacts FileIO Writer Spec Reader Aggregate SimpleWriter SimpleSpec Multi MultiSpec MultiFacts MergeSpec MergeFacts
  AggProps ArbFacts AggFacts Examples PAggregate PSimple PMulti.
Local Open Scope Z_scope.

(** C66: files read together can be replaced by any others that, read together, show the
    same pairs -- in any order --, between the same older and newer files: MultiReader.
    Aggregate gives the same result for all options, whatever was done with the readers
    before. *)
Theorem C66_interchangeable : forall {Srr : Sroar} {Laws : SroarLaws Srr} older middle middle' newer rsO rsM rsM' rsN rs rs' hp hp' own own' opts,
  Forall2 file_with rsO older -> Forall2 file_with rsM middle -> Forall2 file_with rsM' middle' -> Forall2 file_with rsN newer ->
  Permutation (visible middle) (visible middle') ->
  zlen (concat (older ++ middle ++ newer)) < two63 -> zlen (concat (older ++ middle' ++ newer)) < two63 ->
  session (rsO ++ rsM ++ rsN) rs hp own -> session (rsO ++ rsM' ++ rsN) rs' hp' own' ->
  exists res res', fst (fst (MultiAggregate opts rs hp)) = Ok res /\ fst (fst (MultiAggregate opts rs' hp')) = Ok res' /\ agree res res'.
Proof.
  intros Srr Laws older middle middle' newer rsO rsM rsM' rsN rs rs' hp hp' own own' opts H1 H2 H3 H4 HP Z1 Z2 S1 S2.
  destruct (C27_newest_file_wins _ (older ++ middle ++ newer) _ _ _ opts ltac:(repeat apply Forall2_app; eassumption) S1 Z1) as (res & r1 & h1 & n1 & E1 & A1 & _).
  destruct (C27_newest_file_wins _ (older ++ middle' ++ newer) _ _ _ opts ltac:(repeat apply Forall2_app; eassumption) S2 Z2) as (res' & r2 & h2 & n2 & E2 & A2 & _).
  exists res, res'. rewrite E1, E2. split; [reflexivity|]. split; [reflexivity|]. eapply aggregates_agree; [|exact A1|exact A2].
  apply Permutation_map, perm_filter, visible_replace, HP.
Qed.
Print Assumptions C66_interchangeable.

(** C66: compaction.  One file with the pairs that some consecutive files show, in any order
    and written with any encoding, block size and writer, can take their place. *)
Theorem C66_compaction : forall {Srr : Sroar} {Laws : SroarLaws Srr} older middle newer merged rsO rsM r rsN rs rs' hp hp' own own' opts,
  Forall2 file_with rsO older -> Forall2 file_with rsM middle -> Forall2 file_with rsN newer ->
  file_with r merged -> Permutation merged (visible middle) ->
  zlen (concat (older ++ middle ++ newer)) < two63 ->
  session (rsO ++ rsM ++ rsN) rs hp own -> session (rsO ++ [r] ++ rsN) rs' hp' own' ->
  exists res res', fst (fst (MultiAggregate opts rs hp)) = Ok res /\ fst (fst (MultiAggregate opts rs' hp')) = Ok res' /\ agree res res'.
Proof.
  intros Srr Laws older middle newer merged rsO rsM r rsN rs rs' hp hp' own own' opts H1 H2 H3 H4 HP Z1 S1 S2.
  apply (C66_interchangeable older middle [merged] newer rsO rsM [r] rsN rs rs' hp hp' own own' opts); try assumption; [constructor; [exact H4|constructor]|rewrite visible_one; symmetry; exact HP|].
  assert (L : zlen merged <= zlen (concat middle)).
  { unfold zlen. rewrite (Permutation_length HP). apply Nat2Z.inj_le. apply visible_length. }
  clear - Z1 L. rewrite !concat_app in *. rewrite !zlen_app in *. cbn [concat]. rewrite app_nil_r. lia.
Qed.
Print Assumptions C66_compaction.

(** C66: files are updates.  If no ID occurs twice in one file, MultiReader.Aggregate gives
    the aggregate of a table: one row for each ID (that passes the filter), with the value
    that was put last, in the order of the files. *)
Theorem C66_last_put_wins : forall {Srr : Sroar} {Laws : SroarLaws Srr} rs0 files rs hp own opts,
  Forall2 file_with rs0 files -> Forall (fun f => NoDup (map fst f)) files -> session rs0 rs hp own -> zlen (concat files) < two63 ->
  exists res table, fst (fst (MultiAggregate opts rs hp)) = Ok res /\ aggregate_of (map snd table) res
    /\ NoDup (map fst table)
    /\ forall id v, In (id, v) table <-> last_put (concat files) id v /\ match mo_filter opts with Some allow => bm_contains allow id = true | None => True end.
Proof.
  intros Srr Laws rs0 files rs hp own opts HF HN HS HZ. destruct (C27_newest_file_wins _ _ _ _ _ opts HF HS HZ) as (res & r1 & h1 & n1 & E1 & A1 & _).
  exists res, (filter (allowed (mo_filter opts)) (visible files)). rewrite E1. split; [reflexivity|]. split; [exact A1|]. split; [apply NoDup_filter_fst, visible_nodup, HN|].
  intros id v. rewrite filter_In, (visible_last _ HN). unfold allowed. cbn [fst]. destruct (mo_filter opts); intuition.
Qed.
Print Assumptions C66_last_put_wins.

(** A case: the two files of C27_case, and one file with the pairs they show; an ID is twice
    in the newer one.  And two files without such IDs. *)
Definition block_calls (blocks : list block) : list wcall := map (fun b => CWriteBlock (fst b) (snd b)) blocks.
Lemma stored_blocks blocks : forall outs, length outs = length blocks -> forallb is_ok outs = true -> stored (combine (block_calls blocks) outs) blocks.
Proof.
  induction blocks as [|[ids vals] blocks IH]; intros [|r outs] HL HO; try discriminate HL; [constructor|]. cbn [forallb] in HO. apply andb_true_iff in HO. destruct HO as [H1 H2]. injection HL as HL.
  destruct r as [n| |]; try discriminate H1. cbn [block_calls map combine fst snd]. apply (stored_cons _ _ _ [(ids, vals)] blocks); [constructor|]. apply IH; assumption.
Qed.
Definition made (options : list writerOption) (blocks : list block) : reader := opened (NewReader (bytes_of (final options [] (block_calls blocks) 3))).
Definition makes (options : list writerOption) (blocks : list block) : bool :=
  check_finished options [] (block_calls blocks) 3 && forallb is_ok (fst (run_calls (block_calls blocks) (new_w options [])))
  && Nat.eqb (length (fst (run_calls (block_calls blocks) (new_w options [])))) (length blocks) && is_ok (NewReader (bytes_of (final options [] (block_calls blocks) 3))).
Lemma made_file options blocks : makes options blocks = true -> faithful (encoding_of options) -> file_with (made options blocks) (all_pairs blocks).
Proof.
  unfold makes, made. rewrite !andb_true_iff. intros [[[HF HO] HL] HR] HA. apply check_finished_sound in HF. apply opened_ok in HR. apply Nat.eqb_eq in HL.
  assert (HS : stored (hist options [] (block_calls blocks)) blocks) by (unfold hist; apply stored_blocks; assumption).
  assert (HH : forall p, In p (hist options [] (block_calls blocks)) -> is_ok (snd p) = true).
  { intros [c r] Hin. unfold hist in Hin. apply in_combine_r in Hin. rewrite forallb_forall in HO. exact (HO _ Hin). }
  remember (opened (NewReader (bytes_of (final options [] (block_calls blocks) 3)))) as r0 eqn:Er0. clear Er0 HO HL.
  remember (final options [] (block_calls blocks) 3) as w eqn:Ew. clear Ew. remember (hist options [] (block_calls blocks)) as h eqn:Eh. clear Eh.
  destruct (finished_indexed _ _ _ _ _ HF) as (r & blocks' & HR' & Hs & _ & HC). destruct (HC HA) as [_ HC']. rewrite HR in HR'. apply Ok_inj in HR'. subst r.
  assert (E : blocks = blocks').
  { eapply stored_det; [|exact HS|exact Hs]. apply Forall_forall. exact HH. }
  subst blocks'. eapply from_writer; [exact HF|exact HA| |exact HR|exact HC'|reflexivity].
  intros ids vals r Hin. specialize (HH _ Hin). cbn [snd] in HH. destruct r; split; congruence || discriminate.
Qed.
Definition merged_blocks : list block := [([9; 2], [-5; 7]); ([4; 4; 5; 7], [max_int64; 1; 10; 4])].
Definition newest_blocks : list block := [([7], [8]); ([100], [-1])].
Example C66_case :
  Forall2 file_with [agg_reader; s_reader] two_files
  /\ file_with (made [WithEncoding EncodingDeltaBoth] merged_blocks) (all_pairs merged_blocks)
  /\ Permutation (all_pairs merged_blocks) (visible two_files)
  /\ file_with (made [WithBlockSize 1] newest_blocks) (all_pairs newest_blocks)
  /\ counts (fst (fst (MultiAggregate (mkMOpts false (Some [2; 5; 7; 9])) [agg_reader; s_reader; made [WithBlockSize 1] newest_blocks] []))) = Some (4, -5, 10, 20)
  /\ counts (fst (fst (MultiAggregate (mkMOpts false (Some [2; 5; 7; 9])) [made [WithEncoding EncodingDeltaBoth] merged_blocks; made [WithBlockSize 1] newest_blocks] []))) = Some (4, -5, 10, 20).
Proof.
  split; [exact two_readers|]. split; [apply made_file; [vm_compute; reflexivity|vm_compute; tauto]|]. split.
  { cbn [merged_blocks all_pairs flat_map pairs_of combine fst snd app]. replace (visible two_files) with [(5, 10); (7, 4); (9, -5); (2, 7); (4, 1); (4, max_int64)] by reflexivity.
    apply (perm_trans (l' := [(5, 10); (7, 4); (9, -5); (2, 7); (4, max_int64); (4, 1)])); [|do 4 apply perm_skip; apply perm_swap].
    change [(9, -5); (2, 7); (4, max_int64); (4, 1); (5, 10); (7, 4)] with ([(9, -5); (2, 7); (4, max_int64); (4, 1)] ++ [(5, 10); (7, 4)]). rewrite Permutation_app_comm. apply Permutation_refl. }
  split; [apply made_file; [vm_compute; reflexivity|vm_compute; tauto]|]. split; vm_compute; reflexivity.
Qed.
Lemma Forall2_hd {A B} {P : A -> B -> Prop} {a b l m} : Forall2 P (a :: l) (b :: m) -> P a b.
Proof. intros H. inversion H. assumption. Qed.
Example C66_last_put_case :
  let files := [[(5, 10); (2, -3); (7, 4)]; [(7, 8); (100, -1)]] in
  Forall2 file_with [agg_reader; made [WithBlockSize 1] newest_blocks] files /\ Forall (fun f => NoDup (map fst f)) files
  /\ last_put (concat files) 7 8 /\ last_put (concat files) 5 10
  /\ counts (fst (fst (MultiAggregate (mkMOpts false None) [agg_reader; made [WithBlockSize 1] newest_blocks] []))) = Some (4, -3, 10, 14).
Proof.
  intros files. split.
  { constructor; [exact (Forall2_hd two_readers)|]. constructor; [|constructor].
    change [(7, 8); (100, -1)] with (all_pairs newest_blocks). apply made_file; [vm_compute; reflexivity|vm_compute; tauto]. }
  split; [repeat constructor; cbn; intuition discriminate|].
  split; [exists [(5, 10); (2, -3); (7, 4)], [(100, -1)]; split; [reflexivity|cbn; intuition discriminate]|].
  split; [exists [], [(2, -3); (7, 4); (7, 8); (100, -1)]; split; [reflexivity|cbn; intuition discriminate]|]. vm_compute. reflexivity.
Qed.
