(** Several files read together, whatever they contain. *)
From Coq Require Import Permutation.
From Verif Require Import Machine MachineFacts Encoding EncodingFacts FileIO Sroar SroarFacts Writer Reader Aggregate Parallel Multi Spec SimpleSpec MultiSpec AnySpec FormatSpec ManySpec
  ArbFacts WriterFacts ReaderFacts WriterProps AggFacts CloseFacts MultiFacts FormatFacts FormatProps AnyFacts.
Ltac Zify.zify_post_hook ::= Z.div_mod_to_equations.

Section Many.
Context {Srr : Sroar}.

Definition tame_reader (r : reader) : Prop :=
  Forall is_byte (r_data r) /\ Forall (fun e => 0 <= e_count e) (r_index r) /\ Forall (fun e => 80 <= e_size e) (r_index r)
  /\ zlen (r_index r) <= BlockCount r /\ BlockCount r <= 2 ^ 42.
Lemma opened_tame data r : opened_on data r -> tame_reader r /\ fresh r.
Proof.
  intros (HB & HR & HS & HC). split; [|eapply opened_fresh; exact HR]. unfold tame_reader. rewrite (NewReader_data data r HR). split; [exact HB|].
  split; [apply typed_counts; eapply NewReader_typed; eassumption|]. split; [exact HS|]. split; [eapply NewReader_index; eassumption|exact HC].
Qed.

Lemma taken_counted r allow d : all_taken r allow (Some d) = map snd (filter (fun p => passes allow (Some d) (fst p)) (counted_pairs allow r)).
Proof.
  unfold all_taken, counted_pairs. induction (zseq (BlockCount r)) as [|i l IH]; [reflexivity|]. cbn [flat_map].
  rewrite List.filter_app, map_app, IH. f_equal. unfold taken. destruct (GetPairs r i) as [[ids vals]| |]; [|reflexivity|reflexivity].
  destruct allow; destruct (claimed_in_range _ _ _); reflexivity.
Qed.
Lemma counted_u64 allow r : tame_reader r -> Forall (fun p => is_u64 (fst p)) (counted_pairs allow r).
Proof.
  intros (HB & HC & _ & _ & HN). apply Forall_forall. intros p Hp. apply in_flat_map in Hp. destruct Hp as (i & Hi & Hp). apply in_zseq in Hi.
  destruct (GetPairs r i) as [[ids vals]| |] eqn:E; try destruct Hp. destruct (claimed_in_range _ _ _); [|destruct Hp].
  assert (Hi' : is_i64 i) by (unfold is_i64, two63; lia). unfold GetPairs in E. rewrite (i64_id i Hi') in E.
  pose proof (readBlock_len r i ids vals HC E) as (_ & e & _ & _ & _ & _ & HU & _). specialize (HU HB). rewrite Forall_forall in HU.
  apply HU. destruct p as [a v]. apply in_combine_l in Hp. exact Hp.
Qed.
Lemma one_file r opts : tame_reader r -> o_deny opts <> None -> o_parallel opts = 0 ->
  zlen (all_taken r (o_filter opts) (o_deny opts)) < two63 ->
  exists res, aggregateSequential r opts = Ok res /\ aggregate_of (all_taken r (o_filter opts) (o_deny opts)) res.
Proof.
  intros (HB & HC & HS & HL & HN) Hd Hp Hz.
  destruct (any_scan r opts 0 [] (aggregateSequential r opts) HC HS HL HN) as (res & E & A); [right; left; exact Hd|exact Hz| |eauto].
  unfold AggregateWithOptions. rewrite Hp. reflexivity.
Qed.
Definition hit (seen : list bm) (id : Z) : bool := existsb (fun b => bm_contains b id) seen.
Fixpoint shadowed (allow : option bm) (seen : list bm) (files : list (list (Z * Z) * bm)) : list (Z * Z) :=
  match files with
  | [] => []
  | (ps, b) :: older => filter (fun p => allowed allow p && negb (hit seen (fst p))) ps ++ shadowed allow (seen ++ [b]) older
  end.
Lemma hit_app a b id : hit (a ++ b) id = hit a id || hit b id.
Proof. apply existsb_app. Qed.
Lemma hit_rev l id : hit (rev l) id = hit l id.
Proof. induction l as [|b l IH]; [reflexivity|]. cbn [rev]. rewrite hit_app, IH. cbn. rewrite orb_false_r. apply orb_comm. Qed.
Lemma shadowed_app allow l ps b : forall seen, shadowed allow seen (l ++ [(ps, b)])
  = shadowed allow seen l ++ filter (fun p => allowed allow p && negb (hit (seen ++ map snd l) (fst p))) ps.
Proof.
  induction l as [|[qs c] l IH]; intros seen; cbn [app shadowed map snd]; [rewrite !app_nil_r; reflexivity|].
  rewrite IH, <- !app_assoc. reflexivity.
Qed.
Lemma shadowed_shown allow files : Permutation (shadowed allow [] (rev files)) (filter (allowed allow) (shown files)).
Proof.
  induction files as [|[ps b] files IH]; [constructor|]. cbn [rev shown]. rewrite shadowed_app, List.filter_app.
  etransitivity; [apply Permutation_app_comm|]. apply Permutation_app; [|exact IH]. rewrite filter_filter. cbn [app].
  rewrite (filter_ext_in' _ (fun p => allowed allow p && negb (existsb (fun b => bm_contains b (fst p)) (map snd files)))); [reflexivity|].
  intros p _. rewrite map_rev, hit_rev. reflexivity.
Qed.

Lemma any_loop {Laws : SroarLaws Srr} own opts : forall rs0 bs rs deny seen vs result hp, valid hp own -> Forall2 (cached hp own) rs0 rs -> Forall tame_reader rs0 ->
  Forall2 (fun r b => loadGlobalIDBitmap r = Ok b) rs0 bs ->
  (forall id, is_u64 id -> bm_contains deny id = hit seen id) -> aggregate_of vs result ->
  zlen vs + zlen (flat_map (counted_pairs (mo_filter opts)) rs0) < two63 ->
  exists res rs' hp', multiLoop opts rs deny result hp = (Ok res, rs', hp')
    /\ aggregate_of (vs ++ map snd (shadowed (mo_filter opts) seen (combine (map (counted_pairs (mo_filter opts)) rs0) bs))) res.
Proof.
  induction rs0 as [|r0 rs0 IH]; intros bs rs deny seen vs result hp Hv Hc Ht Hb Hd Ha Hlen; inversion Hc as [|? r ? rs' Hc1 Hc2]; subst;
    inversion Hb as [|? b ? bs' Hb1 Hb2]; subst; cbn [multiLoop map combine shadowed].
  { rewrite app_nil_r. eauto. }
  inversion Ht as [|? ? Ht1 Ht2]; subst.
  set (ro := mkOpts (mo_skip opts) (mo_filter opts) (Some deny) 0). cbn [flat_map] in Hlen. rewrite zlen_app in Hlen.
  set (ps := counted_pairs (mo_filter opts) r0) in *.
  set (vals := map snd (filter (fun q => allowed (mo_filter opts) q && negb (hit seen (fst q))) ps)).
  assert (Ev : all_taken r0 (o_filter ro) (o_deny ro) = vals).
  { unfold ro, vals. cbn [o_filter o_deny]. rewrite taken_counted. fold ps. f_equal. apply filter_ext_in'. intros q Hq.
    unfold passes, allowed. f_equal. f_equal. apply Hd. pose proof (counted_u64 (mo_filter opts) r0 Ht1) as HU. rewrite Forall_forall in HU. apply HU. exact Hq. }
  assert (Hvl : zlen vals <= zlen ps) by (unfold vals; rewrite zlen_map; apply filter_le).
  pose proof (zlen_nonneg vs) as N1. pose proof (zlen_nonneg (flat_map (counted_pairs (mo_filter opts)) rs0)) as N2.
  destruct (one_file r0 ro Ht1 ltac:(discriminate) eq_refl ltac:(rewrite Ev; lia)) as (one & Hone & Aone). rewrite Ev in Aone.
  assert (Hagg : aggregateSequential r ro = Ok one).
  { destruct Hc1 as (p & on & -> & _). exact Hone. }
  rewrite Hagg. pose proof (get_cached _ _ _ _ Hv Hc1) as G. rewrite Hb1 in G. destruct G as (p & r' & l & G1 & G2 & G3). rewrite G1, G2.
  destruct (IH bs' rs' (bm_or deny b) (seen ++ [b]) (vs ++ vals)
              (if a_count result =? 0 then one else mergeAggregateResults result one)
              (hp ++ l) (valid_extend _ l _ Hv) (all_cached_extend _ l _ _ _ Hc2) Ht2 Hb2) as (res & rs2 & hp2 & E1 & E2).
  - intros id Hid. rewrite law_or by exact Hid. rewrite (Hd id Hid), hit_app. cbn. rewrite orb_false_r. reflexivity.
  - apply merge_aggregate; [lia|exact Ha|exact Aone].
  - rewrite zlen_app. lia.
  - rewrite E1. eexists res, _, hp2. split; [reflexivity|]. rewrite map_app, app_assoc. exact E2.
Qed.
Lemma announces_load r b : fresh r -> announces r b -> loadGlobalIDBitmap r = Ok b.
Proof.
  intros [F1 F2] (p & r' & hp & H & Hn). unfold GetGlobalIDBitmap in H. rewrite F1 in H. destruct (loadGlobalIDBitmap r) as [b'|e|]; try discriminate.
  cbn [alloc length app] in H. injection H as <- _ <-. cbn in Hn. congruence.
Qed.
Lemma load_announces r b : fresh r -> loadGlobalIDBitmap r = Ok b -> announces r b.
Proof.
  intros [F1 F2] H. unfold announces, GetGlobalIDBitmap. rewrite F1, H. cbn [alloc length app]. eexists 0%nat, _, [b]. split; reflexivity.
Qed.

Lemma combine_rev {A B} : forall (l : list A) (l' : list B), length l = length l' -> combine (rev l) (rev l') = rev (combine l l').
Proof.
  induction l as [|a l IH]; intros [|b l'] H; try discriminate; [reflexivity|]. cbn [rev combine]. injection H as H.
  rewrite combine_app' by (rewrite !rev_length; exact H). rewrite IH by exact H. reflexivity.
Qed.
Theorem many_files {Laws : SroarLaws Srr} datas rs0 bs rs hp own opts : Forall2 opened_on datas rs0 -> Forall2 announces rs0 bs -> session rs0 rs hp own ->
  zlen (flat_map (counted_pairs (mo_filter opts)) rs0) < two63 ->
  exists res rs' hp' new, MultiAggregate opts rs hp = (Ok res, rs', hp') /\ hp' = hp ++ new
    /\ aggregate_of (map snd (filter (allowed (mo_filter opts)) (shown (combine (map (counted_pairs (mo_filter opts)) rs0) bs)))) res.
Proof.
  intros HO HA Hs Hlen.
  assert (HT : Forall tame_reader rs0 /\ Forall fresh rs0).
  { clear - HO. induction HO as [|d r ds rs H _ [IH1 IH2]]; [split; constructor|]. apply opened_tame in H. destruct H. split; constructor; assumption. }
  destruct HT as [HT HF]. destruct (session_inv _ _ _ _ HF Hs) as [Hv Hc].
  assert (HL : Forall2 (fun r b => loadGlobalIDBitmap r = Ok b) rs0 bs).
  { clear - HA HF. induction HA as [|r b rs0 bs H _ IH]; [constructor|]. inversion HF; subst. constructor; [apply announces_load; assumption|apply IH; assumption]. }
  unfold MultiAggregate. destruct (zlen rs =? 0) eqn:E.
  - apply Z.eqb_eq in E. apply zlen_zero in E. subst rs. inversion Hc; subst. cbn [map combine shown filter].
    exists zeroResult, [], hp, []. rewrite app_nil_r. split; [reflexivity|]. split; [reflexivity|].
    unfold aggregate_of, zeroResult. cbn. repeat split; try reflexivity; congruence.
  - destruct (any_loop own opts (rev rs0) (rev bs) (rev rs) bm_new [] [] zeroResult hp Hv (Forall2_rev' _ _ _ Hc) (Forall_rev HT) (Forall2_rev' _ _ _ HL))
      as (res & rs' & hp' & E1 & E2).
    + intros id Hid. rewrite law_new by exact Hid. reflexivity.
    + unfold aggregate_of, zeroResult. cbn. repeat split; try reflexivity; congruence.
    + change (zlen (@nil Z)) with 0. rewrite flat_map_concat_map, map_rev. rewrite zlen_concat_rev, <- flat_map_concat_map. lia.
    + rewrite E1. destruct (loop_keeps own opts _ (rev rs0) _ _ _ _ _ _ Hv (Forall2_rev' _ _ _ Hc) E1) as (_ & l & ->).
      exists res, (rev rs'), (hp ++ l), l. split; [reflexivity|]. split; [reflexivity|].
      eapply aggregate_perm; [|exact E2]. cbn [app]. apply Permutation_map. etransitivity; [|apply shadowed_shown].
      rewrite map_rev. rewrite combine_rev by (rewrite map_length; apply (Forall2_length _ _ _ HA)). reflexivity.
Qed.

(** True index ranges make the pruning harmless. *)
Lemma counted_exact {Laws : SroarLaws Srr} r allow : tame_reader r -> allow = None \/ ranges_true r ->
  filter (allowed allow) (counted_pairs allow r) = filter (allowed allow) (readable_pairs r).
Proof.
  intros (HB & HC & _ & _ & HN) [->|HR]; [reflexivity|]. destruct allow as [a|]; [|reflexivity]. unfold counted_pairs, readable_pairs.
  assert (G : forall i, In i (zseq (BlockCount r)) -> 0 <= i < two63) by (intros i Hi; apply in_zseq in Hi; unfold two63; lia).
  revert G. induction (zseq (BlockCount r)) as [|i l IH]; intros Hl; [reflexivity|]. cbn [flat_map]. rewrite !List.filter_app, IH by (intros j Hj; apply Hl; right; exact Hj).
  f_equal. specialize (Hl i (or_introl eq_refl)). destruct (GetPairs r i) as [[ids vals]| |] eqn:EG; [|reflexivity|reflexivity].
  destruct (claimed_in_range r (Some a) i) eqn:EC; [reflexivity|]. symmetry. apply filter_none. intros [id v] Hp. apply in_combine_l in Hp.
  cbn [claimed_in_range] in EC. pose proof EG as EG'. unfold GetPairs in EG'. rewrite (i64_id i) in EG' by (unfold is_i64; lia).
  pose proof (readBlock_len r i ids vals HC EG') as (Hr & e & En & _ & _ & _ & HU64 & _). rewrite En in EC.
  assert (Hid : is_u64 id) by (specialize (HU64 HB); rewrite Forall_forall in HU64; apply HU64; exact Hp).
  pose proof (HR i ids vals e id EG En Hp) as Hin. unfold allowed. cbn [fst]. destruct (bm_contains a id) eqn:Ea; [|reflexivity]. exfalso.
  pose proof (law_min a id Hid Ea). pose proof (law_max a id Hid Ea).
  apply andb_false_iff in EC. destruct EC as [EC|EC]; apply Z.leb_gt in EC; lia.
Qed.
Lemma shown_filter allow (f g : reader -> list (Z * Z)) : forall rs bs, Forall (fun r => filter (allowed allow) (f r) = filter (allowed allow) (g r)) rs ->
  filter (allowed allow) (shown (combine (map f rs) bs)) = filter (allowed allow) (shown (combine (map g rs) bs)).
Proof.
  induction rs as [|r rs IH]; intros bs H; [reflexivity|]. destruct bs as [|b bs]; [reflexivity|]. inversion H as [|? ? H1 H2]; subst.
  cbn [map combine shown]. rewrite !List.filter_app, (IH bs H2). f_equal.
  replace (map snd (combine (map f rs) bs)) with (map snd (combine (map g rs) bs)).
  2: { clear. revert bs. induction rs as [|r rs IH]; intros [|b bs]; try reflexivity. cbn. f_equal. apply IH. }
  set (q := fun p : Z * Z => _). transitivity (filter q (filter (allowed allow) (f r))).
  - rewrite !filter_filter. apply filter_ext_in'. intros p _. apply andb_comm.
  - rewrite H1, !filter_filter. apply filter_ext_in'. intros p _. apply andb_comm.
Qed.
Theorem many_files_exact {Laws : SroarLaws Srr} datas rs0 bs rs hp own opts : Forall2 opened_on datas rs0 -> Forall2 announces rs0 bs -> session rs0 rs hp own ->
  mo_filter opts = None \/ Forall ranges_true rs0 ->
  zlen (flat_map (counted_pairs (mo_filter opts)) rs0) < two63 ->
  exists res rs' hp' new, MultiAggregate opts rs hp = (Ok res, rs', hp') /\ hp' = hp ++ new
    /\ aggregate_of (map snd (filter (allowed (mo_filter opts)) (shown (combine (map readable_pairs rs0) bs)))) res.
Proof.
  intros HO HA Hs HX Hlen. destruct (many_files _ _ _ _ _ _ _ HO HA Hs Hlen) as (res & rs' & hp' & new & E1 & E2 & E3).
  exists res, rs', hp', new. split; [exact E1|]. split; [exact E2|]. rewrite (shown_filter (mo_filter opts) readable_pairs (counted_pairs (mo_filter opts))); [exact E3|].
  assert (HT : Forall tame_reader rs0) by (clear - HO; induction HO as [|d r ds rs H _ IH]; constructor; [apply (opened_tame d r H)|exact IH]).
  apply Forall_forall. intros r Hr. rewrite Forall_forall in HT. symmetry. apply counted_exact; [apply HT; exact Hr|]. destruct HX as [HX|HX]; [left; exact HX|right].
  rewrite Forall_forall in HX. apply HX. exact Hr.
Qed.

(** A bitmap that cannot be read fails the call. *)
Lemma loop_loads own opts : forall rs0 rs deny result hp res rs' hp', valid hp own -> Forall2 (cached hp own) rs0 rs ->
  multiLoop opts rs deny result hp = (Ok res, rs', hp') -> Forall (fun r => exists b, loadGlobalIDBitmap r = Ok b) rs0.
Proof.
  induction rs0 as [|r0 rs0 IH]; intros rs deny result hp res rs' hp' Hv Hc H; [constructor|]. inversion Hc as [|? r ? rest Hc1 Hc2]; subst. cbn [multiLoop] in H.
  destruct (aggregateSequential r _) as [one|e|]; try discriminate. pose proof (get_cached _ _ _ _ Hv Hc1) as G.
  destruct (loadGlobalIDBitmap r0) as [b|e|] eqn:El; [|rewrite G in H; discriminate|rewrite G in H; discriminate].
  destruct G as (p & r' & l & G1 & G2 & G3). rewrite G1, G2 in H.
  destruct (multiLoop opts rest (bm_or deny b) _ (hp ++ l)) as [[out rs2] hp2] eqn:E2. injection H as -> _ _.
  constructor; [eauto|]. exact (IH _ _ _ _ _ _ _ (valid_extend _ l _ Hv) (all_cached_extend _ l _ _ _ Hc2) E2).
Qed.
Theorem many_need_bitmaps datas rs0 rs hp own opts res : Forall2 opened_on datas rs0 -> session rs0 rs hp own ->
  fst (fst (MultiAggregate opts rs hp)) = Ok res -> Forall (fun r => exists b, announces r b) rs0.
Proof.
  intros HO Hs H. assert (HF : Forall fresh rs0).
  { clear - HO. induction HO as [|d r ds rs H _ IH]; constructor; [|exact IH]. apply (opened_tame d). exact H. }
  destruct (session_inv _ _ _ _ HF Hs) as [Hv Hc]. unfold MultiAggregate in H. destruct (zlen rs =? 0) eqn:E.
  - apply Z.eqb_eq in E. apply zlen_zero in E. subst rs. inversion Hc; subst. constructor.
  - destruct (multiLoop opts (rev rs) bm_new zeroResult hp) as [[out rs'] hp'] eqn:El. cbn [fst] in H. subst out.
    pose proof (loop_loads own opts (rev rs0) _ _ _ _ _ _ _ Hv (Forall2_rev' _ _ _ Hc) El) as G. apply Forall_rev in G. rewrite rev_involutive in G.
    clear - G HF. induction G as [|r l (b & Hb) _ IH]; [constructor|]. inversion HF; subst. constructor; [|apply IH; assumption].
    exists b. apply load_announces; assumption.
Qed.

(** ** Files that follow the document *)
Lemma foreign_solid {Laws : SroarLaws Srr} r pairs : foreign_with r pairs -> solid r pairs.
Proof.
  intros (F & target & encoding & time & b & blocks & HC & HL & Hd & Hx & HR & ->).
  destruct (conforming_read _ _ _ _ _ _ HC HL Hd) as (r' & HR' & A1 & A2 & A3 & A4 & V & B1 & B2 & B3).
  rewrite HR in HR'. apply (f_equal (fun z => match z with Ok a => a | _ => r end)) in HR'. cbv beta iota in HR'. subst r'.
  split; [split; assumption|]. split; [exists blocks; split; [exact V|reflexivity]|].
  destruct (law_ser b) as (b' & Hb & Heq). exists b'. split; [rewrite B1; exact Hb|]. intros id Hid. rewrite (Heq id Hid).
  apply bool_iff. rewrite occurs_in, all_pairs_ids by apply V. split; [apply Hx; exact Hid|].
  destruct HC as (_ & _ & _ & _ & _ & _ & Hids & _). apply Hids.
Qed.
Theorem mixed_newest_wins {Laws : SroarLaws Srr} rs0 files rs hp own opts :
  Forall2 (fun r pairs => file_with r pairs \/ foreign_with r pairs) rs0 files -> session rs0 rs hp own -> zlen (concat files) < two63 ->
  exists res rs' hp' new, MultiAggregate opts rs hp = (Ok res, rs', hp') /\ hp' = hp ++ new
    /\ aggregate_of (map snd (filter (allowed (mo_filter opts)) (visible files))) res.
Proof.
  intros HF0 Hs Hlen.
  assert (Hsol : Forall2 solid rs0 files).
  { eapply Forall2_impl; [|exact HF0]. intros r ps [H|H]; [apply file_solid; exact H|apply foreign_solid; exact H]. }
  assert (HF : Forall fresh rs0) by (clear - Hsol; induction Hsol as [|r f l l' H _ IH]; constructor; [apply H|exact IH]).
  destruct (session_inv _ _ _ _ HF Hs) as [Hv Hc]. unfold MultiAggregate. destruct (zlen rs =? 0) eqn:E.
  - apply Z.eqb_eq in E. apply zlen_zero in E. subst rs. inversion Hc; subst. inversion Hsol; subst. cbn [visible filter map].
    exists zeroResult, [], hp, []. rewrite app_nil_r. split; [reflexivity|]. split; [reflexivity|].
    unfold aggregate_of, zeroResult. cbn. repeat split; try reflexivity; congruence.
  - destruct (loop_exact own opts (rev files) (rev rs0) (rev rs) bm_new [] [] zeroResult hp Hv (Forall2_rev' _ _ _ Hc) (Forall2_rev' _ _ _ Hsol))
      as (res & rs' & hp' & E1 & E2).
    + intros id Hid. rewrite law_new by exact Hid. reflexivity.
    + unfold aggregate_of, zeroResult. cbn. repeat split; try reflexivity; congruence.
    + rewrite zlen_concat_rev. change (zlen (@nil Z)) with 0. lia.
    + rewrite E1. destruct (loop_keeps own opts _ (rev rs0) _ _ _ _ _ _ Hv (Forall2_rev' _ _ _ Hc) E1) as (_ & l & ->).
      exists res, (rev rs'), (hp ++ l), l. split; [reflexivity|]. split; [reflexivity|].
      eapply aggregate_perm; [|exact E2]. cbn [app]. apply Permutation_map. apply shadow_visible.
Qed.
End Many.
