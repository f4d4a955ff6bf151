(** Aggregation over opened files. *)
From Coq Require Import Floats.SpecFloat.
From Verif Require Import Machine MachineFacts Encoding EncodingFacts FileIO Sroar Writer Reader Aggregate Spec FileFacts
  WriterFacts BlockFacts FinalFacts ReaderFacts DecodeFacts HistoryFacts RunFacts ReachFacts WriterProps.
Ltac Zify.zify_post_hook ::= Z.div_mod_to_equations.

(** ** Accumulators *)
Definition lmin (vs : list Z) : Z := fold_right Z.min max_int64 vs.
Definition lmax (vs : list Z) : Z := fold_right Z.max min_int64 vs.
Definition acc_of (vs : list Z) : acc := mkAcc (i64 (zlen vs)) (lmin vs) (lmax vs) (i64 (zsum vs)).

Lemma zsum_app a b : zsum (a ++ b) = zsum a + zsum b.
Proof. unfold zsum. induction a as [|x a IH]; cbn [app fold_right]; lia. Qed.
Lemma lmin_app a b : lmin (a ++ b) = Z.min (lmin a) (lmin b).
Proof.
  unfold lmin. induction a as [|x a IH]; cbn [app fold_right]; [|lia].
  assert (fold_right Z.min max_int64 b <= max_int64) by (induction b; cbn; lia). lia.
Qed.
Lemma lmax_app a b : lmax (a ++ b) = Z.max (lmax a) (lmax b).
Proof.
  unfold lmax. induction a as [|x a IH]; cbn [app fold_right]; [|lia].
  assert (min_int64 <= fold_right Z.max min_int64 b) by (induction b; cbn; lia). lia.
Qed.
Lemma lmin_spec vs : Forall is_i64 vs -> vs <> [] -> is_minimum (lmin vs) vs.
Proof.
  intros H Hn. unfold lmin. induction H as [|x l Hx H IH]; [congruence|]. cbn [fold_right].
  destruct l as [|y l]; [|destruct IH as [I1 I2]; [discriminate|]].
  - cbn [fold_right]. assert (Z.min x max_int64 = x) as -> by (unfold is_i64, max_int64, two63 in *; lia). split; [left; reflexivity|]. intros y [<-|[]]. lia.
  - split; [|intros z [<-|Hz]; [lia|specialize (I2 z Hz); lia]].
    destruct (Z.min_spec x (fold_right Z.min max_int64 (y :: l))) as [[_ ->]|[_ ->]]; [left; reflexivity|right; exact I1].
Qed.
Lemma lmax_spec vs : Forall is_i64 vs -> vs <> [] -> is_maximum (lmax vs) vs.
Proof.
  intros H Hn. unfold lmax. induction H as [|x l Hx H IH]; [congruence|]. cbn [fold_right].
  destruct l as [|y l]; [|destruct IH as [I1 I2]; [discriminate|]].
  - cbn [fold_right]. assert (Z.max x min_int64 = x) as -> by (unfold is_i64, min_int64, two63 in *; lia). split; [left; reflexivity|]. intros y [<-|[]]. lia.
  - split; [|intros z [<-|Hz]; [lia|specialize (I2 z Hz); lia]].
    destruct (Z.max_spec x (fold_right Z.max min_int64 (y :: l))) as [[_ ->]|[_ ->]]; [right; exact I1|left; reflexivity].
Qed.

Lemma lmin_le vs : lmin vs <= max_int64.
Proof. unfold lmin. induction vs as [|x vs IH]; cbn [fold_right]; lia. Qed.
Lemma lmax_ge vs : min_int64 <= lmax vs.
Proof. unfold lmax. induction vs as [|x vs IH]; cbn [fold_right]; lia. Qed.

Lemma add_values_acc xs vs : add_values (acc_of xs) vs = acc_of (xs ++ vs).
Proof.
  unfold add_values, acc_of. cbn [c_count c_min c_max c_sum].
  rewrite i64_add_l, zlen_app. generalize (zlen xs + zlen vs) as n. intros n.
  rewrite lmin_app, lmax_app, zsum_app.
  pose proof (lmin_le xs) as Hm. pose proof (lmax_ge xs) as HM.
  generalize dependent (lmin xs). intros mn Hmn. generalize dependent (lmax xs). intros mx Hmx.
  generalize (zsum xs) as s. intros s. revert mn mx s Hmn Hmx.
  induction vs as [|v vs IH]; intros mn mx s Hmn Hmx; cbn [fold_left].
  - unfold lmin, lmax. cbn [fold_right]. f_equal; [lia|lia|]. f_equal. cbn. lia.
  - unfold add_value at 2. cbn [c_count c_min c_max c_sum]. rewrite i64_add_l.
    replace (if v <? mn then v else mn) with (Z.min mn v) by (destruct (Z.ltb_spec v mn); lia).
    replace (if v >? mx then v else mx) with (Z.max mx v) by (destruct (Z.gtb_spec v mx); lia).
    rewrite IH by lia. unfold lmin, lmax, zsum. cbn [fold_right]. f_equal; [lia|lia|]. f_equal. lia.
Qed.

Lemma sign_magnitude_back v : is_i64 v -> v <> min_int64 -> uint64ToInt64 (sign_magnitude v) = v.
Proof. intros H Hn. rewrite <- int64ToUint64_spec by exact H. apply stat_conversion; assumption. Qed.

Lemma is_minimum_unique x y l : is_minimum x l -> is_minimum y l -> x = y.
Proof. intros [A1 A2] [B1 B2]. pose proof (A2 _ B1). pose proof (B2 _ A1). lia. Qed.
Lemma is_maximum_unique x y l : is_maximum x l -> is_maximum y l -> x = y.
Proof. intros [A1 A2] [B1 B2]. pose proof (A2 _ B1). pose proof (B2 _ A1). lia. Qed.

Lemma add_entry_acc xs b e : Forall is_i64 (snd b) -> snd b <> [] -> true_entry b e -> no_min_stat b ->
  add_entry (acc_of xs) e = acc_of (xs ++ snd b).
Proof.
  intros Hi Hn (_ & _ & (mn & Hmn & E1) & (mx & Hmx & E2) & E3 & E4 & E5) (N1 & N2).
  unfold add_entry, acc_of. cbn [c_count c_min c_max c_sum]. rewrite E1, E2, E3, E4, E5.
  rewrite Forall_forall in Hi.
  assert (mn <> min_int64) by (intros ->; apply N1, Hmn). assert (mx <> min_int64) by (intros ->; apply N1, Hmx).
  rewrite !sign_magnitude_back; [|apply i64_range|exact N2|apply Hi, Hmx|assumption|apply Hi, Hmn|assumption].
  rewrite i64_add_l, i64_add_l, i64_add_r, zlen_app, lmin_app, lmax_app, zsum_app.
  rewrite <- (is_minimum_unique _ _ _ (lmin_spec (snd b) ltac:(apply Forall_forall; exact Hi) Hn) Hmn).
  rewrite <- (is_maximum_unique _ _ _ (lmax_spec (snd b) ltac:(apply Forall_forall; exact Hi) Hn) Hmx).
  f_equal.
  - destruct (Z.ltb_spec (lmin (snd b)) (lmin xs)); lia.
  - destruct (Z.gtb_spec (lmax (snd b)) (lmax xs)); lia.
Qed.

Lemma acc0_of : acc0 = acc_of [].
Proof. reflexivity. Qed.

Lemma result_aggregate vs : Forall is_i64 vs -> zlen vs < two63 -> aggregate_of vs (result_of (acc_of vs)).
Proof.
  intros Hi Hl. pose proof (zlen_nonneg vs) as Hp.
  unfold aggregate_of, result_of, acc_of, average. cbn [c_count c_min c_max c_sum a_count a_min a_max a_sum a_avg].
  rewrite (i64_id (zlen vs)) by (unfold is_i64; lia).
  split; [reflexivity|]. split; [reflexivity|]. split; [intros Hn; split; [apply lmin_spec|apply lmax_spec]; assumption|].
  split.
  - intros ->. reflexivity.
  - intros Hn. destruct vs as [|v vs]; [congruence|]. rewrite zlen_cons in *. pose proof (zlen_nonneg vs).
    destruct (Z.gtb_spec (1 + zlen vs) 0); [|lia]. reflexivity.
Qed.

Lemma aggregate_unique vs r1 r2 : vs <> [] -> aggregate_of vs r1 -> aggregate_of vs r2 -> r1 = r2.
Proof.
  intros Hn (A1 & A2 & A3 & _ & A5) (B1 & B2 & B3 & _ & B5). destruct r1 as [c1 mn1 mx1 s1 v1], r2 as [c2 mn2 mx2 s2 v2].
  cbn [a_count a_min a_max a_sum a_avg] in *.
  destruct (A3 Hn) as [A3a A3b], (B3 Hn) as [B3a B3b]. rewrite (A5 Hn), (B5 Hn), A1, B1, A2, B2.
  rewrite (is_minimum_unique _ _ _ A3a B3a), (is_maximum_unique _ _ _ A3b B3b). reflexivity.
Qed.

(** ** Opened files *)
Section Views.
Context {Srr : Sroar}.

Record indexed (r : reader) (blocks : list block) : Prop := {
  v_count : BlockCount r = zlen blocks;
  v_small : 56 * zlen blocks < two32;
  v_good : Forall good_block blocks;
  v_index : Forall2 (fun e b => true_entry b e) (r_index r) blocks;
  v_sizes : Forall (fun e => 80 <= e_size e) (r_index r)
}.
Record view (r : reader) (blocks : list block) : Prop := {
  v_indexed : indexed r blocks;
  v_pairs : forall i, is_u64 i ->
       GetPairs r i = match nth_error blocks (Z.to_nat i) with Some b => Ok b | None => Err ErrIndex end
}.

Lemma finalized_indexed F X now e t L b off : finalized F X now e t L b off -> within_limits F e t L b ->
  indexed (the_reader F now e t L b off) (map snd L).
Proof.
  intros HF Hlim. pose proof (fz_blocks _ _ _ _ _ _ _ _ HF) as HP. constructor.
  - cbn. rewrite zlen_map. reflexivity.
  - rewrite zlen_map. exact (lim_index _ _ _ _ _ Hlim).
  - apply Forall_map. eapply Forall_impl; [|exact HP]. intros x Hx. apply Hx.
  - cbn [the_reader r_index]. apply Forall2_map_l. clear - HP. induction HP as [|x L Hx _ IH]; cbn [map]; constructor; [|exact IH].
    apply entry_true. apply Hx.
  - cbn [the_reader r_index]. apply Forall_map. eapply Forall_impl; [|exact HP]. intros x (Hg & _ & Hx & _).
    assert (HCc : contiguous (fst x) (map (entry_of e) [x]) (fst x + zlen (image_of e x))).
    { apply chain_contiguous; [constructor; [exact Hg|constructor]|lia|]. cbn [chain]. auto. }
    inversion HCc; subst. unfold pblock in *. lia.
Qed.
Lemma finalized_view F X now e t L b off : finalized F X now e t L b off -> within_limits F e t L b -> faithful e ->
  view (the_reader F now e t L b off) (map snd L).
Proof.
  intros HF Hlim He. constructor; [eapply finalized_indexed; eassumption|].
  intros i Hi. rewrite (GetPairs_finalized _ X) by (try assumption; apply faithful_consistent; exact He).
  rewrite nth_error_map'. unfold pblock in *. destruct (nth_error L (Z.to_nat i)) as [x|]; cbn [option_map]; [|reflexivity].
  rewrite faithful_readback by exact He. reflexivity.
Qed.

Theorem finished_indexed options faults h now w :
  finished_run options faults h now w ->
  exists r blocks, NewReader (bytes_of w) = Ok r /\ stored h blocks /\ indexed r blocks
    /\ (faithful (encoding_of options) -> view r blocks /\ contents h r blocks).
Proof.
  intros H. destruct (finished_facts options faults h now w H) as (blocks & A & X & L & off & Hef & HL & HF & Hlim & HX & HC & HR).
  eexists _, blocks. split; [exact HR|]. pose proof (effects_stored _ _ _ Hef) as Hs. split; [exact Hs|].
  pose proof (finalized_indexed _ _ _ _ _ _ _ _ HF Hlim) as HI. rewrite HL in HI.
  split; [exact HI|]. intros He.
  pose proof (finalized_view _ _ _ _ _ _ _ _ HF Hlim He) as HV. rewrite HL in HV. split; [exact HV|].
  split; [exact Hs|]. split; [apply HI|exact (v_pairs _ _ HV)].
Qed.

(** ** Scanning *)
Lemma scan_acc get vals_at idx : (forall i, In i idx -> exists ids, get i = Ok (ids, vals_at i)) ->
  forall xs, scan get idx (acc_of xs) = Ok (acc_of (xs ++ flat_map vals_at idx)).
Proof.
  induction idx as [|i idx IH]; intros H xs; cbn [scan flat_map]; [rewrite app_nil_r; reflexivity|].
  destruct (H i (or_introl eq_refl)) as [ids ->]. cbn [add_block rbind]. rewrite add_values_acc, IH, <- app_assoc; [reflexivity|].
  intros j Hj. apply H. right. exact Hj.
Qed.

Definition vals_at (vs : block -> list Z) (blocks : list block) (i : Z) : list Z :=
  match nth_error blocks (Z.to_nat i) with Some b => vs b | None => [] end.
Lemma vals_at_all vs blocks : flat_map (vals_at vs blocks) (zseq (zlen blocks)) = flat_map vs blocks.
Proof.
  unfold zseq, zlen. rewrite Nat2Z.id. induction blocks as [|b blocks IH] using rev_ind; [reflexivity|].
  rewrite app_length. cbn [length]. rewrite Nat.add_1_r, seq_S, map_app, !flat_map_app. cbn [map flat_map].
  rewrite !app_nil_r, Nat.add_0_l. f_equal.
  - rewrite <- IH, !flat_map_concat_map, !map_map. f_equal. apply map_ext_in. intros j Hj. apply in_seq in Hj. unfold vals_at.
    rewrite Nat2Z.id, nth_error_app1 by lia. reflexivity.
  - unfold vals_at. rewrite Nat2Z.id, nth_error_app2 by lia. rewrite Nat.sub_diag. reflexivity.
Qed.
Lemma vals_at_pruned vs blocks index (P : footerEntry -> bool) :
  Forall2 (fun e b => P e = false -> vs b = []) index blocks ->
  flat_map (vals_at vs blocks) (map fst (List.filter (fun '(_, e) => P e) (combine (zseq (zlen index)) index)))
  = flat_map vs blocks.
Proof.
  intros H. rewrite <- (vals_at_all vs blocks).
  assert (HL : length index = length blocks) by (clear - H; induction H; cbn; congruence).
  assert (HN : forall i e, nth_error index i = Some e -> P e = false -> vals_at vs blocks (Z.of_nat i) = []).
  { unfold vals_at. intros i e He HP. rewrite Nat2Z.id. clear HL. revert i He. induction H as [|e' b l1 l2 Hx _ IH]; intros [|i] He; cbn in *; try discriminate.
    - injection He as ->. auto.
    - apply IH. exact He. }
  replace (zlen blocks) with (zlen index) by (unfold zlen; lia). clear H HL.
  unfold zseq, zlen. rewrite Nat2Z.id. set (v := vals_at vs blocks) in *. clearbody v.
  induction index as [|e index IH] using rev_ind; [reflexivity|].
  rewrite app_length. cbn [length]. rewrite Nat.add_1_r, seq_S, map_app, flat_map_app, Nat.add_0_l. cbn [map].
  rewrite combine_app' by (rewrite map_length, seq_length; reflexivity). rewrite List.filter_app, map_app, flat_map_app.
  f_equal.
  - apply IH. intros i e' He'. apply HN. rewrite nth_error_app1; [exact He'|]. apply nth_error_Some. congruence.
  - cbn [combine List.filter]. destruct (P e) eqn:EP; [reflexivity|]. cbn [map flat_map]. rewrite app_nil_r. symmetry. eapply HN; [|exact EP].
    rewrite nth_error_app2 by lia. rewrite Nat.sub_diag. reflexivity.
Qed.

(** ** Filters *)
Lemma keeps_passes f d id : keeps f d id = passes f d id.
Proof. reflexivity. Qed.
Lemma filterPairs_ok f d : forall ids vals, length ids = length vals ->
  filterPairs f d ids vals = Ok (split (filter (fun p => passes f d (fst p)) (combine ids vals))).
Proof.
  induction ids as [|id ids IH]; intros [|v vals] H; try discriminate; [reflexivity|]. injection H as H.
  cbn [filterPairs combine filter tl fst]. rewrite keeps_passes, IH by exact H. destruct (passes f d id); [|reflexivity].
  cbn [split]. destruct (split _) as [fi fv]. reflexivity.
Qed.
Lemma snd_split {A B} (l : list (A * B)) : snd (split l) = map snd l.
Proof. induction l as [|[a b] l IH]; [reflexivity|]. cbn [split map]. rewrite <- IH. destruct (split l). reflexivity. Qed.

Definition picked (f d : option bm) (b : block) : list Z :=
  map snd (filter (fun p => passes f d (fst p)) (pairs_of b)).
Lemma chosen_picked f d blocks : chosen f d blocks = flat_map (picked f d) blocks.
Proof.
  unfold chosen, all_pairs. induction blocks as [|b blocks IH]; [reflexivity|]. cbn [flat_map].
  rewrite filter_app, map_app, IH. reflexivity.
Qed.
Lemma combine_snd (a b : list Z) : length a = length b -> map snd (combine a b) = b.
Proof. revert b. induction a as [|x a IH]; intros [|y b] H; try discriminate; [reflexivity|]. cbn. f_equal. apply IH. injection H as H. exact H. Qed.
Lemma combine_fst (a b : list Z) : length a = length b -> map fst (combine a b) = a.
Proof. revert b. induction a as [|x a IH]; intros [|y b] H; try discriminate; [reflexivity|]. cbn. f_equal. apply IH. injection H as H. exact H. Qed.
Lemma filter_true' {A} (f : A -> bool) l : (forall x, f x = true) -> filter f l = l.
Proof. intros H. induction l as [|x l IH]; [reflexivity|]. cbn. rewrite H, IH. reflexivity. Qed.
Lemma good_length b : good_block b -> length (fst b) = length (snd b).
Proof. intros (_ & _ & H & _). unfold zlen in H. lia. Qed.
Lemma picked_none b : good_block b -> picked None None b = snd b.
Proof.
  intros H. unfold picked. rewrite filter_true' by reflexivity. apply combine_snd, good_length, H.
Qed.
Lemma chosen_none blocks : Forall good_block blocks -> chosen None None blocks = flat_map snd blocks.
Proof. rewrite chosen_picked. induction 1 as [|b l Hb _ IH]; [reflexivity|]. cbn [flat_map]. rewrite picked_none, IH; auto. Qed.
Lemma all_pairs_snd blocks : Forall good_block blocks -> map snd (all_pairs blocks) = flat_map snd blocks.
Proof.
  intros H. rewrite <- chosen_none by exact H. unfold chosen. rewrite filter_true' by reflexivity. reflexivity.
Qed.

Lemma picked_i64 f d b : good_block b -> Forall is_i64 (picked f d b).
Proof.
  intros Hg. pose proof (good_length b Hg) as Hl. destruct Hg as (_ & H & _). apply Forall_forall. intros v Hv.
  apply in_map_iff in Hv. destruct Hv as ([i x] & <- & Hx). apply filter_In in Hx. destruct Hx as [Hx _].
  apply in_combine_r in Hx. rewrite Forall_forall in H. apply H. exact Hx.
Qed.
Lemma chosen_i64 f d blocks : Forall good_block blocks -> Forall is_i64 (chosen f d blocks).
Proof.
  rewrite chosen_picked. induction 1 as [|b l Hb _ IH]; [constructor|]. cbn [flat_map]. apply Forall_app.
  split; [apply picked_i64; exact Hb|exact IH].
Qed.
Lemma picked_length f d b : good_block b -> zlen (picked f d b) <= max_items.
Proof.
  intros (_ & _ & _ & H). unfold picked. rewrite zlen_map. unfold zlen in *.
  assert (forall A (g : A -> bool) l, (length (filter g l) <= length l)%nat) as G.
  { intros A g l. induction l as [|x l IH]; cbn; [lia|]. destruct (g x); cbn; lia. }
  pose proof (G _ (fun p : Z * Z => passes f d (fst p)) (pairs_of b)). unfold pairs_of in *. rewrite combine_length in *. lia.
Qed.
Lemma chosen_length f d blocks : Forall good_block blocks -> 56 * zlen blocks < two32 -> zlen (chosen f d blocks) < two63.
Proof.
  intros H Hs. rewrite chosen_picked. assert (G : zlen (flat_map (picked f d) blocks) <= max_items * zlen blocks).
  { clear Hs. induction H as [|b l Hb _ IH]; [cbn; lia|]. cbn [flat_map]. rewrite zlen_app, zlen_cons.
    pose proof (picked_length f d b Hb). lia. }
  unfold max_items, two32, two63 in *. lia.
Qed.

(** Reading one block of a view with a filter. *)
Lemma readFiltered_view r blocks f d i : view r blocks -> is_u64 i -> i < zlen blocks ->
  exists ids, readBlockFiltered r (i64 i) f d = Ok (ids, vals_at (picked f d) blocks i).
Proof.
  intros [HI HG] Hi Hl. unfold readBlockFiltered, vals_at. specialize (HG i Hi). unfold GetPairs in HG. rewrite HG. clear HG.
  destruct (nth_error blocks (Z.to_nat i)) as [[ids vals]|] eqn:E.
  2: { apply nth_error_None in E. unfold zlen, is_u64 in *. lia. }
  cbn [rbind]. assert (Hg : good_block (ids, vals)).
  { pose proof (v_good _ _ HI) as G. rewrite Forall_forall in G. apply G. eapply nth_error_In. exact E. }
  pose proof (good_length _ Hg) as Hl'. cbn [fst snd] in Hl'.
  assert (G : forall x, x = filterPairs f d ids vals -> exists ids0, x = Ok (ids0, picked f d (ids, vals))).
  { intros x ->. rewrite filterPairs_ok by exact Hl'. unfold picked, pairs_of. cbn [fst snd]. rewrite <- snd_split.
    destruct (split _) as [a b]. exists a. reflexivity. }
  destruct f as [f|], d as [d|]; try (apply G; reflexivity).
  exists ids. rewrite picked_none by exact Hg. reflexivity.
Qed.

Lemma iterator_range r blocks f d i : indexed r blocks -> In i (matchingBlocks r f d) -> 0 <= i < zlen blocks.
Proof.
  intros [Hc _ _ Hx]. assert (Hlen : length (r_index r) = length blocks) by (clear - Hx; induction Hx; cbn; congruence).
  destruct f as [f|]; cbn [matchingBlocks].
  - rewrite in_map_iff. intros ([j e] & <- & Hin). apply filter_In in Hin. destruct Hin as [Hin _]. apply in_combine_l, in_zseq in Hin.
    cbn [fst]. unfold zlen in *. lia.
  - rewrite in_zseq, Hc. lia.
Qed.

Lemma iterator_values {Lw : SroarLaws Srr} r blocks f d : indexed r blocks ->
  flat_map (vals_at (picked f d) blocks) (matchingBlocks r f d) = chosen f d blocks.
Proof.
  intros [Hc Hs Hg Hx _]. rewrite chosen_picked. destruct f as [f|]; cbn [matchingBlocks].
  - apply vals_at_pruned with (P := fun e => negb ((e_maxID e <? bm_min f) || (e_minID e >? bm_max f))).
    clear Hc Hs. induction Hx as [|e b l1 l2 Ht _ IH]; [constructor|]. inversion Hg as [|b' l' Hb Hg']; subst.
    constructor; [|apply IH; exact Hg'].
    intros HP. apply negb_false_iff, orb_true_iff in HP. destruct Ht as ((T1 & T2) & (T3 & T4) & _). unfold picked.
    destruct (filter _ _) as [|p l] eqn:E; [reflexivity|exfalso].
    assert (Hin : In p (filter (fun p => passes (Some f) d (fst p)) (pairs_of b))) by (rewrite E; left; reflexivity).
    apply filter_In in Hin. destruct Hin as [Hin Hp]. unfold passes in Hp. apply andb_true_iff in Hp. destruct Hp as [Hp _].
    destruct p as [id v]. cbn [fst] in Hp. apply in_combine_l in Hin. destruct Hb as (Hu & _). rewrite Forall_forall in Hu.
    pose proof (law_min f id (Hu id Hin) Hp). pose proof (law_max f id (Hu id Hin) Hp).
    specialize (T2 id Hin). specialize (T4 id Hin). destruct HP; lia.
  - rewrite Hc. apply vals_at_all.
Qed.

(** ** The sequential paths *)
Lemma index_length r blocks : indexed r blocks -> zlen (r_index r) = zlen blocks.
Proof. intros [_ _ _ Hx _]. unfold zlen. f_equal. clear - Hx. induction Hx; cbn; congruence. Qed.

Lemma make_fine n size b : 0 <= n -> 0 <= size -> n * size <= b -> b <= 2 ^ 48 -> make_panics n size = false.
Proof. intros. unfold make_panics. destruct (Z.ltb_spec n 0); [lia|]. destruct (Z.gtb_spec (n * size) (2 ^ 48)); [lia|]. reflexivity. Qed.
Lemma iterator_ok r blocks f d : indexed r blocks -> FilteredBlockIterator r f d = Ok (matchingBlocks r f d).
Proof.
  intros [Hc Hs _ _ _]. destruct f as [f|]; [reflexivity|]. unfold FilteredBlockIterator. rewrite Hc.
  unfold make_panics. pose proof (zlen_nonneg blocks). unfold two32 in *.
  destruct (Z.ltb_spec (zlen blocks) 0); [lia|]. destruct (Z.gtb_spec (zlen blocks * 8) (2 ^ 48)); [lia|]. reflexivity.
Qed.

Lemma filter_result {Lw : SroarLaws Srr} r blocks opts : view r blocks ->
  aggregateWithFilter r opts
  = Ok (if zlen (matchingBlocks r (o_filter opts) (o_deny opts)) =? 0 then zeroResult
        else result_of (acc_of (chosen (o_filter opts) (o_deny opts) blocks))).
Proof.
  intros HV. unfold aggregateWithFilter. rewrite (iterator_ok r blocks) by apply HV. cbn [rbind]. destruct (zlen _ =? 0); [reflexivity|].
  change acc0 with (acc_of []). rewrite (scan_acc _ (vals_at (picked (o_filter opts) (o_deny opts)) blocks)).
  - cbn [rbind app]. rewrite iterator_values by apply HV. reflexivity.
  - intros i Hi. pose proof (iterator_range _ _ _ _ _ (v_indexed _ _ HV) Hi) as Hr.
    apply readFiltered_view; [exact HV| |apply Hr].
    pose proof (v_small _ _ (v_indexed _ _ HV)). unfold is_u64, two32, two64 in *. lia.
Qed.

Lemma footer_result r blocks : indexed r blocks -> Forall no_min_stat blocks ->
  fold_left add_entry (r_index r) acc0 = acc_of (flat_map snd blocks).
Proof.
  intros [_ _ Hg Hx _] Hn. change acc0 with (acc_of []).
  assert (G : forall xs, fold_left add_entry (r_index r) (acc_of xs) = acc_of (xs ++ flat_map snd blocks)); [|apply (G [])].
  revert Hg Hn. induction Hx as [|e b l1 l2 Ht _ IH]; intros Hg Hn xs; cbn [fold_left flat_map]; [rewrite app_nil_r; reflexivity|].
  inversion Hg as [|b1 l1' Hb Hg']; subst. inversion Hn as [|b2 l2' Hnb Hn']; subst.
  rewrite (add_entry_acc xs b e); [|apply Hb| |exact Ht|exact Hnb].
  - rewrite IH by assumption. rewrite app_assoc. reflexivity.
  - pose proof (good_length b Hb) as Hl. destruct Hb as (_ & _ & _ & H1). intros E. rewrite E in Hl. unfold zlen in H1. cbn in Hl. lia.
Qed.

Lemma scan_result r blocks : view r blocks ->
  scan (GetPairs r) (zseq (BlockCount r)) acc0 = Ok (acc_of (flat_map snd blocks)).
Proof.
  intros [HI HG]. change acc0 with (acc_of []). rewrite (scan_acc _ (vals_at snd blocks)).
  - rewrite (v_count _ _ HI), vals_at_all. reflexivity.
  - intros i Hi. apply in_zseq in Hi. rewrite (v_count _ _ HI) in Hi. pose proof (v_small _ _ HI).
    rewrite HG by (unfold is_u64, two32, two64 in *; lia). unfold vals_at.
    destruct (nth_error blocks (Z.to_nat i)) as [[ids vals]|] eqn:E; [eauto|]. apply nth_error_None in E. unfold zlen in *. lia.
Qed.

(** Every sequential aggregation, with an exact answer. *)
Definition uses_footer (r : reader) (opts : aggOptions) : bool :=
  (zlen (r_index r) >? 0) && negb (o_skip opts) && negb (has_filter opts).

Definition answer (r : reader) (opts : aggOptions) (blocks : list block) : aggResult :=
  if has_filter opts && (zlen (matchingBlocks r (o_filter opts) (o_deny opts)) =? 0) then zeroResult
  else result_of (acc_of (chosen (o_filter opts) (o_deny opts) blocks)).

Lemma sequential_answer {Lw : SroarLaws Srr} r blocks opts : view r blocks ->
  (uses_footer r opts = true -> Forall no_min_stat blocks) ->
  aggregateSequential r opts = Ok (answer r opts blocks).
Proof.
  intros HV Hn. unfold aggregateSequential, answer. pose proof (v_indexed _ _ HV) as HI. unfold uses_footer in Hn.
  destruct (has_filter opts) eqn:Ef.
  - rewrite (filter_result r blocks) by exact HV. destruct (zlen _ =? 0); reflexivity.
  - assert (o_filter opts = None /\ o_deny opts = None) as [-> ->].
    { unfold has_filter in Ef. destruct (o_filter opts), (o_deny opts); try discriminate. auto. }
    cbn [andb]. rewrite chosen_none by apply HI. cbn [negb] in Hn. rewrite andb_true_r in Hn.
    destruct ((zlen (r_index r) >? 0) && negb (o_skip opts)).
    + rewrite (footer_result r blocks HI) by (apply Hn; reflexivity). reflexivity.
    + rewrite (scan_result r blocks HV). reflexivity.
Qed.

Lemma answer_aggregate {Lw : SroarLaws Srr} r blocks opts : indexed r blocks ->
  aggregate_of (chosen (o_filter opts) (o_deny opts) blocks) (answer r opts blocks).
Proof.
  intros HI. unfold answer. destruct (has_filter opts && _) eqn:E.
  - apply andb_true_iff in E. destruct E as [_ E]. apply Z.eqb_eq in E.
    rewrite <- (iterator_values r blocks _ _ HI).
    destruct (matchingBlocks r (o_filter opts) (o_deny opts)); [|rewrite zlen_cons in E; pose proof (zlen_nonneg l); lia].
    cbn [flat_map]. unfold aggregate_of, zeroResult. cbn. repeat split; try reflexivity; congruence.
  - apply result_aggregate; [apply chosen_i64|apply chosen_length]; apply HI.
Qed.

End Views.
