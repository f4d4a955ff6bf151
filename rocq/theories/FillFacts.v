(** A SimpleWriter fills its blocks (C68). *)
From Coq Require Import Sorting.Permutation.
From Verif Require Import Machine MachineFacts Encoding EncodingFacts FileIO Sroar Writer SimpleWriter Spec SimpleSpec FillSpec FileFacts
  WriterFacts BlockFacts FinalFacts Reader ReaderFacts DecodeFacts HistoryFacts RunFacts ReachFacts WriterProps Aggregate AggFacts SimpleFacts.
Ltac Zify.zify_post_hook ::= Z.div_mod_to_equations.

Section Fill.
Context {Srr : Sroar}.

Lemma pair_bytes_fixed e : pair_bytes e = if usesFixedWidth e then 16 else 20.
Proof.
  unfold pair_bytes, usesFixedWidth. destruct (e =? EncodingRaw), (e =? EncodingDeltaBoth), (e =? EncodingDeltaID), (e =? EncodingDeltaValue); reflexivity.
Qed.
Lemma claimed_le e ids vals : Forall is_u64 ids -> Forall is_i64 vals -> zlen ids = zlen vals ->
  claimed e ids vals <= 80 + pair_bytes e * zlen ids.
Proof.
  intros Hi Hv Hl. pose proof (id_claim_bounds e ids Hi). pose proof (val_claim_bounds e vals Hv).
  unfold claimed. rewrite pair_bytes_fixed. unfold id_claim, val_claim in *. destruct (usesFixedWidth e); lia.
Qed.

Lemma Forall_removelast {A} (P : A -> Prop) l : Forall P l -> Forall P (removelast l).
Proof.
  induction 1 as [|x l Hx H IH]; [constructor|]. destruct l as [|y l]; [constructor|]. change (removelast (x :: y :: l)) with (x :: removelast (y :: l)).
  constructor; assumption.
Qed.
Definition full (e t : Z) (x : pblock) : Prop :=
  1000 <= zlen (fst (snd x)) \/ t < pair_bytes e * (zlen (fst (snd x)) + 1) + 144.
Definition sized (e t : Z) (x : pblock) : Prop := zlen (image_of e x) <= t.
(** The same for one of several targets. *)
Definition fullP (e : Z) (P : Z -> Prop) (x : pblock) : Prop := exists t, P t /\ full e t x.
Definition sizedP (e : Z) (P : Z -> Prop) (x : pblock) : Prop := exists t, P t /\ sized e t x.

(** Where blocks start. *)
Lemma chain_aligned e L : forall start stop, Forall (fun x => good_block (snd x)) L -> chain e start L stop ->
  stop = start \/ stop mod 4096 = 0.
Proof.
  induction L as [|x L IH]; intros start stop HG; cbn [chain]; [auto|]. intros [Hs Hc]. inversion HG as [|? ? _ HG']; subst.
  right. destruct (IH _ _ HG' Hc) as [->|]; [|assumption].
  unfold image_of. rewrite zlen_block_image. rewrite Z.add_assoc. apply calculatePadding_aligned.
Qed.
Lemma chain_sized e t L : Forall (sized e t) L -> forall start stop, chain e start L stop -> stop <= start + t * zlen L.
Proof.
  induction 1 as [|x L Hx _ IH]; intros start stop; cbn [chain]; [intros ->; change (zlen (@nil pblock)) with 0; lia|].
  intros [_ Hc]. apply IH in Hc. unfold sized in Hx. change (x :: L) with ([x] ++ L). rewrite zlen_app. change (zlen [x]) with 1. lia.
Qed.

Definition SFill (e : Z) (P : Z -> Prop) (t : Z) (sw : swriter) (L : list pblock) (done : list (Z * Z)) : Prop :=
  Good True e t L (flat_map fst (map snd L)) True (sw_writer sw)
  /\ Forall (sizedP e P) L
  /\ all_pairs (map snd L) ++ combine (sw_pendingIDs sw) (sw_pendingValues sw) = done
  /\ zlen (sw_pendingIDs sw) = zlen (sw_pendingValues sw)
  /\ Forall is_u64 (sw_pendingIDs sw) /\ Forall is_i64 (sw_pendingValues sw).

Lemma write_fill e t ids vals w L : consistent e -> t mod 4096 = 0 -> 4096 <= t -> good_block (ids, vals) ->
  Good True e t L (flat_map fst (map snd L)) True w ->
  match WriteBlock ids vals w with
  | (Ok _, w') => exists p, Good True e t (L ++ [(p, (ids, vals))]) (flat_map fst (map snd (L ++ [(p, (ids, vals))]))) True w'
      /\ sized e t (p, (ids, vals))
  | (Err (ErrBlockFull n), w') => 1 <= n < zlen ids /\ exists p,
      Good True e t (L ++ [(p, (ztake n ids, ztake n vals))]) (flat_map fst (map snd (L ++ [(p, (ztake n ids, ztake n vals))]))) True w'
      /\ sized e t (p, (ztake n ids, ztake n vals)) /\ full e t (p, (ztake n ids, ztake n vals))
  | _ => False
  end.
Proof.
  intros He Ht Ht0 Hg (wg & D & Hw & HD & HB & HP & HA & HC).
  assert (Hflat : forall x, flat_map fst (map snd (L ++ [x])) = flat_map fst (map snd L) ++ fst (snd x)).
  { intros x. rewrite map_app, flat_map_app. cbn [map flat_map]. rewrite app_nil_r. reflexivity. }
  destruct (HC I) as (HC1 & _ & _).
  assert (Hal : zlen D = 64 \/ zlen D mod 4096 = 0).
  { apply (chain_aligned e L 64); [|exact HC1]. eapply Forall_impl; [|exact HP]. intros x Hx. apply Hx. }
  assert (B1 : w_enc wg = e) by (destruct HB as (B1 & _); exact B1).
  assert (B2 : w_target wg = t) by (destruct HB as (_ & B2 & _); exact B2).
  assert (Hdec : declared (w_enc wg)) by (rewrite B1; unfold declared; unfold consistent in He; lia).
  pose proof (WriteBlock_rule True wg D ids vals Hdec Hg w Hw) as T.
  assert (Hg' := Hg). destruct Hg' as (Hi & Hv & Hl & Hn). cbn [fst snd] in Hi, Hv, Hl, Hn.
  assert (Small : forall i v, good_block (i, v) -> zlen i = 1 -> estimate e (zlen D) i v <= t).
  { intros i v (Gi & Gv & Gl & _) G1. cbn [fst snd] in *. pose proof (claimed_le e i v Gi Gv Gl) as C.
    rewrite pair_bytes_fixed, G1 in C. assert (C' : claimed e i v <= 100) by (destruct (usesFixedWidth e); lia).
    pose proof (padded_mono (zlen D) (claimed e i v) 100 C') as M. unfold estimate.
    enough (100 + calculatePadding (zlen D + 100) PageSize <= 4096) by lia. clear - Hal. unfold calculatePadding, PageSize.
    destruct (Z.eqb_spec ((zlen D + 100) mod 4096) 0); lia. }
  assert (Fill : forall n, 1 <= n < zlen ids -> t < est_at wg D ids vals (n + 1) -> t < pair_bytes e * (n + 1) + 144).
  { intros n Hn' H. unfold est_at in H. rewrite B1 in H. unfold estimate in H.
    pose proof (claimed_le e (ztake (n + 1) ids) (ztake (n + 1) vals) ltac:(apply Forall_ztake; exact Hi) ltac:(apply Forall_ztake; exact Hv)
      ltac:(rewrite !zlen_ztake; lia)) as C.
    rewrite zlen_ztake in C. replace (Z.min (Z.max 0 (n + 1)) (zlen ids)) with (n + 1) in C by lia.
    set (c := claimed _ _ _) in *. set (b := pair_bytes e * (n + 1)) in *. clearbody c b. clear - H C Hal Ht Ht0.
    unfold calculatePadding, PageSize in H. destruct (Z.eqb_spec ((zlen D + c) mod 4096) 0); lia. }
  destruct (WriteBlock ids vals w) as [[a|er|] w']; [| |contradiction].
  - destruct T as [Hs Hf]. exists (zlen D). rewrite Hflat. split; [eapply stored_at_good; eassumption|].
    unfold sized, image_of. cbn [fst snd]. destruct Hs as (S1 & S2 & _). rewrite B1 in *. rewrite <- (estimate_image e _ _ _ S1 S2).
    destruct Hf as [Hf|Hf]; [apply Small; assumption|lia].
  - destruct T as [(-> & Hnf & _)|[(n & -> & Hn' & Hf & Hm & Hs)|(n & Hn' & Hbe & _)]].
    + exfalso. exact (Hnf I).
    + split; [exact Hn'|]. exists (zlen D). rewrite Hflat.
      assert (Hgn : good_block (ztake n ids, ztake n vals)) by (apply good_block_prefix; [assumption|lia]).
      split; [eapply stored_at_good; eassumption|].
      unfold sized, image_of, full. cbn [fst snd]. destruct Hs as (S1 & S2 & _). rewrite B1 in *. rewrite <- (estimate_image e _ _ _ S1 S2).
      split.
      * destruct Hf as [Hf|Hf]; [|unfold est_at in Hf; rewrite B1 in Hf; lia]. apply Small; [exact Hgn|]. rewrite zlen_ztake. lia.
      * right. rewrite zlen_ztake. replace (Z.min (Z.max 0 n) (zlen ids)) with n by lia. apply Fill; [exact Hn'|]. rewrite <- B2.
        apply Hm; [exact I|lia].
    + exfalso. destruct Hbe as [(_ & Hnf & _)|[(_ & Hnf & _)|([(_ & Hnf)|(_ & Hnc)] & _)]]; try exact (Hnf I). rewrite B1 in Hnc. exact (Hnc He).
Qed.

Lemma flush_fill e (P : Z -> Prop) t fuel force : consistent e -> P t -> t mod 4096 = 0 -> 4096 <= t -> forall sw L done, SFill e P t sw L done ->
  zlen (sw_pendingIDs sw) <= max_items -> (length (sw_pendingIDs sw) < fuel)%nat ->
  exists sw' M, flushIfNeeded fuel force sw = (Ok tt, sw') /\ SFill e P t sw' (L ++ M) done
    /\ Forall (fullP e P) (removelast M) /\ (force = false -> Forall (fullP e P) M).
Proof.
  intros He HPt Ht Ht0. induction fuel as [|fuel IH]; intros sw L done Hi Hm Hf; [lia|]. cbn [flushIfNeeded].
  destruct (Z.eqb_spec (zlen (sw_pendingIDs sw)) 0) as [E0|N0].
  { exists sw, []. rewrite app_nil_r. repeat split; try (exact (proj1 Hi) || apply Hi); constructor. }
  destruct (if force then true else zlen (sw_pendingIDs sw) >=? 1000) eqn:Hs.
  2:{ exists sw, []. rewrite app_nil_r. repeat split; try (exact (proj1 Hi) || apply Hi); constructor. }
  destruct Hi as (Hg & Hz & Hd & Hl & Hu & Hv).
  assert (Hty : typed_block (sw_pendingIDs sw) (sw_pendingValues sw)) by (repeat split; try assumption; lia).
  pose proof (write_fill e t _ _ _ _ He Ht Ht0 (typed_good _ _ Hty Hl N0) Hg) as T.
  destruct (WriteBlock _ _ (sw_writer sw)) as [[u|er|] w']; [| |contradiction].
  - destruct T as (p & T1 & T2). eexists _, [_]. split; [reflexivity|]. split.
    { split; [exact T1|]. split; [apply Forall_app; split; [exact Hz|constructor; [exists t; split; [exact HPt|exact T2]|constructor]]|]. cbn [sw_pendingIDs sw_pendingValues combine].
      split; [|repeat split; constructor]. rewrite app_nil_r, map_app, all_pairs_app. cbn [map all_pairs flat_map pairs_of fst snd]. rewrite app_nil_r. exact Hd. }
    cbn [removelast]. split; [constructor|]. intros ->. constructor; [|constructor]. exists t. split; [exact HPt|]. left. cbn [fst snd]. lia.
  - destruct er; try contradiction. rename itemsWritten into n. destruct T as (Hn & p & T1 & T2 & T3).
    assert (Hz' : zlen (zdrop n (sw_pendingIDs sw)) = zlen (sw_pendingIDs sw) - n) by (rewrite zlen_zdrop; lia).
    match goal with |- context [flushIfNeeded fuel force ?x] =>
      destruct (IH x (L ++ [(p, (ztake n (sw_pendingIDs sw), ztake n (sw_pendingValues sw)))]) done) as (sw' & M & E & S & F1 & F2) end.
    + split; [exact T1|]. split; [apply Forall_app; split; [exact Hz|constructor; [exists t; split; [exact HPt|exact T2]|constructor]]|]. cbn [sw_pendingIDs sw_pendingValues].
      split; [|rewrite !zlen_zdrop; split; [lia|split; apply Forall_zdrop; assumption]].
      rewrite map_app, all_pairs_app. cbn [map all_pairs flat_map pairs_of fst snd]. rewrite app_nil_r, <- app_assoc.
      unfold pairs_of. cbn [fst snd]. rewrite <- combine_split_at by exact Hl. exact Hd.
    + cbn [sw_pendingIDs]. lia.
    + cbn [sw_pendingIDs]. unfold zlen in *. lia.
    + exists sw', ((p, (ztake n (sw_pendingIDs sw), ztake n (sw_pendingValues sw))) :: M). split; [exact E|].
      split; [rewrite <- app_assoc in S; exact S|]. split.
      * destruct M as [|m M]; cbn [removelast]; [constructor|]. constructor; [exists t; split; [exact HPt|exact T3]|exact F1].
      * intros Hfo. constructor; [exists t; split; [exact HPt|exact T3]|apply F2; exact Hfo].
Qed.

(** A closed SimpleWriter. *)
Definition SFilled (e : Z) (P : Z -> Prop) (t : Z) (sw : swriter) (done : list (Z * Z)) : Prop :=
  exists L now X off, all_pairs (map snd L) = done
    /\ finalized (file_of sw) X now e t L (fold_left bm_set (flat_map fst (map snd L)) bm_new) off
    /\ w_blockCount (sw_writer sw) = zlen L
    /\ w_ids (sw_writer sw) = fold_left bm_set (flat_map fst (map snd L)) bm_new
    /\ Forall (fullP e P) (removelast L) /\ Forall (sizedP e P) L
    /\ forall m, (forall t', P t' -> t' <= m) -> zlen (file_of sw) <= 64 + m * zlen L + 4 + zlen (bm_ser (w_ids (sw_writer sw))) + 4095 + 28 + 56 * zlen L.

Definition SFillState (e : Z) (P : Z -> Prop) (t : Z) (sw : swriter) (done : list (Z * Z)) : Prop :=
  (sw_closed sw = false /\ zlen (sw_pendingIDs sw) < 1000 /\ (exists total, balanced total sw)
     /\ exists L, SFill e P t sw L done /\ Forall (fullP e P) L)
  \/ (sw_closed sw = true /\ SFilled e P t sw done).

Lemma Finalize_size e t m L A now w w' u : Good True e t L A True w -> Finalize now w = (Ok u, w') -> Forall (sized e m) L ->
  zlen (f_data (w_file w')) <= 64 + m * zlen L + 4 + zlen (bm_ser (w_ids w')) + 4095 + 28 + 56 * zlen L
  /\ exists X off, finalized (f_data (w_file w')) X now e t L (fold_left bm_set A bm_new) off.
Proof.
  intros (wg & D & Hw & HD & HB & HP & HA & HC) Ef Hz.
  destruct (final_finalized e t L A now wg D (zlen D) (or_introl HB) ltac:(auto) ltac:(lia) HP HA) as (F1 & _ & _).
  destruct HB as (B1 & B2 & B3 & B4 & B5 & B6). destruct (HC I) as (HC1 & _ & _).
  pose proof (Finalize_rule True wg D (zlen D) now ltac:(lia)) as T.
  rewrite B4, B5, B6, !zlen_map in T. specialize (T (zlen_nonneg L) eq_refl eq_refl w Hw). rewrite Ef in T. destruct T as [_ T].
  destruct T as (fs & -> & _). cbn [set_file w_file f_data w_ids].
  split; [|eexists _, _; exact F1]. clear F1.
  pose proof (chain_sized e m L Hz 64 _ HC1) as HS. clear Ef.
  unfold final_data. rewrite !zlen_app. rewrite zlen_zeros.
  unfold with_header, with_bitmap. rewrite overwrite_end by reflexivity. set (b := bitmap_bytes (w_ids wg)).
  assert (Hb : zlen b = 4 + zlen (bm_ser (w_ids wg))) by (unfold b, bitmap_bytes; rewrite zlen_app, zlen_le_bytes; reflexivity).
  rewrite zlen_app, zlen_header_bytes, zlen_zdrop, zlen_app, Hb.
  set (q := _ + Z.max 0 _). pose proof (padding_bounds q) as P. pose proof (zlen_nonneg (bm_ser (w_ids wg))).
  assert (Q : q = zlen D + 4 + zlen (bm_ser (w_ids wg))) by (unfold q; lia). specialize (P ltac:(lia)).
  assert (F : zlen (footer_bytes (w_blockCount wg) (if w_blockCount wg >? 0 then entries_of wg else [])) <= 28 + 56 * zlen L).
  { unfold footer_bytes. rewrite !zlen_app, !zlen_le_bytes.
    assert (C : forall E : list (list Z), (forall x, In x E -> zlen x = 56) -> zlen (concat E) = 56 * zlen E).
    { clear. induction E as [|x E IH]; intros H; [reflexivity|]. cbn [concat]. rewrite zlen_app, (H x (or_introl eq_refl)), IH by (intros y Hy; apply H; right; exact Hy).
      change (x :: E) with ([x] ++ E). rewrite (zlen_app [x] E). change (zlen [x]) with 1. lia. }
    rewrite C.
    - destruct (w_blockCount wg >? 0); [|change (zlen (@nil (list Z))) with 0; pose proof (zlen_nonneg L); lia].
      unfold entries_of. rewrite zlen_map. unfold zlen. rewrite !combine_length. assert (length (w_positions wg) = length L) by (rewrite B3, map_length; reflexivity).
      lia.
    - intros x. destruct (w_blockCount wg >? 0); [|intros []]. unfold entries_of. intros Hx. apply in_map_iff in Hx.
      destruct Hx as ((p & s & st) & <- & _). apply zlen_entry_bytes. }
  change PageSize with 4096 in *. lia.
Qed.

Lemma Finalize_done e t L A now w w' u : Good True e t L A True w -> Finalize now w = (Ok u, w') ->
  exists X off, finalized (f_data (w_file w')) X now e t L (fold_left bm_set A bm_new) off.
Proof.
  intros (wg & D & Hw & HD & HB & HP & HA & HC) Ef.
  destruct (final_finalized e t L A now wg D (zlen D) (or_introl HB) ltac:(auto) ltac:(lia) HP HA) as (F1 & _ & _).
  destruct HB as (B1 & B2 & B3 & B4 & B5 & B6).
  pose proof (Finalize_rule True wg D (zlen D) now ltac:(lia)) as T.
  rewrite B4, B5, B6, !zlen_map in T. specialize (T (zlen_nonneg L) eq_refl eq_refl w Hw). rewrite Ef in T. destruct T as [_ T].
  destruct T as (fs & -> & _). cbn [set_file w_file f_data]. eexists _, _. exact F1.
Qed.

Lemma call_fill srt e (P : Z -> Prop) t c sw done : sorts srt -> consistent e -> P t -> t mod 4096 = 0 -> 4096 <= t -> typed_scall c -> (forall s, c <> SCSetTarget s) ->
  SFillState e P t sw done ->
  let '(r, sw') := run_scall srt c sw in SFillState e P t sw' (done ++ adds srt (c, r)).
Proof.
  intros Hs He HPt Ht Ht0 Hty Hk HS. destruct HS as [(Hc & Hp & (total & Hb) & L & Hi & Hfu)|(Hc & Hd)].
  2:{ assert (X : SFillState e P t sw (done ++ [])) by (rewrite app_nil_r; right; auto).
      destruct c as [ids vals|size|now]; cbn [run_scall]; unfold SWrite, SetTargetBlockSize, SClose; rewrite Hc; exact X. }
  assert (X : SFillState e P t sw (done ++ [])) by (rewrite app_nil_r; left; eauto 10).
  destruct c as [ids vals|size|now]; cbn [run_scall]; [|destruct (Hk size eq_refl)|].
  - destruct (Z.eq_dec (zlen ids) (zlen vals)) as [El|Nl].
    2:{ unfold SWrite. rewrite Hc. replace (zlen ids =? zlen vals) with false by lia. exact X. }
    destruct (list_eq_dec Z.eq_dec ids []) as [->|Nn].
    { unfold SWrite. rewrite Hc. replace (zlen [] =? zlen vals) with true by lia. cbn [negb]. change (zlen [] =? 0) with true. cbv iota.
      replace (adds srt (SCWrite [] vals, Ok tt)) with (@nil (Z * Z)) by (unfold adds, arrange; cbn; reflexivity). exact X. }
    rewrite SWrite_eq by assumption. pose proof (zlen_arrange srt ids vals Hs El) as La.
    destruct Hty as (Ty1 & Ty2 & Ty3).
    unfold adds. cbn [fst snd].
    set (b := arrange srt (combine ids vals)) in *.
    match goal with |- context [flush false ?x] => set (sw1 := x) end.
    assert (Hb1 : balanced (total + zlen ids) sw1).
    { destruct Hb as (B1 & B2 & B3). unfold balanced, sw1. cbn [sw_pendingIDs sw_pendingValues sw_totalItems]. rewrite !zlen_app, !zlen_map, La.
      split; [lia|]. split; [rewrite B2; f_equal; lia|lia]. }
    assert (Hi1 : SFill e P t sw1 L (done ++ b)).
    { destruct Hi as (Hg & Hz & Hd & Hl & Hu & Hv). unfold sw1. unfold SFill. cbn [sw_writer sw_pendingIDs sw_pendingValues].
      assert (Pb : Permutation (combine ids vals) b) by (apply arrange_perm; exact Hs).
      split; [exact Hg|]. split; [exact Hz|].
      split.
      { rewrite combine_app' by (unfold zlen in Hl; lia). rewrite app_assoc, Hd. f_equal. clear.
        induction b as [|[x y] b IH]; [reflexivity|]. cbn. f_equal. exact IH. }
      split; [rewrite !zlen_app, !zlen_map; lia|]. split; apply Forall_app; split; try assumption; apply Forall_map.
      - eapply Permutation_Forall; [exact Pb|]. apply Forall_forall. intros [x y] Hin. apply in_combine_l in Hin. rewrite Forall_forall in Ty1. apply Ty1. exact Hin.
      - eapply Permutation_Forall; [exact Pb|]. apply Forall_forall. intros [x y] Hin. apply in_combine_r in Hin. rewrite Forall_forall in Ty2. apply Ty2. exact Hin. }
    assert (Hm : zlen (sw_pendingIDs sw1) <= max_items).
    { unfold sw1. cbn [sw_pendingIDs]. rewrite zlen_app, zlen_map, La. unfold max_items. lia. }
    destruct (flush_fill e P t (S (length (sw_pendingIDs sw1))) false He HPt Ht Ht0 sw1 L (done ++ b) Hi1 Hm ltac:(lia)) as (sw' & M & E & T & _ & F).
    pose proof (flush_balanced (S (length (sw_pendingIDs sw1))) false sw1 _ Hb1 ltac:(lia)) as U.
    unfold flush. rewrite E in *. destruct U as (U1 & U0 & U2 & _). left. split; [rewrite U0; exact Hc|].
    split; [apply U2; reflexivity|]. split; [eauto|]. exists (L ++ M). split; [exact T|]. apply Forall_app. split; [exact Hfu|apply F; reflexivity].
  - unfold SClose. rewrite Hc. unfold adds. cbn [fst snd].
    destruct (flush_fill e P t (S (length (sw_pendingIDs sw))) true He HPt Ht Ht0 sw L done Hi ltac:(unfold max_items; lia) ltac:(lia)) as (sw1 & M & E & T & F & _).
    pose proof (flush_balanced (S (length (sw_pendingIDs sw))) true sw _ Hb ltac:(lia)) as U.
    unfold flush. rewrite E in *. destruct U as (_ & _ & U & _). destruct (U eq_refl) as [_ U1]. specialize (U1 eq_refl).
    destruct T as (Hg & Hz & Hd & Hl & _). rewrite U1 in Hd. cbn [combine] in Hd. rewrite app_nil_r in Hd.
    pose proof (Finalize_good True e t (L ++ M) _ True now _ Hg) as G. unfold FinalizeAndClose, mbind.
    destruct (Finalize now (sw_writer sw1)) as [[u|er|] w1] eqn:EF; [|exfalso; apply (proj1 G); exact I|contradiction].
    destruct (Finalize_done e t _ _ _ _ _ _ Hg EF) as (X0 & off & HF).
    assert (Hsz : forall m, (forall t', P t' -> t' <= m) ->
      zlen (f_data (w_file w1)) <= 64 + m * zlen (L ++ M) + 4 + zlen (bm_ser (w_ids w1)) + 4095 + 28 + 56 * zlen (L ++ M)).
    { intros m Hm. apply (Finalize_size e t m _ _ _ _ _ _ Hg EF). eapply Forall_impl; [|exact Hz].
      intros x (t' & Pt' & Hx). specialize (Hm t' Pt'). unfold sized in *. lia. } destruct G as (Fg & _ & F3 & F4 & _).
    pose proof (closeFile_closes w1) as (C1 & C2 & C3 & C4 & _).
    assert (Q : exists u, fst (closeFile w1) = Ok u).
    { destruct Fg as (wg & D & (fs & -> & Hfs) & _). specialize (Hfs I). unfold closeFile, mfile, file_close.
      cbn [w_file set_file f_open f_faults]. destruct fs as [|[|k] fs]; cbn; eauto. inversion Hfs; discriminate. }
    destruct Q as [u' Q]. destruct (closeFile w1) as [r2 w2]; cbn [fst snd] in *. subst r2. right. split; [reflexivity|].
    rewrite app_nil_r. exists (L ++ M), now, X0, off. unfold file_of, bytes_of. cbn [sw_writer]. rewrite C2, C3, C4.
    split; [exact Hd|]. split; [exact HF|]. split; [exact F3|]. split; [exact F4|].
    split; [|split; [exact Hz|exact Hsz]].
    destruct M as [|m M]; [rewrite app_nil_r; apply Forall_removelast; exact Hfu|].
    rewrite removelast_app by discriminate. apply Forall_app. split; [exact Hfu|exact F].
Qed.

Lemma target_fill srt e P t size sw done : SFillState e P t sw done ->
  let '(r, sw') := run_scall srt (SCSetTarget size) sw in
  SFillState e P (match r with Ok _ => u32 size | _ => t end) sw' done.
Proof.
  intros [(Hc & Hp & Hb & L & ((wg & D & (fs & Hw & Hfs) & HD & (B1 & B2 & B3 & B4 & B5 & B6) & HPl & HA & HC) & Hrest) & Hfu)|(Hc & Hd)];
    cbn [run_scall]; unfold SetTargetBlockSize; rewrite Hc; [left|right; auto].
  split; [reflexivity|]. split; [exact Hp|]. split; [exact Hb|]. exists L. split; [|exact Hfu]. split; [|exact Hrest].
  cbn [sw_writer]. rewrite Hw. exists (set_target wg (u32 size)), D. split; [exists fs; split; [reflexivity|exact Hfs]|].
  split; [exact HD|]. split; [repeat split; assumption|]. split; [exact HPl|]. split; [exact HA|exact HC].
Qed.

Lemma history_fill srt e (P : Z -> Prop) cs : sorts srt -> consistent e -> Forall typed_scall cs -> forall t sw done outs sw',
  Forall (fun t => P t /\ t mod 4096 = 0 /\ 4096 <= t) (in_force t (combine cs outs)) ->
  SFillState e P t sw done -> run_scalls srt cs sw = (outs, sw') ->
  SFillState e P (settled t (combine cs outs)) sw' (done ++ flat_map (adds srt) (combine cs outs)).
Proof.
  intros Hs He. induction 1 as [|c cs Hc _ IH]; intros t sw done outs sw' Hk HS H; cbn [run_scalls] in H.
  - injection H as <- <-. cbn. rewrite app_nil_r. exact HS.
  - pose proof (call_fill srt e P t c sw done Hs He) as T. pose proof (fun size => target_fill srt e P t size sw done HS) as T'.
    destruct (run_scall srt c sw) as [r sw1] eqn:Er.
    destruct (run_scalls srt cs sw1) as [rs sw2] eqn:E. injection H as <- <-. cbn [combine flat_map] in *. rewrite app_assoc.
    destruct c as [ids vals|size|now].
    + cbn [in_force settled] in *. inversion Hk as [|? ? (K1 & K2 & K3) K4]; subst.
      eapply IH; [exact K4| |exact E]. apply (T K1 K2 K3 Hc); [discriminate|exact HS].
    + specialize (T' size). rewrite Er in T'. replace (adds srt (SCSetTarget size, r)) with (@nil (Z * Z)) by (destruct r; reflexivity).
      rewrite app_nil_r. destruct r as [u|er|]; cbn [in_force settled] in *; eapply IH; try exact E; try exact Hk; exact T'.
    + cbn [in_force settled] in *. inversion Hk as [|? ? (K1 & K2 & K3) K4]; subst.
      eapply IH; [exact K4| |exact E]. apply (T K1 K2 K3 Hc); [discriminate|exact HS].
Qed.

Lemma new_fill now options faults sw P : fault_free faults -> Forall typed_option options ->
  NewSimpleWriter now options faults = Ok sw -> SFillState (encoding_of options) P (target_of options) sw [].
Proof.
  intros Hn Ho H. destruct (NewSimple_fresh _ _ _ _ H) as (w & f & Hw & ->). left. split; [reflexivity|]. split; [reflexivity|].
  split; [exists 0; repeat split; cbn; lia|].
  pose proof (NewWriter_good True now options faults w f (fun _ => Hn) Hw) as Hg. exists []. split; [|constructor].
  split; [exact Hg|]. repeat split; constructor.
Qed.

Lemma settled_u32 h : forall t, is_u32 t -> is_u32 (settled t h).
Proof.
  induction h as [|[[ids vals|size|now] r] h IH]; intros t Ht; cbn [settled]; auto. apply IH. destruct r; auto.
  change two32 with 4294967296 in *. unfold is_u32, two32 in *. lia.
Qed.

Theorem filled_any srt options faults h sw : simple_run srt options faults h sw -> sorts srt -> fault_free faults ->
  faithful (encoding_of options) ->
  Forall (fun t => t mod 4096 = 0 /\ 4096 <= t) (in_force (target_of options) h) ->
  IsClosed sw = true -> fits (sw_writer sw) (file_of sw) ->
  exists r blocks, NewReader (file_of sw) = Ok r /\ view r blocks
    /\ all_pairs blocks = concat (map (arrange srt) (written h))
    /\ h_blockSizeTarget (r_header r) = settled (target_of options) h
    /\ Forall (fun b => exists t, In t (in_force (target_of options) h) /\
         (1000 <= zlen (fst b) \/ t < pair_bytes (encoding_of options) * (zlen (fst b) + 1) + 144)) (removelast blocks)
    /\ Forall (fun en => exists t, In t (in_force (target_of options) h) /\ e_size en <= t) (r_index r)
    /\ forall m, (forall t, In t (in_force (target_of options) h) -> t <= m) ->
         zlen (file_of sw) <= 64 + m * BlockCount r + h_bitmapSize (r_header r) + 4095 + 28 + 56 * BlockCount r.
Proof.
  intros [now0 sw0 cs outs Hnew Hopt Hty Hrun ->] Hs Hff Hfa Hk Hcl Hfit.
  assert (He : consistent (encoding_of options)).
  { unfold faithful, EncodingRaw, EncodingDeltaBoth, EncodingVarInt, EncodingVarIntBoth in Hfa. unfold consistent. tauto. }
  set (P := fun t => In t (in_force (target_of options) (combine cs outs))).
  pose proof (new_fill now0 options faults sw0 P Hff Hopt Hnew) as H0.
  assert (Hk' : Forall (fun t => P t /\ t mod 4096 = 0 /\ 4096 <= t) (in_force (target_of options) (combine cs outs))).
  { apply Forall_forall. intros t Ht. split; [exact Ht|]. rewrite Forall_forall in Hk. exact (Hk t Ht). }
  pose proof (history_fill srt _ P cs Hs He Hty _ _ _ _ _ Hk' H0 Hrun) as [(Hc & _)|(_ & Hd)]; [unfold IsClosed in Hcl; congruence|].
  destruct Hd as (L & now & X & off & Hp & HF & Hcnt & Hids & HFu & HZ & HSz).
  assert (Hlim : within_limits (file_of sw) (encoding_of options) (settled (target_of options) (combine cs outs)) L (fold_left bm_set (flat_map fst (map snd L)) bm_new)).
  { destruct Hfit as [F1 F2 F3]. constructor; [exact F1|unfold pblock in *; rewrite <- Hcnt; exact F2|apply configured_typed; exact Hopt|apply settled_u32; apply configured_typed; exact Hopt|rewrite <- Hids; exact F3]. }
  eexists _, (map snd L). split; [eapply NewReader_finalized; eassumption|].
  assert (HV := finalized_view _ _ _ _ _ _ _ _ HF Hlim Hfa). split; [exact HV|].
  split; [rewrite Hp; cbn [app]; apply adds_written|].
  split; [reflexivity|].
  split.
  { replace (removelast (map snd L)) with (map snd (removelast L)).
    - apply Forall_map. exact HFu.
    - clear. induction L as [|x [|y L] IH]; try reflexivity. cbn [map removelast] in *. f_equal. exact IH. }
  split.
  { cbn [the_reader r_index]. apply Forall_map. eapply Forall_impl; [|exact HZ]. intros x Hx. exact Hx. }
  intros m Hm. specialize (HSz m Hm).
  match goal with |- _ <= _ + _ * ?b + ?s + _ + _ + 56 * ?b =>
    change b with (zlen L); change s with (4 + zlen (bm_ser (fold_left bm_set (flat_map fst (map snd L)) bm_new))) end.
  rewrite <- Hids. clear - HSz. unfold pblock in *. lia.
Qed.

Lemma kept_in_force h : target_kept h -> forall t t', In t' (in_force t h) -> t' = t.
Proof.
  induction h as [|[[ids vals|size|now] r] h IH]; intros Hk t t'; cbn [in_force]; [contradiction| | |].
  - intros [<-|Hin]; [reflexivity|]. apply IH; [|exact Hin]. intros s q Hq. apply (Hk s q). right. exact Hq.
  - destruct (Hk size r (or_introl eq_refl)).
  - intros [<-|Hin]; [reflexivity|]. apply IH; [|exact Hin]. intros s q Hq. apply (Hk s q). right. exact Hq.
Qed.

Theorem filled srt options faults h sw : simple_run srt options faults h sw -> sorts srt -> fault_free faults ->
  faithful (encoding_of options) -> target_of options mod 4096 = 0 -> 4096 <= target_of options -> target_kept h ->
  IsClosed sw = true -> fits (sw_writer sw) (file_of sw) ->
  exists r blocks, NewReader (file_of sw) = Ok r /\ view r blocks
    /\ all_pairs blocks = concat (map (arrange srt) (written h))
    /\ Forall (fun b => 1000 <= zlen (fst b) \/ target_of options < pair_bytes (encoding_of options) * (zlen (fst b) + 1) + 144) (removelast blocks)
    /\ Forall (fun en => e_size en <= target_of options) (r_index r)
    /\ zlen (file_of sw) <= 64 + target_of options * BlockCount r + h_bitmapSize (r_header r) + 4095 + 28 + 56 * BlockCount r.
Proof.
  intros Hr Hs Hff Hfa Ht Ht0 Hk Hcl Hfit. pose proof (kept_in_force h Hk (target_of options)) as K.
  destruct (filled_any srt options faults h sw Hr Hs Hff Hfa) as (r & blocks & R1 & R2 & R3 & _ & R4 & R5 & R6); try assumption.
  { apply Forall_forall. intros t Hin. rewrite (K t Hin). auto. }
  exists r, blocks. repeat (split; [assumption|]). split; [|split].
  - eapply Forall_impl; [|exact R4]. intros b (t & Hin & Hb). rewrite (K t Hin) in Hb. exact Hb.
  - eapply Forall_impl; [|exact R5]. intros en (t & Hin & Hen). rewrite (K t Hin) in Hen. exact Hen.
  - apply R6. intros t Hin. rewrite (K t Hin). lia.
Qed.

Lemma few_blocks (k : Z) (blocks : list block) : 0 <= k ->
  Forall (fun b => zlen (fst b) = zlen (snd b)) blocks ->
  Forall (fun b => k <= zlen (fst b)) (removelast blocks) -> k * (zlen blocks - 1) <= zlen (all_pairs blocks).
Proof.
  intros Hk. induction blocks as [|b [|b' l] IH]; intros H1 H2.
  - change (zlen (@nil block)) with 0. change (zlen (all_pairs [])) with 0. lia.
  - change (zlen [b]) with 1. pose proof (zlen_nonneg (all_pairs [b])). lia.
  - change (removelast (b :: b' :: l)) with (b :: removelast (b' :: l)) in H2. inversion H2 as [|? ? G1 G2]; subst. inversion H1 as [|? ? G3 G4]; subst.
    specialize (IH G4 G2). change (all_pairs (b :: b' :: l)) with (pairs_of b ++ all_pairs (b' :: l)). rewrite zlen_app.
    unfold pairs_of. rewrite zlen_combine by exact G3. change (b :: b' :: l) with ([b] ++ (b' :: l)). rewrite (zlen_app [b]). change (zlen [b]) with 1. lia.
Qed.
Lemma zlen_arranged srt bs : sorts srt -> zlen (concat (map (arrange srt) bs)) = zlen (concat bs).
Proof.
  intros Hs. induction bs as [|b bs IH]; [reflexivity|]. cbn [map concat]. rewrite !zlen_app, IH. f_equal. unfold zlen.
  rewrite (Permutation_length (arrange_perm srt b Hs)). reflexivity.
Qed.
End Fill.
