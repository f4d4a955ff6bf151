(** Finalize, NewWriter, and calls made after a failed block write. *)
From Verif Require Import Machine MachineFacts Encoding EncodingFacts FileIO Sroar Writer Spec FileFacts WriterFacts BlockFacts.
Ltac Zify.zify_post_hook ::= Z.div_mod_to_equations.

Lemma overwrite_overwrite D p a b : 0 <= p <= zlen D ->
  overwrite (overwrite D p a) (p + zlen a) b = overwrite D p (a ++ b).
Proof.
  intros Hp. destruct a as [|x a].
  { cbn [app]. change (overwrite D p []) with D. rewrite zlen_nil, Z.add_0_r. reflexivity. }
  destruct b as [|y b]. { rewrite app_nil_r. reflexivity. }
  assert (Hz : forall n, p + n <= zlen D \/ zlen D < p + n) by (intros; lia).
  unfold overwrite at 2 3. cbn [app].
  change (x :: a ++ zdrop (p + zlen (x :: a)) D) with ((x :: a) ++ zdrop (p + zlen (x :: a)) D).
  change (x :: a ++ y :: b) with ((x :: a) ++ y :: b).
  set (A := x :: a) in *. set (B := y :: b).
  rewrite (zeros_nil (p - zlen D)) by lia. cbn [app].
  change (x :: (a ++ B) ++ zdrop (p + zlen (A ++ B)) D) with ((A ++ B) ++ zdrop (p + zlen (A ++ B)) D).
  unfold overwrite. fold B. change (match B with [] => _ | _ :: _ => ?u end) with u.
  pose proof (zlen_nonneg A). pose proof (zlen_nonneg B).
  assert (LT : zlen (ztake p D) = p) by (rewrite zlen_ztake; lia).
  rewrite (app_assoc (ztake p D) A).
  rewrite ztake_app_exact by (rewrite zlen_app; lia).
  rewrite (zeros_nil (p + zlen A - _)) by (rewrite !zlen_app, zlen_zdrop; lia).
  cbn [app]. rewrite zdrop_app_r by (rewrite zlen_app; lia).
  rewrite zdrop_zdrop by (rewrite ?zlen_app; lia).
  rewrite <- !app_assoc. do 4 f_equal. rewrite !zlen_app. lia.
Qed.

Definition header_bytes (now count target enc off size : Z) : list Z :=
  concat (headerFields now count target enc off size).
Lemma zlen_header_bytes now count target enc off size : zlen (header_bytes now count target enc off size) = 60.
Proof. unfold header_bytes, headerFields. cbn [concat]. rewrite !zlen_app, !zlen_le_bytes. reflexivity. Qed.

Definition entry_bytes (p s : Z) (st : blockStats) : list Z :=
  le_bytes 8 p ++ le_bytes 4 (u32 s) ++ le_bytes 8 (st_minID st) ++ le_bytes 8 (st_maxID st)
  ++ le_bytes 8 (int64ToUint64 (st_minValue st)) ++ le_bytes 8 (int64ToUint64 (st_maxValue st))
  ++ le_bytes 8 (int64ToUint64 (st_sum st)) ++ le_bytes 4 (st_count st).
Lemma zlen_entry_bytes p s st : zlen (entry_bytes p s st) = 56.
Proof. unfold entry_bytes. rewrite !zlen_app, !zlen_le_bytes. reflexivity. Qed.

Definition footer_bytes (count : Z) (entries : list (list Z)) : list Z :=
  le_bytes 4 (u32 count) ++ concat entries ++ le_bytes 8 (4 + zlen (concat entries))
  ++ le_bytes 8 0 ++ le_bytes 8 MagicNumber.

Section Final.
Context {Srr : Sroar}.

Definition bitmap_bytes (b : bm) : list Z := le_bytes 4 (u32 (zlen (bm_ser b))) ++ bm_ser b.
Definition entries_of (w : writer) : list (list Z) :=
  map (fun '(p, (s, st)) => entry_bytes p s st)
      (combine (w_positions w) (combine (w_sizes w) (w_stats w))).

(** The bytes of the file after Finalize, from contents [D] and offset [p]. *)
Definition with_bitmap (wg : writer) (D : list Z) (p : Z) : list Z := overwrite D p (bitmap_bytes (w_ids wg)).
Definition with_header (wg : writer) (now : Z) (D : list Z) (p : Z) : list Z :=
  header_bytes now (w_blockCount wg) (w_target wg) (w_enc wg) p (4 + zlen (bm_ser (w_ids wg)))
  ++ zdrop 60 (with_bitmap wg D p).
Definition final_data (wg : writer) (now : Z) (D : list Z) (p : Z) : list Z :=
  with_header wg now D p
  ++ zeros (calculatePadding (zlen (with_header wg now D p)) PageSize)
  ++ footer_bytes (w_blockCount wg) (if w_blockCount wg >? 0 then entries_of wg else []).

Variable nf : Prop.

Lemma writeFooterEntries_rule wg rest pre D (E : err -> writer -> Prop) :
  combine (w_positions wg) (combine (w_sizes wg) (w_stats wg)) = pre ++ rest ->
  (forall w t, ~ nf -> End nf wg (D ++ t) w -> E ErrIO w) ->
  triple (End nf wg D) (writeFooterEntries (map Z.of_nat (seq (length pre) (length rest))))
    (fun _ w => End nf wg (D ++ concat (map (fun '(p, (s, st)) => entry_bytes p s st) rest)) w) E.
Proof.
  revert pre D. induction rest as [|[p [s st]] rest IH]; intros pre D Hc HE.
  - cbn. apply triple_ret. intros w Hw. rewrite app_nil_r. exact Hw.
  - cbn [length seq map writeFooterEntries concat].
    assert (Hnth : nth_error (combine (w_positions wg) (combine (w_sizes wg) (w_stats wg))) (length pre) = Some (p, (s, st))).
    { rewrite Hc, nth_error_app2 by lia. rewrite Nat.sub_diag. reflexivity. }
    assert (Hn3 : nth_error (w_positions wg) (length pre) = Some p
              /\ nth_error (w_sizes wg) (length pre) = Some s /\ nth_error (w_stats wg) (length pre) = Some st).
    { assert (Hcomb : forall A B (l1 : list A) (l2 : list B) n a b,
         nth_error (combine l1 l2) n = Some (a, b) -> nth_error l1 n = Some a /\ nth_error l2 n = Some b).
      { induction l1 as [|x l1 IHl]; intros l2 n a b H; [destruct n; discriminate|].
        destruct l2; [destruct n; discriminate|]. destruct n; cbn in *; [injection H; intros; subst; auto|eauto]. }
      apply Hcomb in Hnth. destruct Hnth as [H1 H2]. apply Hcomb in H2. tauto. }
    eapply triple_bind with (R := fun w0 w => (nth_error (w_positions w0) (length pre) = Some p
              /\ nth_error (w_sizes w0) (length pre) = Some s /\ nth_error (w_stats w0) (length pre) = Some st) /\ End nf wg D w).
    { apply triple_get. intros w (fs & -> & Hfs). split; [exact Hn3|]. exists fs. auto. }
    intros w0. apply triple_pure. intros (G1 & G2 & G3). rewrite !Nat2Z.id, G1, G2, G3.
    eapply triple_bind with (R := fun _ => End nf wg (D ++ entry_bytes p s st)).
    { unfold writeBlockFooter. pose proof (zlen_nonneg D).
      eapply triple_bind.
      { apply seek_cur; [|lia]. intros w Hnf Hw. apply (HE w [] Hnf). rewrite app_nil_r. exact Hw. }
      intros q. cbv beta. apply triple_pure. intros ->.
      eapply triple_bind; [apply writeAll_end; exact HE|].
      intros n. cbv beta. apply triple_pure. intros _. cbn [concat]. rewrite app_nil_r.
      change (le_bytes 8 p ++ _) with (entry_bytes p s st).
      eapply triple_bind.
      { apply seek_cur; [|apply zlen_nonneg]. intros w Hnf Hw. apply (HE w _ Hnf Hw). }
      intros q. cbv beta. apply triple_pure. intros ->.
      replace (zlen (D ++ entry_bytes p s st) - zlen D =? 56) with true by (rewrite zlen_app, zlen_entry_bytes; lia).
      apply triple_ret. intros w Hw. exact Hw. }
    intros _.
    replace (S (length pre)) with (length (pre ++ [(p, (s, st))])) by (rewrite app_length; cbn; lia).
    eapply triple_post; [apply IH|].
    + rewrite <- app_assoc. exact Hc.
    + intros w t Hnf Hw. rewrite <- app_assoc in Hw. apply (HE w _ Hnf Hw).
    + cbv beta. intros a w Hw. rewrite <- app_assoc in Hw. exact Hw.
Qed.

(** [D'] holds what [D] holds beyond the header. *)
Definition keeps_tail (D D' : list Z) : Prop :=
  zlen D <= zlen D' /\ forall o n, 60 <= o -> 0 <= n -> o + n <= zlen D -> slice D' o n = slice D o n.
Lemma tail_refl D : keeps_tail D D.
Proof. split; [lia|reflexivity]. Qed.
Lemma tail_trans D1 D2 D3 : keeps_tail D1 D2 -> keeps_tail D2 D3 -> keeps_tail D1 D3.
Proof. intros [H1 H2] [H3 H4]. split; [lia|]. intros o n Ho Hn Hl. rewrite H4 by lia. apply H2; assumption. Qed.
Lemma tail_app D t : keeps_tail D (D ++ t).
Proof.
  split; [rewrite zlen_app; pose proof (zlen_nonneg t); lia|]. intros o n Ho Hn Hl. apply slice_app_l; lia.
Qed.
Lemma tail_low D bs : zlen bs <= 60 -> 60 <= zlen D -> keeps_tail D (overwrite D 0 bs).
Proof.
  intros Hb HD. rewrite overwrite_head by lia. pose proof (zlen_nonneg bs). split.
  - rewrite zlen_app, zlen_zdrop by lia. lia.
  - intros o n Ho Hn Hl. rewrite slice_app_r by lia. unfold slice. rewrite zdrop_zdrop by lia. f_equal. f_equal. lia.
Qed.

Definition positions_wrong (wg : writer) : Prop := 0 < w_blockCount wg /\ zlen (w_positions wg) <> w_blockCount wg.

Theorem Finalize_rule wg D p now :
  64 <= p <= zlen D -> 0 <= w_blockCount wg ->
  zlen (w_sizes wg) = w_blockCount wg -> zlen (w_stats wg) = w_blockCount wg ->
  triple (St nf wg D p) (Finalize now)
    (fun _ w => ~ positions_wrong wg /\ End nf wg (final_data wg now D p) w)
    (fun e w => (e = ErrPositions /\ positions_wrong wg \/ (e = ErrIO \/ e = ErrSync) /\ ~ nf)
                /\ exists D' p', St nf wg D' p' w /\ zlen D <= zlen D' /\ (p = zlen D -> keeps_tail D D')).
Proof.
  intros Hp Hc0 Hsz Hst.
  set (E := fun (e : err) (w : writer) => (e = ErrPositions /\ positions_wrong wg \/ (e = ErrIO \/ e = ErrSync) /\ ~ nf)
                /\ exists D' p', St nf wg D' p' w /\ zlen D <= zlen D' /\ (p = zlen D -> keeps_tail D D')).
  set (K := fun D' => zlen D <= zlen D' /\ (p = zlen D -> keeps_tail D D')).
  assert (EIO : forall D' p' w, K D' -> ~ nf -> St nf wg D' p' w -> E ErrIO w).
  { intros D' p' w HK Hnf Hw. split; [auto|]. exists D', p'. split; [exact Hw|exact HK]. }
  assert (K0 : K D) by (split; [lia|intros _; apply tail_refl]).
  assert (KO : forall bs, K (overwrite D p bs)).
  { intros bs. split; [apply overwrite_len_ge; lia|]. intros Hpe. rewrite overwrite_end by exact Hpe. apply tail_app. }
  assert (KA : forall D' t, K D' -> K (D' ++ t)).
  { intros D' t [H1 H2]. split; [rewrite zlen_app; pose proof (zlen_nonneg t); lia|]. intros Hpe.
    eapply tail_trans; [exact (H2 Hpe)|apply tail_app]. }
  assert (KL : forall D' bs, K D' -> zlen bs <= 60 -> K (overwrite D' 0 bs)).
  { intros D' bs [H1 H2] Hb. destruct (tail_low D' bs Hb ltac:(lia)) as [H3 H4]. split; [lia|]. intros Hpe.
    eapply tail_trans; [exact (H2 Hpe)|]. split; assumption. }
  unfold Finalize.
  eapply triple_bind with (R := fun r w => r = (p, 4 + zlen (bm_ser (w_ids wg)))
        /\ St nf wg (with_bitmap wg D p) (p + zlen (bitmap_bytes (w_ids wg))) w).
  { unfold writeGlobalIDBitmap.
    eapply triple_bind; [apply seek_cur; [intros w; apply EIO; exact K0|lia]|].
    intros q. cbv beta. apply triple_pure. intros ->.
    eapply triple_bind with (R := fun w0 w => w_ids w0 = w_ids wg /\ St nf wg D p w).
    { apply triple_get. intros w (fs & -> & Hfs). split; [reflexivity|]. exists fs. auto. }
    intros w0. apply triple_pure. intros ->.
    eapply triple_bind; [apply write_rule; intros w k; apply EIO; apply KO|].
    intros n. cbv beta. apply triple_pure. intros _.
    eapply triple_bind; [apply write_rule; intros w k; apply EIO; rewrite overwrite_overwrite by lia; apply KO|].
    intros n1. cbv beta. apply triple_pure. intros _.
    pose proof (zlen_nonneg (bm_ser (w_ids wg))).
    rewrite overwrite_overwrite by lia. rewrite zlen_le_bytes. cbn [Z.of_nat].
    eapply triple_bind; [apply seek_cur; [intros w; apply EIO; apply KO|lia]|].
    intros q. cbv beta. apply triple_pure. intros ->.
    apply triple_ret. intros w Hw. split; [f_equal; lia|].
    unfold with_bitmap, bitmap_bytes.
    rewrite zlen_app, zlen_le_bytes. rewrite Z.add_assoc. exact Hw. }
  intros r. apply triple_pure. intros ->.
  assert (KW : K (with_bitmap wg D p)) by apply KO.
  eapply triple_bind; [apply seek_start; intros w; apply EIO; exact KW|]. intros q. cbv beta.
  eapply triple_bind with (R := fun w0 w => w0 = set_file wg (w_file w0) /\ St nf wg (with_bitmap wg D p) 0 w).
  { apply triple_get. intros w (fs & -> & Hfs). split; [reflexivity|]. exists fs. auto. }
  intros w0. apply triple_pure. intros ->.
  cbn [set_file w_blockCount w_target w_enc w_positions].
  set (HF := headerFields now (w_blockCount wg) (w_target wg) (w_enc wg) p (4 + zlen (bm_ser (w_ids wg)))).
  assert (LB : zlen D <= zlen (with_bitmap wg D p)) by (apply overwrite_len_ge; lia).
  eapply triple_bind with (R := fun _ => St nf wg (with_header wg now D p) 60).
  { assert (G : forall l pre acc D', K D' -> zlen (pre ++ concat l) <= 60 ->
       triple (St nf wg (overwrite D' 0 pre) (zlen pre)) (writeAll l acc)
         (fun _ => St nf wg (overwrite D' 0 (pre ++ concat l)) (zlen (pre ++ concat l))) E).
    { induction l as [|bs l IH]; intros pre acc D' HK' Hl60; cbn [writeAll concat] in *.
      - apply triple_ret. intros w Hw. rewrite app_nil_r. exact Hw.
      - pose proof (zlen_nonneg D').
        eapply triple_bind.
        { apply write_rule. intros w k. apply EIO. rewrite <- (Z.add_0_l (zlen pre)) at 1. rewrite overwrite_overwrite by lia.
          apply KL; [exact HK'|]. rewrite !zlen_app in *. rewrite zlen_ztake. pose proof (zlen_nonneg (concat l)). lia. }
        intros n. cbv beta. apply triple_pure. intros ->.
        replace (overwrite (overwrite D' 0 pre) (zlen pre) bs) with (overwrite D' 0 (pre ++ bs))
          by (rewrite <- (overwrite_overwrite D' 0 pre bs) by lia; f_equal; lia).
        rewrite <- zlen_app. eapply triple_post; [apply IH; [exact HK'|rewrite <- app_assoc; exact Hl60]|]. cbv beta. intros a w Hw.
        rewrite <- app_assoc in Hw. exact Hw. }
    specialize (G HF [] 0 (with_bitmap wg D p) KW). cbn [app] in G.
    specialize (G ltac:(change (concat HF) with (header_bytes now (w_blockCount wg) (w_target wg) (w_enc wg) p (4 + zlen (bm_ser (w_ids wg)))); rewrite zlen_header_bytes; lia)).
    eapply triple_conseq; [exact G| | |].
    - intros w Hw. exact Hw.
    - cbv beta. intros a w Hw. change (concat HF) with (header_bytes now (w_blockCount wg) (w_target wg) (w_enc wg) p (4 + zlen (bm_ser (w_ids wg)))) in Hw.
      rewrite overwrite_head in Hw by (rewrite zlen_header_bytes; lia).
      rewrite zlen_header_bytes in Hw. exact Hw.
    - intros e w Hw. exact Hw. }
  intros n.
  assert (KH : K (with_header wg now D p)).
  { pose proof (KL (with_bitmap wg D p) (header_bytes now (w_blockCount wg) (w_target wg) (w_enc wg) p (4 + zlen (bm_ser (w_ids wg)))) KW) as H.
    rewrite zlen_header_bytes, overwrite_head, zlen_header_bytes in H by (rewrite zlen_header_bytes; lia). apply H. lia. }
  eapply triple_bind; [apply seek_end; intros w; apply EIO; exact KH|]. intros q2. cbv beta.
  set (D1 := with_header wg now D p). fold D1.
  eapply triple_bind; [apply seek_cur; [intros w; apply EIO; exact KH|apply zlen_nonneg]|].
  intros q3. cbv beta. apply triple_pure. intros ->.
  set (pad := calculatePadding (zlen D1) PageSize).
  assert (Hpad : 0 <= pad < PageSize) by apply calculatePadding_range.
  assert (EE : forall D2, K D2 -> (forall w t, ~ nf -> End nf wg (D2 ++ t) w -> E ErrIO w)).
  { intros D2 HK2 w t. apply EIO. apply KA. exact HK2. }
  eapply triple_bind with (R := fun _ => End nf wg (D1 ++ zeros pad)).
  { destruct (Z.gtb_spec pad 0).
    - eapply triple_post; [apply write_end, EE; exact KH|]. intros a w [_ Hw]. exact Hw.
    - apply triple_ret. intros w Hw. rewrite zeros_nil by lia. rewrite app_nil_r. exact Hw. }
  intros q4. set (D2 := D1 ++ zeros pad).
  assert (K2 : K D2) by (apply KA; exact KH).
  eapply triple_bind; [apply seek_cur; [intros w; apply EIO; exact K2|apply zlen_nonneg]|].
  intros q5. cbv beta. apply triple_pure. intros ->.
  eapply triple_bind; [apply write_end, EE; exact K2|]. intros n1. cbv beta. apply triple_pure. intros _.
  set (entries := if w_blockCount wg >? 0 then entries_of wg else []).
  eapply triple_bind with (R := fun _ w => ~ positions_wrong wg /\ End nf wg ((D2 ++ le_bytes 4 (u32 (w_blockCount wg))) ++ concat entries) w).
  { unfold entries, entries_of. destruct (Z.gtb_spec (w_blockCount wg) 0) as [Hpos|Hz].
    - destruct (Z.eqb_spec (zlen (w_positions wg)) (w_blockCount wg)) as [Eq|Ne]; cbn [negb].
      + assert (Hlen : length (combine (w_positions wg) (combine (w_sizes wg) (w_stats wg))) = Z.to_nat (w_blockCount wg)).
        { rewrite !combine_length. unfold zlen in *. lia. }
        unfold zseq. rewrite <- Hlen.
        eapply triple_post; [apply (writeFooterEntries_rule wg _ []); [reflexivity|apply EE; apply KA; exact K2]|].
        cbv beta. intros a w Hw. split; [|exact Hw]. unfold positions_wrong. lia.
      + apply triple_fail. intros w Hw. split; [left; split; [reflexivity|unfold positions_wrong; lia]|].
        eexists _, _. split; [exact Hw|]. apply KA. exact K2.
    - apply triple_ret. intros w Hw. cbn [concat]. rewrite app_nil_r. split; [|exact Hw].
      unfold positions_wrong. lia. }
  intros q6. apply triple_pure. intros Hpw.
  assert (K4 : K ((D2 ++ le_bytes 4 (u32 (w_blockCount wg))) ++ concat entries)) by (do 2 apply KA; exact K2).
  eapply triple_bind; [apply seek_cur; [intros w; apply EIO; exact K4|apply zlen_nonneg]|].
  intros q7. cbv beta. apply triple_pure. intros ->.
  set (D4 := (D2 ++ le_bytes 4 (u32 (w_blockCount wg))) ++ concat entries).
  assert (L4 : zlen D4 = zlen D2 + 4 + zlen (concat entries)) by (unfold D4; rewrite !zlen_app, zlen_le_bytes; lia).
  replace (zlen D4 - zlen D2) with (4 + zlen (concat entries)) by lia.
  fold (End nf wg D4).
  eapply triple_bind; [apply write_end, EE; exact K4|]. intros n3. cbv beta. apply triple_pure. intros _.
  eapply triple_bind; [apply write_end, EE; apply KA; exact K4|]. intros n4. cbv beta. apply triple_pure. intros _.
  eapply triple_bind; [apply write_end, EE; do 2 apply KA; exact K4|]. intros n5. cbv beta. apply triple_pure. intros _.
  rewrite le_bytes_u64.
  set (D7 := ((D4 ++ _) ++ _) ++ _).
  assert (L7 : zlen D7 = zlen D4 + 24) by (unfold D7; rewrite !zlen_app, !zlen_le_bytes; lia).
  eapply triple_bind; [apply seek_cur; [intros w; apply EIO; unfold D7; do 3 apply KA; exact K4|apply zlen_nonneg]|].
  intros q8. cbv beta. apply triple_pure. intros ->.
  replace (zlen D7 - zlen D4 =? 24) with true by lia.
  replace (zlen D7 - zlen D2 =? 4 + zlen (concat entries) + 24) with true by lia. cbn [negb].
  eapply triple_post.
  - apply sync_rule. intros w Hnf Hw. split; [auto|]. eexists _, _. split; [exact Hw|]. unfold D7; do 3 apply KA; exact K4.
  - cbv beta. intros a w Hw. split; [exact Hpw|].
    assert (EQ : final_data wg now D p = D7).
    { unfold final_data, footer_bytes. fold D1. fold pad. fold entries. unfold D7, D4, D2. rewrite <- !app_assoc. reflexivity. }
    rewrite EQ. exact Hw.
Qed.

(** ** NewWriter *)
Definition new_writer (options : list writerOption) (f : file) : writer :=
  mkWriter f 0 (fst (configured options)) (snd (configured options)) [] [] [] bm_new.

Lemma applyOptions options f :
  fold_left applyOption options (mkWriter f 0 EncodingRaw defaultBlockSize [] [] [] bm_new)
  = new_writer options f.
Proof.
  unfold new_writer, configured. generalize EncodingRaw as e, defaultBlockSize as t.
  induction options as [|[e'|t'] options IH]; intros e t; [reflexivity| |]; cbn [fold_left applyOption];
  unfold set_enc, set_target; cbn [w_file w_blockCount w_enc w_target w_positions w_sizes w_stats w_ids]; apply IH.
Qed.

Definition initial_data (now : Z) (options : list writerOption) : list Z :=
  header_bytes now 0 (snd (configured options)) (fst (configured options)) 0 0 ++ zeros 4.

Lemma zlen_initial now options : zlen (initial_data now options) = 64.
Proof. unfold initial_data. rewrite zlen_app, zlen_header_bytes, zlen_zeros. reflexivity. Qed.

Lemma initial_tail now options : slice (initial_data now options) 56 8 = zeros 8.
Proof. reflexivity. Qed.

Lemma header_bytes_bytes now count target enc off size : Forall is_byte (header_bytes now count target enc off size).
Proof.
  unfold header_bytes, headerFields. cbn [concat]. repeat (apply Forall_app; split); try apply le_bytes_bytes. constructor.
Qed.
Lemma initial_bytes now options : Forall is_byte (initial_data now options).
Proof. unfold initial_data. apply Forall_app. split; [apply header_bytes_bytes|apply zeros_bytes]. Qed.

Theorem writeHeader_rule options now :
  let wg := new_writer options (mkFile [] 0 true []) in
  triple (End nf wg []) (writeHeader now)
    (fun _ w => End nf wg (initial_data now options) w)
    (fun e w => e = ErrIO /\ ~ nf /\ exists D, End nf wg D w).
Proof.
  intros wg. unfold writeHeader.
  assert (EP : forall D, (forall w t, ~ nf -> End nf wg (D ++ t) w -> ErrIO = ErrIO /\ ~ nf /\ exists D, End nf wg D w)).
  { intros D w t Hnf Hw. split; [reflexivity|]. split; [assumption|]. eexists. exact Hw. }
  eapply triple_bind; [apply seek_cur; [|apply zlen_nonneg]|].
  { intros w Hnf Hw. split; [reflexivity|]. split; [assumption|]. eexists. exact Hw. }
  intros q. cbv beta. apply triple_pure. intros ->.
  eapply triple_bind with (R := fun w0 w => (w_target w0 = snd (configured options) /\ w_enc w0 = fst (configured options)) /\ End nf wg [] w).
  { apply triple_get. intros w (fs & -> & Hfs). split; [split; reflexivity|]. exists fs. auto. }
  intros w0. apply triple_pure. intros [-> ->].
  eapply triple_bind; [apply writeAll_end; apply EP|]. intros n. cbv beta. apply triple_pure. intros _.
  cbn [app]. fold (header_bytes now 0 (snd (configured options)) (fst (configured options)) 0 0).
  change (headerSize - _) with 4.
  eapply triple_bind; [apply write_end; apply EP|]. intros n1. cbv beta. apply triple_pure. intros _.
  fold (initial_data now options).
  eapply triple_bind; [apply seek_cur; [|apply zlen_nonneg]|].
  { intros w Hnf Hw. split; [reflexivity|]. split; [assumption|]. eexists. exact Hw. }
  intros q. cbv beta. apply triple_pure. intros ->.
  rewrite zlen_initial. apply triple_ret. intros w Hw. unfold End. rewrite zlen_initial. exact Hw.
Qed.

Theorem NewWriter_rule now options faults : (nf -> nofault faults) ->
  let wg := new_writer options (mkFile [] 0 true []) in
  match NewWriter now options faults with
  | (Ok w, f) => End nf wg (initial_data now options) w /\ f = w_file w
  | (Err e, f) => e = ErrIO /\ ~ nf /\ f_open f = false
  | (Panic, _) => False
  end.
Proof.
  intros Hnf wg. unfold NewWriter. rewrite applyOptions.
  pose proof (writeHeader_rule options now (new_writer options (mkFile [] 0 true faults))) as T.
  cbv zeta in T. fold wg in T.
  assert (Hst : End nf wg [] (new_writer options (mkFile [] 0 true faults))).
  { exists faults. split; [reflexivity|assumption]. }
  specialize (T Hst). destruct (writeHeader now _) as [[a|e|] w']; [auto| |assumption].
  destruct T as (-> & H & D & (fs & -> & _)). split; [reflexivity|]. split; [assumption|].
  cbn. destruct fs as [|[|k] fs]; reflexivity.
Qed.

(** ** After a failed block: only the shape of the file is known *)
Definition Loose (wg : writer) (p : Z) (w : writer) : Prop :=
  exists D, St nf wg D p w /\ 64 <= p <= zlen D.

Lemma l_seek wg p off (E : err -> writer -> Prop) : (forall w, Loose wg p w -> E ErrIO w) ->
  64 <= p + off -> off <= 0 ->
  triple (Loose wg p) (seek off SeekCurrent) (fun _ w => Loose wg (p + off) w) E.
Proof.
  intros HE H1 H2 w (D & Hw & Hp).
  assert (T : triple (St nf wg D p) (seek off SeekCurrent) (fun a w => St nf wg D (p + off) w) E).
  { apply seek_rel; [|lia]. intros w' _ Hw'. apply HE. exists D. auto. }
  specialize (T w Hw). destruct (seek off SeekCurrent w) as [[a|e|] w']; [|assumption|assumption].
  exists D. split; [exact T|lia].
Qed.
Lemma l_seek0 wg p (E : err -> writer -> Prop) : (forall w, Loose wg p w -> E ErrIO w) ->
  triple (Loose wg p) (seek 0 SeekCurrent) (fun a w => a = p /\ Loose wg p w) E.
Proof.
  intros HE w (D & Hw & Hp).
  assert (T : triple (St nf wg D p) (seek 0 SeekCurrent) (fun a w => a = p /\ St nf wg D p w) E).
  { apply seek_cur; [|lia]. intros w' _ Hw'. apply HE. exists D. auto. }
  specialize (T w Hw). destruct (seek 0 SeekCurrent w) as [[a|e|] w']; [|assumption|assumption].
  destruct T as [-> T]. split; [reflexivity|]. exists D. split; [exact T|lia].
Qed.
Lemma overwrite_end_le D p bs : 0 <= p <= zlen D -> p + zlen bs <= zlen (overwrite D p bs).
Proof. intros. rewrite zlen_overwrite by (try lia; right; lia). lia. Qed.
Lemma l_write wg p bs (E : err -> writer -> Prop) : (forall w p', p <= p' -> Loose wg p' w -> E ErrIO w) ->
  triple (Loose wg p) (write bs) (fun n w => n = zlen bs /\ Loose wg (p + zlen bs) w) E.
Proof.
  intros HE w (D & Hw & Hp).
  assert (T : triple (St nf wg D p) (write bs) (fun n w => n = zlen bs /\ St nf wg (overwrite D p bs) (p + zlen bs) w) E).
  { apply write_rule. intros w' k _ Hw'. apply (HE w' (p + zlen (ztake k bs))).
    - pose proof (zlen_nonneg (ztake k bs)). lia.
    - eexists. split; [exact Hw'|]. pose proof (zlen_nonneg (ztake k bs)).
      pose proof (overwrite_end_le D p (ztake k bs) ltac:(lia)). lia. }
  specialize (T w Hw). destruct (write bs w) as [[a|e|] w']; [|assumption|assumption].
  destruct T as [-> T]. split; [reflexivity|]. eexists. split; [exact T|].
  pose proof (zlen_nonneg bs). pose proof (overwrite_end_le D p bs ltac:(lia)). lia.
Qed.
Lemma l_writeAll wg l p acc (E : err -> writer -> Prop) : (forall w p', p <= p' -> Loose wg p' w -> E ErrIO w) ->
  triple (Loose wg p) (writeAll l acc)
    (fun n w => n = acc + zlen (concat l) /\ Loose wg (p + zlen (concat l)) w) E.
Proof.
  revert p acc. induction l as [|bs l IH]; intros p acc HE; cbn [writeAll concat].
  - apply triple_ret. intros w Hw. rewrite zlen_nil, !Z.add_0_r. auto.
  - eapply triple_bind; [apply l_write; exact HE|]. intros n. cbv beta. apply triple_pure. intros ->.
    eapply triple_post; [apply IH|].
    + intros w p' Hp Hw. apply (HE w p'); [|exact Hw]. pose proof (zlen_nonneg bs). lia.
    + cbv beta. intros a w [-> Hw]. rewrite zlen_app, !Z.add_assoc. auto.
Qed.

(** Bookkeeping after an attempt to write a block in such a state. *)
Definition attempted (wg : writer) (ids : list Z) : writer := set_ids wg (fold_left bm_set ids (w_ids wg)).
Definition loose_done (wg : writer) (ids : list Z) (w : writer) : Prop :=
  exists p p' s st, Loose (push_block (push_position (attempted wg ids) p) s st) p' w.
Definition loose_error (wg : writer) (ids : list Z) (e : err) (w : writer) : Prop :=
  (e = ErrSync /\ loose_done wg ids w)
  \/ ((e = ErrIO \/ e = ErrMismatch)
      /\ ((exists p, Loose (attempted wg ids) p w)
          \/ (exists p p', Loose (push_position (attempted wg ids) p) p' w))).

Theorem writeBlockInternal_loose wg p ids vals :
  declared (w_enc wg) -> good_block (ids, vals) ->
  triple (Loose wg p) (writeBlockInternal ids vals) (fun _ => loose_done wg ids) (loose_error wg ids).
Proof.
  intros Henc Hgood. unfold writeBlockInternal.
  destruct Hgood as (Hi & Hv & Hlen & Hn). cbn [fst snd] in *.
  set (E := loose_error wg ids). set (wg1 := attempted wg ids). set (wg2 := push_position wg1 p).
  assert (Hp64 : forall w, Loose wg p w -> 64 <= p) by (intros w (D & _ & ?); lia).
  destruct (Z_lt_le_dec p 64) as [Hlt|Hp].
  { intros w Hw. specialize (Hp64 w Hw). lia. } clear Hp64.
  eapply triple_bind with (R := fun _ => Loose wg1 p).
  { apply triple_modify. intros w (D & (fs & -> & Hfs) & Hd). exists D. split; [|assumption]. exists fs. split; [reflexivity|assumption]. }
  intros _. eapply triple_bind with (R := fun w0 w => w_enc w0 = w_enc wg /\ Loose wg1 p w).
  { apply triple_get. intros w (D & (fs & -> & Hfs) & Hd). split; [reflexivity|]. exists D. split; [|assumption]. exists fs. auto. }
  intros w0. apply triple_pure. intros ->. set (e := w_enc wg) in *.
  rewrite (encodeIDs_ok e ids Henc Hi Hn).
  eapply triple_bind. { apply triple_lift with (Q := fun a w => a = (id_items e ids, varint_bytes e encodeVarInt (id_items e ids), id_claim e ids) /\ Loose wg1 p w). auto. }
  intros a. cbv beta. apply triple_pure. intros ->.
  assert (Hn' : 1 <= zlen vals <= max_items) by lia.
  rewrite (encodeValues_ok e vals Henc Hv Hn').
  eapply triple_bind. { apply triple_lift with (Q := fun a w => a = (val_items e vals, varint_bytes e encodeSignedVarInt (val_items e vals), val_claim e vals) /\ Loose wg1 p w). auto. }
  intros a. cbv beta. apply triple_pure. intros ->.
  destruct (calculateMinMax ids) as [minID maxID].
  destruct (calculateMinMax vals) as [minV maxV].
  assert (EP : forall w q, Loose wg2 q w -> E ErrIO w).
  { intros w q Hw. right. split; [auto|]. right. exists p, q. exact Hw. }
  eapply triple_bind.
  { apply l_seek0. intros w Hw. right. split; [auto|]. left. exists p. exact Hw. }
  intros q. cbv beta. apply triple_pure. intros ->.
  eapply triple_bind with (R := fun _ => Loose wg2 p).
  { apply triple_modify. intros w (D & (fs & -> & Hfs) & Hd). exists D. split; [|assumption]. exists fs. split; [reflexivity|assumption]. }
  intros _.
  eapply triple_bind with (R := fun n w => n = 52 /\ Loose wg2 (p + 52) w).
  { unfold writeBlockHeader.
    eapply triple_bind; [apply l_seek0; intros w; apply EP|].
    intros q. cbv beta. apply triple_pure. intros ->.
    eapply triple_bind with (R := fun w0 w => w_enc w0 = e /\ Loose wg2 p w).
    { apply triple_get. intros w (D & (fs & -> & Hfs) & Hd). split; [reflexivity|]. exists D. split; [|assumption]. exists fs. auto. }
    intros w1. apply triple_pure. intros ->.
    eapply triple_bind; [apply l_writeAll; intros w p' _; apply EP|].
    intros n. cbv beta. apply triple_pure. intros _.
    match goal with |- triple (Loose _ (p + ?z)) _ _ _ =>
      replace z with 52 by (cbn [concat]; rewrite !zlen_app, !zlen_le_bytes; reflexivity) end.
    eapply triple_bind; [apply l_seek0; intros w; apply EP|].
    intros q. cbv beta. apply triple_pure. intros ->.
    replace (p + 52 - p =? 52) with true by lia.
    apply triple_ret. intros w Hw. split; [lia|exact Hw]. }
  intros n. apply triple_pure. intros ->.
  eapply triple_bind; [apply l_write; intros w p' _; apply EP|]. intros n1. cbv beta. apply triple_pure. intros _.
  eapply triple_bind; [apply l_write; intros w p' _; apply EP|]. intros n2. cbv beta. apply triple_pure. intros _.
  eapply triple_bind; [apply l_seek0; intros w; apply EP|]. intros n3. cbv beta. apply triple_pure. intros _.
  eapply triple_bind; [apply l_write; intros w p' _; apply EP|]. intros n4. cbv beta. apply triple_pure. intros _.
  rewrite !zlen_le_bytes.
  change (blockHeaderSize - (52 + 4 + 4 + 8)) with (-4).
  eapply triple_bind; [apply l_seek; [intros w; apply EP|lia|lia]|]. intros n5. cbv beta.
  change (52 + 4 + 4 + 8 + -4) with 64. change (64 =? blockHeaderSize) with true. cbn [negb].
  pose proof (id_claim_bounds e ids Hi) as Bi. pose proof (val_claim_bounds e vals Hv) as Bv.
  destruct (Z.eqb_spec (id_claim e ids) 0) as [?|_]; [lia|].
  destruct (Z.eqb_spec (val_claim e vals) 0) as [?|_]; [lia|].
  fold (block_layout e ids vals).
  eapply triple_bind; [apply l_write; intros w p' _; apply EP|]. intros n6. cbv beta. apply triple_pure. intros ->.
  rewrite zlen_block_layout. change (16 =? 16) with true. cbn [negb].
  eapply triple_bind; [apply l_seek0; intros w; apply EP|]. intros n7. cbv beta. apply triple_pure. intros _.
  rewrite (writeSection_ids e ids Henc). rewrite (writeSection_vals e vals Henc).
  pose proof (id_actual_bounds e ids Hi) as Ai. pose proof (val_actual_bounds e vals Hv) as Av.
  eapply triple_bind; [apply l_writeAll; intros w p' _; apply EP|]. intros n8. cbv beta. apply triple_pure. intros ->.
  destruct (negb _) eqn:Nc1.
  { apply triple_fail. intros w Hw. right. split; [auto|]. right. eexists _, _. exact Hw. }
  eapply triple_bind; [apply l_writeAll; intros w p' _; apply EP|]. intros n9. cbv beta. apply triple_pure. intros ->.
  destruct (negb _) eqn:Nc2 in |- *.
  { apply triple_fail. intros w Hw. right. split; [auto|]. right. eexists _, _. exact Hw. }
  eapply triple_bind; [apply l_seek0; intros w; apply EP|]. intros n10. cbv beta. apply triple_pure. intros ->.
  eapply triple_bind with (R := fun _ w => exists q, Loose wg2 q w).
  { destruct (calculatePadding _ PageSize >? 0).
    - eapply triple_post; [apply l_write; intros w p' _; apply EP|]. intros a w [_ Hw]. eexists. exact Hw.
    - apply triple_ret. intros w Hw. eexists. exact Hw. }
  intros n11. apply triple_exists. intros q.
  destruct (negb _) eqn:Nc3 in |- *.
  { apply triple_fail. intros w Hw. right. split; [auto|]. right. eexists _, _. exact Hw. }
  match goal with |- context [push_block _ ?s0 ?st0] => set (s := s0); set (st := st0) end.
  eapply triple_bind with (R := fun _ => Loose (push_block wg2 s st) q).
  { apply triple_modify. intros w (D & (fs & -> & Hfs) & Hd). exists D. split; [|assumption]. exists fs. split; [reflexivity|assumption]. }
  intros _ w (D & Hw & Hd).
  assert (T : triple (St nf (push_block wg2 s st) D q) sync (fun _ => loose_done wg ids) E).
  { eapply triple_post.
    - apply sync_rule. intros w' _ Hw'. left. split; [reflexivity|]. exists p, q, s, st. exists D. auto.
    - cbv beta. intros a w' Hw'. exists p, q, s, st. exists D. auto. }
  exact (T w Hw).
Qed.

(** WriteBlock in such a state. *)
Lemma Estimate_loose wg p ids vals : declared (w_enc wg) -> good_block (ids, vals) ->
  triple (Loose wg p) (EstimateBlockSize ids vals) (fun _ => Loose wg p)
    (fun e w => e = ErrIO /\ Loose wg p w).
Proof.
  intros He Hg w (D & Hw & Hp).
  pose proof (EstimateBlockSize_rule nf wg D p ids vals He Hg ltac:(lia) w Hw) as T.
  destruct (EstimateBlockSize ids vals w) as [[a|e|] w']; [| |assumption].
  - exists D. tauto.
  - destruct T as (-> & _ & T). split; [reflexivity|]. exists D. tauto.
Qed.
Lemma findOptimal_loose wg p ids vals idx opt : declared (w_enc wg) -> good_block (ids, vals) ->
  Forall (fun i => 1 <= i < zlen ids) idx -> 1 <= opt < zlen ids ->
  triple (Loose wg p) (findOptimal ids vals idx opt) (fun n w => 1 <= n < zlen ids /\ Loose wg p w)
    (fun _ _ => False).
Proof.
  intros He Hg Hidx. revert opt. induction Hidx as [|i idx Hi _ IH]; intros opt Hopt.
  - cbn. apply triple_ret. auto.
  - cbn [findOptimal]. intros w Hw.
    pose proof (Estimate_loose wg p _ _ He (good_block_prefix ids vals i Hg ltac:(lia)) w Hw) as T.
    destruct (EstimateBlockSize _ _ w) as [[a|e|] w']; [| |assumption].
    + destruct (a <=? w_target w'); [|auto]. exact (IH i Hi w' T).
    + tauto.
Qed.
Theorem WriteBlock_loose wg p ids vals : declared (w_enc wg) -> good_block (ids, vals) ->
  triple (Loose wg p) (WriteBlock ids vals) (fun _ => loose_done wg ids)
    (fun e w => (e = ErrIO /\ Loose wg p w)
       \/ (exists n, 1 <= n < zlen ids /\ e = ErrBlockFull n /\ loose_done wg (ztake n ids) w)
       \/ (exists n, 1 <= n <= zlen ids /\ loose_error wg (ztake n ids) e w)).
Proof.
  intros He Hg. assert (Hg' := Hg). destruct Hg' as (Hi & Hv & Hlen & Hn). cbn [fst snd] in *.
  unfold WriteBlock. replace (zlen ids =? zlen vals) with true by lia. cbn [negb].
  destruct (Z.eqb_spec (zlen ids) 0) as [?|_]; [lia|].
  eapply triple_bind.
  { eapply triple_conseq; [apply (Estimate_loose wg p ids vals He Hg)| | |].
    - intros w Hw. exact Hw.
    - intros a w Hw. exact Hw.
    - cbv beta. intros e w Hw. left. exact Hw. }
  intros n. cbv beta.
  eapply triple_bind with (R := fun w0 w => Loose wg p w).
  { apply triple_get. auto. }
  intros w0. cbv beta. destruct (_ && _) eqn:Ec.
  - eapply triple_bind.
    { eapply triple_conseq; [apply (findOptimal_loose wg p ids vals (tl (zseq (zlen ids))) 1 He Hg)| | |].
      - apply Forall_forall. intros i Hin. unfold zseq in Hin.
        destruct (Z.to_nat (zlen ids)) as [|k] eqn:Ek; [lia|]. cbn [seq map tl] in Hin.
        apply in_map_iff in Hin. destruct Hin as (j & <- & Hj). apply in_seq in Hj. lia.
      - lia.
      - intros w Hw. exact Hw.
      - intros a w Hw. exact Hw.
      - cbv beta. intros e w []. }
    intros opt. cbv beta. apply triple_pure. intros Hopt.
    eapply triple_bind.
    { eapply triple_conseq; [apply (writeBlockInternal_loose wg p (ztake opt ids) (ztake opt vals) He)| | |].
      - apply good_block_prefix; [assumption|lia].
      - intros w Hw. exact Hw.
      - intros a w Hw. exact Hw.
      - cbv beta. intros e w Hw. right. right. exists opt. split; [lia|exact Hw]. }
    intros u. cbv beta. apply triple_fail. intros w Hw. right. left. exists opt. auto.
  - eapply triple_conseq; [apply (writeBlockInternal_loose wg p ids vals He Hg)| | |].
    + intros w Hw. exact Hw.
    + intros a w Hw. exact Hw.
    + cbv beta. intros e w Hw. right. right. exists (zlen ids). rewrite ztake_all by lia. split; [lia|exact Hw].
Qed.

End Final.
