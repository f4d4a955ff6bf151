(** Histories of writer calls under every fault stream. *)
From Verif Require Import Machine MachineFacts Encoding EncodingFacts FileIO Sroar Writer Spec FileFacts
  WriterFacts BlockFacts FinalFacts Reader ReaderFacts DecodeFacts.
Ltac Zify.zify_post_hook ::= Z.div_mod_to_equations.

(** What one call adds to the file and to the ID bitmap. *)
Inductive effect : wcall -> res Z -> list block -> list Z -> Prop :=
| ef_ok ids vals n : effect (CWriteBlock ids vals) (Ok n) [(ids, vals)] ids
| ef_full ids vals n : 1 <= n < zlen ids ->
    effect (CWriteBlock ids vals) (Err (ErrBlockFull n)) [(ztake n ids, ztake n vals)] (ztake n ids)
| ef_sync ids vals n : 1 <= n <= zlen ids ->
    effect (CWriteBlock ids vals) (Err ErrSync) [(ztake n ids, ztake n vals)] (ztake n ids)
| ef_err ids vals e n : e <> ErrSync -> (forall k, e <> ErrBlockFull k) ->
    n = 0 \/ e = ErrIO \/ e = ErrMismatch ->
    effect (CWriteBlock ids vals) (Err e) [] (ztake n ids)
| ef_other c r : (forall ids vals, c <> CWriteBlock ids vals) -> effect c r [] [].

Lemma effect_stores c r bs ids : effect c r bs ids -> stores c r bs.
Proof. destruct 1; constructor; assumption. Qed.

(** Consecutive placement from [start] to [stop]. *)
Fixpoint chain (e start : Z) (L : list pblock) (stop : Z) : Prop :=
  match L with
  | [] => start = stop
  | x :: L' => fst x = start /\ chain e (start + zlen (image_of e x)) L' stop
  end.
Lemma chain_snoc e start L stop x : chain e start L stop -> fst x = stop ->
  chain e start (L ++ [x]) (stop + zlen (image_of e x)).
Proof.
  revert start. induction L as [|y L IH]; intros start H Hx; cbn [chain app] in *.
  - subst. auto.
  - destruct H as [H1 H2]. split; [assumption|]. apply IH; assumption.
Qed.

Section History.
Context {Srr : Sroar}.
Variable nf : Prop.

Definition book (e t : Z) (L : list pblock) (wg : writer) : Prop :=
  w_enc wg = e /\ w_target wg = t /\ w_positions wg = map fst L
  /\ w_sizes wg = map (fun x => zlen (image_of e x)) L
  /\ w_stats wg = map pstats L /\ w_blockCount wg = zlen L.

Definition ids_are (A : list Z) (wg : writer) : Prop := w_ids wg = fold_left bm_set A bm_new.

Definition Good (e t : Z) (L : list pblock) (A : list Z) (tight : Prop) (w : writer) : Prop :=
  exists wg D, End nf wg D w /\ 64 <= zlen D /\ book e t L wg /\ Forall (placed e D) L
    /\ ids_are A wg /\ (tight -> chain e 64 L (zlen D) /\ slice D 56 8 = zeros 8 /\ Forall is_byte D).

Definition Bad (e t n : Z) (A : list Z) (w : writer) : Prop :=
  exists wg p, Loose nf wg p w /\ w_enc wg = e /\ w_target wg = t /\ w_blockCount wg = n /\ 0 <= n
    /\ n < zlen (w_positions wg) /\ zlen (w_sizes wg) = n /\ zlen (w_stats wg) = n /\ ids_are A wg.

Lemma ids_are_more A wg ids : ids_are A wg ->
  fold_left bm_set ids (w_ids wg) = fold_left bm_set (A ++ ids) bm_new.
Proof. unfold ids_are. intros ->. rewrite fold_left_app. reflexivity. Qed.

Lemma stored_at_good e t L A (tight : Prop) wg D ids vals w' :
  book e t L wg -> 64 <= zlen D -> Forall (placed e D) L -> ids_are A wg ->
  (tight -> chain e 64 L (zlen D) /\ slice D 56 8 = zeros 8 /\ Forall is_byte D) -> good_block (ids, vals) ->
  stored_at nf wg D ids vals w' ->
  Good e t (L ++ [(zlen D, (ids, vals))]) (A ++ ids) tight w'.
Proof.
  intros (B1 & B2 & B3 & B4 & B5 & B6) HD HP HA HC Hg (C1 & C2 & Hw). rewrite B1 in *.
  exists (commit wg D ids vals), (D ++ block_image e (zlen D) ids vals).
  split; [exact Hw|]. split; [rewrite zlen_app; pose proof (zlen_nonneg (block_image e (zlen D) ids vals)); lia|].
  unfold book, commit, ids_are, push_block, push_position, set_ids.
  cbn [w_enc w_target w_positions w_sizes w_stats w_blockCount w_ids].
  rewrite B1, B2, B3, B4, B5, B6. rewrite !map_app. cbn [map fst snd].
  split.
  { repeat split; try reflexivity. rewrite zlen_app. reflexivity. }
  split.
  { apply Forall_app. split.
    - eapply Forall_impl; [|exact HP]. intros x Hx. apply placed_app. exact Hx.
    - constructor; [|constructor]. unfold placed, image_of. cbn [fst snd].
      split; [exact Hg|]. split; [split; assumption|]. split; [exact HD|].
      split; [rewrite zlen_app; lia|].
      pose proof (slice_mid D (block_image e (zlen D) ids vals) [] (zlen D) _ eq_refl eq_refl) as S.
      rewrite app_nil_r in S. exact S. }
  split; [apply ids_are_more; exact HA|].
  intros Ht. destruct (HC Ht) as (HC1 & HC2 & HC3). split; [|split; [rewrite slice_app_l by lia; exact HC2|apply Forall_app; split; [exact HC3|apply block_image_bytes; exact Hg]]].
  rewrite zlen_app. apply (chain_snoc e 64 L (zlen D) (zlen D, (ids, vals)) HC1 eq_refl).
Qed.

Definition open_outcome (e : Z) (r : res Z) : Prop :=
  r <> Panic /\ (r = Err ErrIO \/ r = Err ErrSync -> ~ nf) /\ (r = Err ErrMismatch -> ~ consistent e).

Lemma typed_good ids vals : typed_block ids vals -> zlen ids = zlen vals -> zlen ids <> 0 -> good_block (ids, vals).
Proof.
  intros (H1 & H2 & H3 & H4) He Hn. unfold good_block. cbn [fst snd].
  pose proof (zlen_nonneg ids). repeat split; try assumption; lia.
Qed.

Definition call_state (e t : Z) (L : list pblock) (A : list Z) (tight : Prop) (bs : list block)
    (added : list Z) (r : res Z) (w' : writer) : Prop :=
  (exists L', map snd L' = map snd L ++ bs /\ Good e t L' (A ++ added) tight w'
              /\ (bs = [] -> L' = L))
  \/ ((r = Err ErrIO \/ r = Err ErrMismatch) /\ bs = [] /\ Bad e t (zlen L) (A ++ added) w').

Lemma refused_err ids vals e t L A (tight : Prop) w er :
  Good e t L A tight w -> er = ErrLength \/ er = ErrEmpty \/ er = ErrEncoding ->
  open_outcome e (Err er) /\ exists bs added, effect (CWriteBlock ids vals) (Err er) bs added
    /\ call_state e t L A tight bs added (Err er) w.
Proof.
  intros Hg He. split.
  - repeat split; try discriminate; intros; destruct He as [->|[->| ->]]; try discriminate;
      match goal with H : _ \/ _ |- _ => destruct H; discriminate end.
  - exists [], (ztake 0 ids). split.
    + constructor; [destruct He as [->|[->| ->]]; discriminate | intros; destruct He as [->|[->| ->]]; discriminate | auto].
    + left. exists L. rewrite app_nil_r. split; [reflexivity|]. rewrite ztake_0 by lia. rewrite app_nil_r. auto.
Qed.

Lemma WriteBlock_good ids vals e t L A (tight : Prop) w :
  typed_block ids vals -> Good e t L A tight w ->
  let '(r, w') := run_call (CWriteBlock ids vals) w in
  open_outcome e r /\ exists bs added, effect (CWriteBlock ids vals) r bs added
    /\ call_state e t L A tight bs added r w'.
Proof.
  intros Ht Hgood. cbn [run_call]. unfold mbind at 1, mret.
  destruct (Z.eq_dec (zlen ids) (zlen vals)) as [El|Nl].
  2:{ rewrite WriteBlock_length by assumption. apply refused_err; auto. }
  destruct (Z.eq_dec (zlen ids) 0) as [E0|N0].
  { rewrite E0 in El. symmetry in El. apply zlen_0_nil in E0, El. subst ids vals. rewrite WriteBlock_empty.
    apply refused_err; auto. }
  destruct Hgood as (wg & D & Hw & HD & HB & HP & HA & HC).
  assert (Henc : w_enc w = e) by (destruct Hw as (fs & -> & _); destruct HB as (B1 & _); exact B1).
  destruct (Z_le_dec 0 e) as [H0|H0]; [destruct (Z_le_dec e 7) as [H7|H7]|].
  2,3: rewrite WriteBlock_undeclared by (try assumption; unfold declared; lia);
       apply refused_err; [|auto]; exists wg, D; auto 10.
  assert (Hdec : declared (w_enc wg)) by (destruct HB as (B1 & _); unfold declared; lia).
  assert (Hg := typed_good ids vals Ht El N0).
  pose proof (WriteBlock_rule nf wg D ids vals Hdec Hg w Hw) as T.
  assert (B1 : w_enc wg = e) by (destruct HB as (B1 & _); exact B1).
  assert (B6 : w_blockCount wg = zlen L) by (destruct HB as (_ & _ & _ & _ & _ & B6); exact B6).
  destruct (WriteBlock ids vals w) as [[a|er|] w']; [| |contradiction].
  - destruct T as [T _]. split.
    + repeat split; try discriminate. intros [?|?]; discriminate.
    + eexists _, _. split; [apply ef_ok|]. left. exists (L ++ [(zlen D, (ids, vals))]).
      split; [rewrite map_app; reflexivity|]. split; [eapply stored_at_good; eassumption|]. discriminate.
  - destruct T as [(-> & Hnf & Hw')|[(n & -> & Hn & _ & _ & Hs)|(n & Hn & Hbe & _)]].
    + split.
      * repeat split; try discriminate. auto.
      * exists [], (ztake 0 ids). split; [apply ef_err; auto; discriminate|].
        left. exists L. rewrite app_nil_r. split; [reflexivity|]. rewrite ztake_0, app_nil_r by lia.
        split; [|auto]. exists wg, D. auto 10.
    + split.
      * repeat split; try discriminate. intros [?|?]; discriminate.
      * eexists _, _. split; [apply ef_full; assumption|]. left. exists (L ++ [(zlen D, (ztake n ids, ztake n vals))]).
        split; [rewrite map_app; reflexivity|].
        assert (good_block (ztake n ids, ztake n vals)) by (apply good_block_prefix; [assumption|lia]).
        split; [eapply stored_at_good; eassumption|]. discriminate.
    + assert (Hgn : good_block (ztake n ids, ztake n vals)) by (apply good_block_prefix; [assumption|lia]).
      destruct Hbe as [(-> & Hnf & Hw')|[(-> & Hnf & Hs)|(He & Hpo)]].
      * split; [repeat split; try discriminate; auto|].
        exists [], (ztake n ids). split; [apply ef_err; auto; discriminate|].
        left. exists L. rewrite app_nil_r. split; [reflexivity|]. split; [|auto].
        exists (set_ids wg (fold_left bm_set (ztake n ids) (w_ids wg))), D.
        split; [exact Hw'|]. split; [exact HD|]. split; [exact HB|]. split; [exact HP|].
        split; [unfold ids_are; cbn [set_ids w_ids]; apply ids_are_more; exact HA|exact HC].
      * split; [repeat split; try discriminate; auto|].
        eexists _, _. split; [apply (ef_sync ids vals n); lia|]. left. exists (L ++ [(zlen D, (ztake n ids, ztake n vals))]).
        split; [rewrite map_app; reflexivity|]. split; [eapply stored_at_good; eassumption|]. discriminate.
      * assert (Hcase : er = ErrIO /\ ~ nf \/ er = ErrMismatch /\ ~ consistent e) by (rewrite <- B1; exact He).
        split.
        { repeat split; try discriminate.
          - intros H. destruct Hcase as [[-> ?]|[-> ?]]; [assumption|]. destruct H; discriminate.
          - intros H. destruct Hcase as [[-> ?]|[-> ?]]; [discriminate|assumption]. }
        exists [], (ztake n ids). split.
        { apply ef_err; destruct Hcase as [[-> ?]|[-> ?]]; auto; discriminate. }
        right. split; [destruct Hcase as [[-> ?]|[-> ?]]; auto|]. split; [reflexivity|].
        destruct Hpo as (D' & p & Hst & Hp & _).
        exists (push_position (set_ids wg (fold_left bm_set (ztake n ids) (w_ids wg))) (zlen D)), p.
        split; [exists D'; split; [exact Hst|lia]|].
        destruct HB as (_ & B2 & B3 & B4 & B5 & _).
        unfold push_position, set_ids, ids_are. cbn [w_enc w_target w_positions w_sizes w_stats w_blockCount w_ids].
        pose proof (zlen_nonneg L).
        repeat split; try assumption.
        -- rewrite B3, zlen_app, zlen_map. change (zlen [zlen D]) with 1. apply Z.lt_add_pos_r. reflexivity.
        -- rewrite B4, zlen_map. reflexivity.
        -- rewrite B5, zlen_map. reflexivity.
        -- apply ids_are_more. exact HA.
Qed.

Lemma WriteBlock_bad ids vals e t n A w :
  typed_block ids vals -> Bad e t n A w ->
  let '(r, w') := run_call (CWriteBlock ids vals) w in
  r <> Panic /\ exists bs added, effect (CWriteBlock ids vals) r bs added
    /\ Bad e t (n + zlen bs) (A ++ added) w'.
Proof.
  intros Ht Hbad. cbn [run_call]. unfold mbind at 1, mret.
  assert (Ref : forall er, er = ErrLength \/ er = ErrEmpty \/ er = ErrEncoding ->
    @Err Z er <> Panic /\ exists bs added, effect (CWriteBlock ids vals) (Err er) bs added
    /\ Bad e t (n + zlen bs) (A ++ added) w).
  { intros er He. split; [discriminate|]. exists [], (ztake 0 ids). split.
    - apply ef_err; [destruct He as [->|[->| ->]]; discriminate | intros; destruct He as [->|[->| ->]]; discriminate | auto].
    - rewrite ztake_0, app_nil_r by lia. change (zlen (@nil block)) with 0. rewrite Z.add_0_r. exact Hbad. }
  destruct (Z.eq_dec (zlen ids) (zlen vals)) as [El|Nl].
  2:{ rewrite WriteBlock_length by assumption. apply Ref; auto. }
  destruct (Z.eq_dec (zlen ids) 0) as [E0|N0].
  { rewrite E0 in El. symmetry in El. apply zlen_0_nil in E0, El. subst ids vals. rewrite WriteBlock_empty. apply Ref; auto. }
  destruct Hbad as (wg & p & Hw & B1 & B2 & B3 & B4 & B5 & B6 & B7 & B8).
  assert (Henc : w_enc w = e) by (destruct Hw as (D & (fs & -> & _) & _); exact B1).
  destruct (Z_le_dec 0 e) as [H0|H0]; [destruct (Z_le_dec e 7) as [H7|H7]|].
  2,3: rewrite WriteBlock_undeclared by (try assumption; unfold declared; lia);
       apply Ref; auto.
  assert (Hdec : declared (w_enc wg)) by (unfold declared; lia).
  assert (Hg := typed_good ids vals Ht El N0).
  pose proof (WriteBlock_loose nf wg p ids vals Hdec Hg w Hw) as T.
  assert (Done : forall is w', loose_done nf wg is w' -> Bad e t (n + 1) (A ++ is) w').
  { intros is w' (q & q' & s & st & Hl). eexists _, _. split; [exact Hl|].
    unfold push_block, push_position, attempted, set_ids, ids_are. cbn [w_enc w_target w_positions w_sizes w_stats w_blockCount w_ids].
    rewrite !zlen_app. change (zlen [q]) with 1. change (zlen [s]) with 1. change (zlen [st]) with 1.
    repeat split; try assumption; try lia. apply ids_are_more. exact B8. }
  destruct (WriteBlock ids vals w) as [[a|er|] w']; [| |contradiction].
  - split; [discriminate|]. eexists _, _. split; [apply ef_ok|]. apply Done. exact T.
  - split; [discriminate|].
    destruct T as [(-> & Hl)|[(k & Hk & -> & Hd)|(k & Hk & Hle)]].
    + exists [], (ztake 0 ids). split; [apply ef_err; auto; discriminate|].
      rewrite ztake_0, app_nil_r by lia. change (zlen (@nil block)) with 0. rewrite Z.add_0_r.
      exists wg, p. auto 10.
    + eexists _, _. split; [apply ef_full; assumption|]. apply Done. exact Hd.
    + destruct Hle as [(-> & Hd)|(He & Hs)].
      * eexists _, _. split; [apply (ef_sync ids vals k); assumption|]. apply Done. exact Hd.
      * exists [], (ztake k ids). split; [apply ef_err; destruct He as [-> | ->]; auto; discriminate|].
        change (zlen (@nil block)) with 0. rewrite Z.add_0_r.
        destruct Hs as [(q & Hl)|(q & q' & Hl)]; eexists _, _; (split; [exact Hl|]);
        unfold push_position, attempted, set_ids, ids_are; cbn [w_enc w_target w_positions w_sizes w_stats w_blockCount w_ids];
        rewrite ?zlen_app; repeat split; try assumption; try (apply ids_are_more; exact B8).
        pose proof (zlen_nonneg [q]). lia.
Qed.

Lemma Estimate_state ids vals w : typed_block ids vals ->
  (forall e t L A (tight : Prop), Good e t L A tight w ->
     let '(r, w') := run_call (CEstimate ids vals) w in
     (r <> Panic /\ (forall er, r = Err er -> er = ErrLength \/ er = ErrEmpty \/ er = ErrEncoding \/ (er = ErrIO /\ ~ nf)))
     /\ Good e t L A tight w')
  /\ (forall e t n A, Bad e t n A w ->
     let '(r, w') := run_call (CEstimate ids vals) w in r <> Panic /\ Bad e t n A w').
Proof.
  intros Ht. cbn [run_call].
  assert (Ref : zlen ids <> zlen vals \/ (ids = [] /\ vals = []) \/ (zlen ids = zlen vals /\ zlen ids <> 0 /\ ~ declared (w_enc w))
     \/ (good_block (ids, vals) /\ declared (w_enc w))).
  { destruct (Z.eq_dec (zlen ids) (zlen vals)) as [El|Nl]; [|auto].
    destruct (Z.eq_dec (zlen ids) 0) as [E0|N0].
    - right. left. split; apply zlen_0_nil; lia.
    - assert (declared (w_enc w) \/ ~ declared (w_enc w)) as [H|H] by (unfold declared; lia).
      + right. right. right. split; [apply typed_good; assumption|assumption].
      + right. right. left. auto. }
  assert (Ref' : (exists er, EstimateBlockSize ids vals w = (Err er, w) /\ (er = ErrLength \/ er = ErrEmpty \/ er = ErrEncoding))
     \/ (good_block (ids, vals) /\ declared (w_enc w))).
  { destruct Ref as [H|[[-> ->]|[(H1 & H2 & H3)|H]]]; [| | |auto].
    - left. exists ErrLength. unfold EstimateBlockSize. replace (zlen ids =? zlen vals) with false by lia. auto.
    - left. exists ErrEmpty. auto.
    - left. exists ErrEncoding. rewrite EstimateBlockSize_undeclared by assumption. auto. }
  split.
  - intros e t L A tight Hgood. destruct Ref' as [(er & -> & Her)|[Hg Hd]].
    + split; [split; [discriminate|]|exact Hgood]. intros er' E. injection E as <-. tauto.
    + destruct Hgood as (wg & D & Hw & Rest).
      assert (Hd' : declared (w_enc wg)) by (destruct Hw as (fs & -> & _); exact Hd).
      pose proof (EstimateBlockSize_rule nf wg D (zlen D) ids vals Hd' Hg (zlen_nonneg D) w Hw) as T.
      destruct (EstimateBlockSize ids vals w) as [[a|er|] w']; [| |contradiction].
      * split; [split; [discriminate|]|exists wg, D; tauto]. discriminate.
      * destruct T as (-> & Hnf & T). split; [split; [discriminate|]|exists wg, D; tauto].
        intros er E. injection E as <-. tauto.
  - intros e t n A Hbad. destruct Ref' as [(er & -> & Her)|[Hg Hd]].
    + split; [discriminate|exact Hbad].
    + destruct Hbad as (wg & p & Hw & Rest).
      assert (Hd' : declared (w_enc wg)) by (destruct Hw as (D & (fs & -> & _) & _); exact Hd).
      pose proof (Estimate_loose nf wg p ids vals Hd' Hg w Hw) as T.
      destruct (EstimateBlockSize ids vals w) as [[a|er|] w']; [| |contradiction].
      * split; [discriminate|]. exists wg, p. tauto.
      * destruct T as (-> & T). split; [discriminate|]. exists wg, p. tauto.
Qed.

(** ** Finalize *)
Lemma combine_maps {X A B C} (f : X -> A) (g : X -> B) (h : X -> C) l :
  combine (map f l) (combine (map g l) (map h l)) = map (fun x => (f x, (g x, h x))) l.
Proof. induction l as [|x l IH]; [reflexivity|]. cbn. rewrite IH. reflexivity. Qed.

Lemma slice_with_header wg now D p o n : 60 <= o -> 0 <= n -> 60 <= zlen (with_bitmap wg D p) ->
  slice (with_header wg now D p) o n = slice (with_bitmap wg D p) o n.
Proof.
  intros Ho Hn HL. unfold with_header. set (h := header_bytes _ _ _ _ _ _).
  assert (Lh : zlen h = 60) by apply zlen_header_bytes.
  rewrite slice_app_r by lia. rewrite Lh. unfold slice. rewrite zdrop_zdrop by lia. do 2 f_equal. lia.
Qed.
Lemma zlen_with_header wg now D p : 60 <= zlen (with_bitmap wg D p) ->
  zlen (with_header wg now D p) = zlen (with_bitmap wg D p).
Proof. intros. unfold with_header. rewrite zlen_app, zlen_header_bytes, zlen_zdrop. lia. Qed.

Lemma final_finalized e t L A now wg D p :
  book e t L wg \/ (L = [] /\ w_enc wg = e /\ w_target wg = t /\ w_blockCount wg = 0) ->
  (L <> [] -> p = zlen D) -> 64 <= p <= zlen D -> Forall (placed e D) L -> ids_are A wg ->
  let X := with_header wg now D p ++ zeros (calculatePadding (zlen (with_header wg now D p)) PageSize) in
  finalized (final_data wg now D p) X now e t L (fold_left bm_set A bm_new) p
  /\ (book e t L wg -> Forall (placed e (final_data wg now D p)) L)
  /\ 64 <= zlen (final_data wg now D p).
Proof.
  intros HB Hpe Hp HP HA X. unfold ids_are in HA.
  assert (Benc : w_enc wg = e) by (destruct HB as [(B & _)|(_ & B & _)]; exact B).
  assert (Btar : w_target wg = t) by (destruct HB as [(_ & B & _)|(_ & _ & B & _)]; exact B).
  assert (Bcnt : w_blockCount wg = zlen L).
  { destruct HB as [(_ & _ & _ & _ & _ & B)|(-> & _ & _ & B)]; exact B. }
  set (b := fold_left bm_set A bm_new) in *.
  set (W := with_bitmap wg D p).
  pose proof (zlen_nonneg (bitmap_bytes b)) as Lb0.
  assert (LW : zlen W = Z.max (zlen D) (p + zlen (bitmap_bytes b))).
  { unfold W, with_bitmap. rewrite HA. apply zlen_overwrite; [lia|right; lia]. }
  assert (LH : zlen (with_header wg now D p) = zlen W) by (apply zlen_with_header; fold W; lia).
  assert (LX : zlen W <= zlen X).
  { unfold X. rewrite zlen_app, LH. pose proof (zlen_nonneg (zeros (calculatePadding (zlen W) PageSize))). lia. }
  assert (SX : forall o n, 60 <= o -> 0 <= n -> o + n <= zlen W -> slice X o n = slice W o n).
  { intros o n Ho Hn Hon. unfold X. rewrite slice_app_l by lia. apply slice_with_header; [lia|lia|fold W; lia]. }
  assert (HEnt : (if w_blockCount wg >? 0 then entries_of wg else []) = map (pentry e) L).
  { destruct (Z.gtb_spec (w_blockCount wg) 0) as [Hpos|Hz].
    - destruct HB as [(B1 & B2 & B3 & B4 & B5 & B6)|(-> & _ & _ & B)]; [|lia].
      unfold entries_of. rewrite B3, B4, B5, combine_maps, map_map. reflexivity.
    - assert (E0 : zlen L = 0) by (pose proof (zlen_nonneg L); lia). apply zlen_0_nil in E0. rewrite E0. reflexivity. }
  assert (HFin : final_data wg now D p = X ++ footer_bytes (zlen L) (map (pentry e) L)).
  { unfold final_data. rewrite HEnt, Bcnt. unfold X. rewrite <- app_assoc. reflexivity. }
  assert (HPX : Forall (placed e X) L).
  { apply Forall_forall. intros x Hx. rewrite Forall_forall in HP. destruct (HP x Hx) as (G1 & G2 & G3 & G4 & G5).
    pose proof (zlen_nonneg (image_of e x)).
    split; [exact G1|]. split; [exact G2|]. split; [exact G3|]. split; [lia|].
    rewrite SX by lia. unfold W, with_bitmap.
    assert (p = zlen D) as Hpd by (apply Hpe; intros ->; destruct Hx). rewrite overwrite_end by exact Hpd.
    rewrite slice_app_l by lia. exact G5. }
  assert (LF : zlen X <= zlen (final_data wg now D p)).
  { rewrite HFin, zlen_app. pose proof (zlen_nonneg (footer_bytes (zlen L) (map (pentry e) L))). lia. }
  split; [|split; [|lia]].
  - constructor.
    + exact HFin.
    + unfold X. rewrite ztake_app_l by lia. unfold with_header. rewrite ztake_app_exact by (rewrite zlen_header_bytes; reflexivity).
      rewrite Bcnt, Benc, Btar, HA. reflexivity.
    + exact HPX.
    + lia.
    + rewrite SX by lia. unfold W, with_bitmap. rewrite HA. fold b.
      unfold overwrite. destruct (bitmap_bytes b) as [|z bs] eqn:Eb.
      { apply (f_equal zlen) in Eb. unfold bitmap_bytes in Eb. rewrite zlen_app, zlen_le_bytes in Eb. pose proof (zlen_nonneg (bm_ser b)). change (zlen (@nil Z)) with 0 in Eb. lia. }
      rewrite <- Eb. rewrite (zeros_nil (p - zlen D)) by lia. cbn [app].
      apply slice_mid; [rewrite zlen_ztake; lia|reflexivity].
  - intros _. rewrite HFin. eapply Forall_impl; [|exact HPX]. intros x Hx. apply placed_app. exact Hx.
Qed.

(** The state between calls, as a function of the blocks stored so far. *)
Definition Live (e t : Z) (blocks : list block) (A : list Z) (tight : Prop) (w : writer) : Prop :=
  (exists L, map snd L = blocks /\ Good e t L A tight w) \/ Bad e t (zlen blocks) A w.

Definition readable (F : list Z) (now e t : Z) (blocks : list block) (A : list Z) (tight : Prop) : Prop :=
  exists X L off, map snd L = blocks /\ finalized F X now e t L (fold_left bm_set A bm_new) off
    /\ zlen X mod PageSize = 0 /\ (tight -> L <> [] -> chain e 64 L off).

Lemma padded_aligned n : 0 <= n -> (n + calculatePadding n PageSize) mod PageSize = 0.
Proof.
  intros H. unfold calculatePadding, PageSize. destruct (Z.eqb_spec (n mod 4096) 0); lia.
Qed.
Lemma padding_bounds n : 0 <= n -> 0 <= calculatePadding n PageSize < PageSize.
Proof. intros H. unfold calculatePadding, PageSize. destruct (Z.eqb_spec (n mod 4096) 0); lia. Qed.

Lemma Finalize_good e t L A (tight : Prop) now w : Good e t L A tight w ->
  match Finalize now w with
  | (Ok _, w') => Good e t L A False w' /\ readable (f_data (w_file w')) now e t (map snd L) A tight
                  /\ w_blockCount w' = zlen L /\ w_ids w' = fold_left bm_set A bm_new /\ f_open (w_file w') = true
  | (Err er, w') => ~ nf /\ f_open (w_file w') = true /\ (offset_at_end w' -> Good e t L A False w')
  | (Panic, _) => False
  end.
Proof.
  intros (wg & D & Hw & HD & HB & HP & HA & HC).
  assert (HB' := HB). destruct HB' as (B1 & B2 & B3 & B4 & B5 & B6).
  pose proof (Finalize_rule nf wg D (zlen D) now ltac:(lia)) as T.
  rewrite B4, B5, B6, !zlen_map in T. specialize (T (zlen_nonneg L) eq_refl eq_refl w Hw).
  destruct (Finalize now w) as [[a|er|] w']; [| |contradiction].
  - destruct T as [_ Hw'].
    destruct (final_finalized e t L A now wg D (zlen D) (or_introl HB) ltac:(auto) ltac:(lia) HP HA) as (F1 & F2 & F3).
    assert (Hd : f_data (w_file w') = final_data wg now D (zlen D)) by (destruct Hw' as (fs & -> & _); reflexivity).
    split.
    { exists wg, (final_data wg now D (zlen D)).
      split; [exact Hw'|]. split; [exact F3|]. split; [exact HB|]. split; [exact (F2 HB)|]. split; [exact HA|tauto]. }
    split.
    { rewrite Hd. eexists _, L, (zlen D). split; [reflexivity|]. split; [exact F1|]. split.
      - rewrite zlen_app, zlen_zeros. rewrite Z.max_r by (apply padding_bounds; apply zlen_nonneg).
        apply padded_aligned. apply zlen_nonneg.
      - intros Ht _. apply HC. exact Ht. }
    destruct Hw' as (fs & -> & _). cbn [set_file w_blockCount w_ids w_file f_open]. rewrite B6.
    split; [reflexivity|]. split; [exact HA|reflexivity].
  - destruct T as [T (D' & p' & Hs & HL & HK)]. specialize (HK eq_refl). split; [|split].
    + intros H. exfalso. destruct T as [(_ & Hpw)|(_ & Hn)]; [|tauto].
      unfold positions_wrong in Hpw. rewrite B3, B6, zlen_map in Hpw. destruct Hpw as [_ Hpw]. apply Hpw. reflexivity.
    + destruct Hs as (fs & -> & _). reflexivity.
    + intros Hend. assert (Hp' : p' = zlen D') by (destruct Hs as (fs & -> & _); exact Hend). subst p'.
      exists wg, D'. split; [exact Hs|]. split; [lia|]. split; [exact HB|]. split; [|split; [exact HA|tauto]].
      eapply Forall_impl; [|exact HP]. intros x (G1 & G2 & G3 & G4 & G5).
      pose proof (zlen_nonneg (image_of e x)).
      split; [exact G1|]. split; [exact G2|]. split; [exact G3|]. split; [lia|].
      rewrite (proj2 HK) by lia. exact G5.
Qed.

Lemma Finalize_live e t blocks A (tight : Prop) now w : Live e t blocks A tight w ->
  match Finalize now w with
  | (Ok _, w') => Live e t blocks A False w' /\ readable (f_data (w_file w')) now e t blocks A tight
                  /\ w_blockCount w' = zlen blocks /\ w_ids w' = fold_left bm_set A bm_new /\ f_open (w_file w') = true
  | (Err er, w') => (nf -> Bad e t (zlen blocks) A w) /\ f_open (w_file w') = true
                    /\ (offset_at_end w' -> Live e t blocks A False w')
  | (Panic, _) => False
  end.
Proof.
  intros [(L & HL & Hg)|Hbad].
  - pose proof (Finalize_good e t L A tight now w Hg) as T.
    destruct (Finalize now w) as [[a|er|] w']; [| |contradiction].
    + destruct T as (T1 & T2 & T3 & T4 & T5). subst blocks. split; [left; exists L; auto|].
      split; [exact T2|]. split; [rewrite zlen_map; exact T3|]. auto.
    + destruct T as (T1 & T2 & T3). split; [tauto|]. split; [exact T2|]. intros H. left. exists L. auto.
  - assert (Hbad' := Hbad). destruct Hbad' as (wg & p & (D & Hw & Hp) & B1 & B2 & B3 & B4 & B5 & B6 & B7 & B8).
    pose proof (Finalize_rule nf wg D p now Hp) as T. rewrite B3, B6, B7 in T.
    specialize (T B4 eq_refl eq_refl w Hw).
    destruct (Finalize now w) as [[a|er|] w']; [| |contradiction].
    + destruct T as [Hnp Hw']. unfold positions_wrong in Hnp. rewrite B3 in Hnp.
      assert (H0 : zlen blocks = 0) by lia. apply zlen_0_nil in H0. subst blocks.
      destruct (final_finalized e t [] A now wg D p) as (F1 & F2 & F3);
        [right; auto|congruence|exact Hp|constructor|exact B8|].
      assert (Hd : f_data (w_file w') = final_data wg now D p) by (destruct Hw' as (fs & -> & _); reflexivity).
      split.
      { right. exists wg, (zlen (final_data wg now D p)). split.
        - exists (final_data wg now D p). split; [exact Hw'|lia].
        - auto 10. }
      split.
      { rewrite Hd. eexists _, [], p. split; [reflexivity|]. split; [exact F1|]. split.
        - rewrite zlen_app, zlen_zeros. rewrite Z.max_r by (apply padding_bounds; apply zlen_nonneg).
          apply padded_aligned. apply zlen_nonneg.
        - congruence. }
      destruct Hw' as (fs & -> & _). cbn [set_file w_blockCount w_ids w_file f_open].
      split; [exact B3|]. split; [exact B8|reflexivity].
    + destruct T as [T (D' & p' & Hs & HL' & _)]. split; [intros _; exact Hbad|].
      split; [destruct Hs as (fs & -> & _); reflexivity|]. intros Hend.
      assert (Hp' : p' = zlen D') by (destruct Hs as (fs & -> & _); exact Hend).
      right. exists wg, p'. split; [exists D'; split; [exact Hs|lia]|]. auto 10.
Qed.

End History.
