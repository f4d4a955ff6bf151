(** The writer properties in the vocabulary of Spec.v. *)
From Verif Require Import Machine MachineFacts Encoding EncodingFacts FileIO Sroar Writer Spec FileFacts
  WriterFacts BlockFacts FinalFacts Reader ReaderFacts DecodeFacts HistoryFacts RunFacts ReachFacts.
Ltac Zify.zify_post_hook ::= Z.div_mod_to_equations.

Lemma faithful_consistent e : faithful e -> consistent e.
Proof. intros [->|[->|[->| ->]]]; unfold consistent, EncodingRaw, EncodingDeltaBoth, EncodingVarInt, EncodingVarIntBoth; tauto. Qed.
Lemma faithful_readback e b : faithful e -> readback e b = b.
Proof. intros [->|[->|[->| ->]]]; reflexivity. Qed.

Lemma nth_error_map' {A B} (f : A -> B) l i : nth_error (map f l) i = option_map f (nth_error l i).
Proof. revert i. induction l as [|x l IH]; intros [|i]; cbn; auto. Qed.

(** ** Minimum, maximum, sum *)
Lemma calculateMinMax_spec l : l <> [] ->
  is_minimum (fst (calculateMinMax l)) l /\ is_maximum (snd (calculateMinMax l)) l.
Proof.
  intros Hn. destruct (calculateMinMax_in l Hn) as [I1 I2].
  destruct l as [|v0 l0]; [congruence|].
  assert (G : forall l p, let q := fold_left (fun '(mn, mx) v => (if v <? mn then v else mn, if v >? mx then v else mx)) l p in
     fst q <= fst p /\ snd p <= snd q /\ (forall y, In y l -> fst q <= y <= snd q)).
  { clear. induction l as [|v l IH]; intros [mn mx]; cbn [fold_left].
    - cbn. split; [lia|]. split; [lia|]. intros y [].
    - specialize (IH (if v <? mn then v else mn, if v >? mx then v else mx)). cbv zeta in *. cbn [fst snd] in *.
      destruct IH as (A1 & A2 & A3). split; [destruct (Z.ltb_spec v mn); lia|]. split; [destruct (Z.gtb_spec v mx); lia|].
      intros y [<-|Hy]; [destruct (Z.ltb_spec v mn), (Z.gtb_spec v mx); lia|apply A3; exact Hy]. }
  specialize (G (v0 :: l0) (v0, v0)). cbv zeta in G.
  change (fold_left (fun '(mn, mx) v => (if v <? mn then v else mn, if v >? mx then v else mx)) (v0 :: l0) (v0, v0))
    with (calculateMinMax (v0 :: l0)) in G.
  destruct G as (_ & _ & G). split; (split; [assumption|]); intros y Hy; apply G in Hy; lia.
Qed.

Lemma sum_fold l : forall a, fold_left (fun sum v => i64 (sum + v)) l (i64 a) = i64 (a + zsum l).
Proof.
  induction l as [|v l IH]; intros a; cbn [fold_left zsum fold_right].
  - f_equal. lia.
  - rewrite i64_add_l, IH. f_equal. unfold zsum. lia.
Qed.
Lemma calculateSum_spec l : calculateSumInt64 l = i64 (zsum l).
Proof. unfold calculateSumInt64. change 0 with (i64 0) at 1. rewrite sum_fold. f_equal. Qed.

Lemma int64ToUint64_spec v : is_i64 v -> int64ToUint64 v = sign_magnitude v.
Proof. intros H. rewrite int64ToUint64_val by exact H. reflexivity. Qed.

Section Props.
Context {Srr : Sroar}.

(** ** Reading back *)
Theorem blocks_read_back options faults h now w :
  finished_run options faults h now w -> faithful (encoding_of options) ->
  exists r blocks, stored h blocks /\ NewReader (bytes_of w) = Ok r /\ BlockCount r = zlen blocks
    /\ forall i, is_u64 i ->
         GetPairs r i = match nth_error blocks (Z.to_nat i) with
                        | Some b => Ok b
                        | None => Err ErrIndex
                        end.
Proof.
  intros H He. destruct (finished_facts options faults h now w H) as (blocks & A & X & L & off & Hef & HL & HF & Hlim & HX & HC & HR).
  eexists _, blocks. split; [eapply effects_stored; exact Hef|]. split; [exact HR|]. split.
  - cbn. rewrite <- HL, zlen_map. reflexivity.
  - intros i Hi. rewrite (GetPairs_finalized _ X) by (try assumption; apply faithful_consistent; exact He).
    rewrite <- HL, nth_error_map'. unfold pblock in *. destruct (nth_error L (Z.to_nat i)) as [x|]; cbn [option_map]; [|reflexivity].
    rewrite faithful_readback by exact He. reflexivity.
Qed.

Theorem delta_single_read_back options faults h now w :
  finished_run options faults h now w -> encoding_of options = EncodingDeltaID \/ encoding_of options = EncodingDeltaValue ->
  exists r blocks, stored h blocks /\ NewReader (bytes_of w) = Ok r /\ BlockCount r = zlen blocks
    /\ forall i, is_u64 i ->
         GetPairs r i = match nth_error blocks (Z.to_nat i) with
                        | Some b => Ok (if encoding_of options =? EncodingDeltaID then (fst b, deltaEncodeInt64 (snd b))
                                        else (deltaEncode (fst b), snd b))
                        | None => Err ErrIndex
                        end.
Proof.
  intros H He. destruct (finished_facts options faults h now w H) as (blocks & A & X & L & off & Hef & HL & HF & Hlim & HX & HC & HR).
  eexists _, blocks. split; [eapply effects_stored; exact Hef|]. split; [exact HR|]. split.
  - cbn. rewrite <- HL, zlen_map. reflexivity.
  - intros i Hi. rewrite (GetPairs_finalized _ X); [|assumption|assumption|unfold consistent, EncodingDeltaID, EncodingDeltaValue in *; tauto|assumption].
    rewrite <- HL, nth_error_map'. unfold pblock in *. destruct (nth_error L (Z.to_nat i)) as [x|]; cbn [option_map]; [|reflexivity].
    destruct He as [-> | ->]; reflexivity.
Qed.

Theorem metadata options faults h now w :
  finished_run options faults h now w ->
  exists r, NewReader (bytes_of w) = Ok r
    /\ RVersion r = 1 /\ EncodingType r = encoding_of options
    /\ h_blockSizeTarget (r_header r) = target_of options
    /\ h_creationTime (r_header r) = u64 now
    /\ (IsDeltaEncoded r = true <-> In (encoding_of options) [EncodingDeltaID; EncodingDeltaValue; EncodingDeltaBoth])
    /\ (IsVarIntEncoded r = true <->
        In (encoding_of options) [EncodingVarInt; EncodingVarIntID; EncodingVarIntValue; EncodingVarIntBoth]).
Proof.
  intros H. destruct (finished_facts options faults h now w H) as (blocks & A & X & L & off & Hef & HL & HF & Hlim & HX & HC & HR).
  eexists. split; [exact HR|]. cbn [the_reader]. split; [reflexivity|]. split; [reflexivity|]. split; [reflexivity|].
  split; [reflexivity|]. unfold IsDeltaEncoded, IsVarIntEncoded, EncodingType.
  cbn [r_header h_encodingType In]. rewrite !orb_true_iff, !Z.eqb_eq. split; split; intros G; intuition auto.
Qed.

Lemma entry_true e x : good_block (snd x) -> true_entry (snd x) (entry_of e x).
Proof.
  intros Hg. destruct x as [off [ids vals]]. cbn [snd fst] in *.
  pose proof (stats_ranges ids vals Hg) as (R1 & R2 & R3 & R4 & R5 & R6).
  destruct Hg as (Hi & Hv & Hlen & Hn). cbn [fst snd] in *.
  assert (Ni : ids <> []) by (intros ->; change (zlen (@nil Z)) with 0 in Hn; lia).
  assert (Nv : vals <> []) by (intros ->; change (zlen (@nil Z)) with 0 in Hlen; lia).
  destruct (calculateMinMax_spec ids Ni) as [M1 M2]. destruct (calculateMinMax_spec vals Nv) as [M3 M4].
  unfold true_entry, entry_of, pstats. cbn [fst snd e_minID e_maxID e_minValue e_maxValue e_sum e_count].
  split; [exact M1|]. split; [exact M2|].
  split; [eexists; split; [exact M3|]; apply int64ToUint64_spec; exact R3|].
  split; [eexists; split; [exact M4|]; apply int64ToUint64_spec; exact R4|].
  split; [rewrite int64ToUint64_spec by exact R5; cbn [stats_of st_sum]; rewrite calculateSum_spec; reflexivity|].
  split; [reflexivity|exact Hlen].
Qed.

Lemma placed_header e D x : placed e D x -> true_block_header D e (entry_of e x).
Proof.
  intros (Hg & Hc & Ho & Hl & Hs). unfold true_block_header. cbn [entry_of e_offset e_minID e_maxID e_minValue e_maxValue e_sum e_count].
  assert (HI : image_of e x = block_header e (pstats x) ++ (block_layout e (fst (snd x)) (snd (snd x))
     ++ concat (id_chunks e (fst (snd x))) ++ concat (val_chunks e (snd (snd x))))
     ++ zeros (calculatePadding (fst x + zlen (block_body e (fst (snd x)) (snd (snd x)))) PageSize)).
  { unfold image_of, block_image, block_body, pstats. rewrite <- app_assoc. reflexivity. }
  assert (Lh : zlen (block_header e (pstats x)) = 64) by reflexivity.
  assert (L64 : 64 <= zlen (image_of e x)).
  { rewrite HI, zlen_app, Lh. match goal with |- 64 <= 64 + zlen ?l => pose proof (zlen_nonneg l) end. lia. }
  assert (E : slice D (fst x) 64 = slice (slice D (fst x) (zlen (image_of e x))) 0 64).
  { rewrite slice_slice by lia. f_equal. lia. }
  rewrite E, Hs, HI. rewrite slice_app_l by lia. rewrite slice_all; [|reflexivity|symmetry; exact Lh].
  unfold block_header. rewrite <- !app_assoc. reflexivity.
Qed.

Lemma Forall2_map_l {A B C} (f : A -> B) (R : B -> C -> Prop) l l' :
  Forall2 (fun a c => R (f a) c) l l' -> Forall2 R (map f l) l'.
Proof. induction 1; cbn; constructor; auto. Qed.

Theorem statistics_true options faults h now w :
  finished_run options faults h now w ->
  exists r blocks, stored h blocks /\ NewReader (bytes_of w) = Ok r
    /\ Forall2 (fun e b => true_entry b e /\ true_block_header (bytes_of w) (encoding_of options) e)
               (r_index r) blocks.
Proof.
  intros H. destruct (finished_facts options faults h now w H) as (blocks & A & X & L & off & Hef & HL & HF & Hlim & HX & HC & HR).
  eexists _, blocks. split; [eapply effects_stored; exact Hef|]. split; [exact HR|]. cbn [the_reader r_index].
  subst blocks. apply Forall2_map_l. pose proof (fz_blocks _ _ _ _ _ _ _ _ HF) as HP.
  rewrite (fz_data _ _ _ _ _ _ _ _ HF). set (Y := footer_bytes _ _). clearbody Y.
  clear - HP. induction HP as [|x L Hx _ IH]; cbn [map]; constructor; [|exact IH].
  split; [apply entry_true; apply Hx|]. apply placed_header. apply placed_app. exact Hx.
Qed.

Lemma chain_contiguous e L : Forall (fun x => good_block (snd x)) L -> forall start stop, 0 <= start -> chain e start L stop ->
  contiguous start (map (entry_of e) L) stop.
Proof.
  induction 1 as [|x L Hg _ IH]; intros start stop Hs H; cbn [chain map] in *; [subst; constructor|].
  destruct H as [Hx H].
  assert (Hsz : 80 < zlen (image_of e x) /\ (start + zlen (image_of e x)) mod 4096 = 0).
  { unfold image_of. rewrite zlen_block_image, Hx. set (n := zlen (block_body e _ _)).
    assert (80 < n).
    { unfold n. rewrite zlen_block_body. destruct Hg as (G1 & G2 & G3 & G4).
      pose proof (zlen_nonneg (concat (val_chunks e (snd (snd x))))).
      assert (zlen (fst (snd x)) <= zlen (concat (id_chunks e (fst (snd x))))); [|lia].
      unfold id_chunks. destruct (useVarIntForIDs e).
      - pose proof (zlen_concat_ge encodeVarInt 1 (id_items e (fst (snd x)))) as Z1. rewrite id_items_len in Z1.
        assert (1 * zlen (fst (snd x)) <= zlen (concat (map encodeVarInt (id_items e (fst (snd x)))))); [|lia].
        apply Z1. intros y Hy. apply (id_chunk_bounds e (fst (snd x)) G1) in Hy. lia.
      - rewrite zlen_concat_fixed, id_items_len. lia. }
    pose proof (padding_bounds (start + n) ltac:(lia)). pose proof (padded_aligned (start + n) ltac:(lia)) as PA.
    unfold PageSize in *. split; [lia|]. rewrite Z.add_assoc. exact PA. }
  apply contiguous_cons; cbn [entry_of e_offset e_size]; [exact Hx|lia|tauto|].
  apply IH; [|exact H]. lia.
Qed.

Theorem layout options faults h now w :
  finished_run options faults h now w -> never_finalized h ->
  exists r stop footerStart, NewReader (bytes_of w) = Ok r
    /\ contiguous 64 (r_index r) stop
    /\ (r_index r <> [] -> h_bitmapOffset (r_header r) = stop)
    /\ stop <= h_bitmapOffset (r_header r)
    /\ h_bitmapOffset (r_header r) + h_bitmapSize (r_header r) <= footerStart
    /\ footerStart mod 4096 = 0
    /\ zlen (bytes_of w) = footerStart + 4 + 56 * zlen (r_index r) + 24.
Proof.
  intros H Hn. destruct (finished_facts options faults h now w H) as (blocks & A & X & L & off & Hef & HL & HF & Hlim & HX & HC & HR).
  set (b := fold_left bm_set A bm_new) in *.
  exists (the_reader (bytes_of w) now (encoding_of options) (target_of options) L b off),
         (match L with [] => 64 | _ => off end), (zlen X).
  split; [exact HR|]. cbn [the_reader r_index r_header h_bitmapOffset h_bitmapSize].
  pose proof (fz_off _ _ _ _ _ _ _ _ HF) as [O1 O2].
  split.
  { destruct L as [|x L']; [constructor|].
    apply chain_contiguous; [|lia|apply HC; [exact Hn|discriminate]].
    eapply Forall_impl; [|exact (fz_blocks _ _ _ _ _ _ _ _ HF)]. intros y Hy. apply Hy. }
  split; [destruct L; [intros N; contradiction N; reflexivity|intros _; reflexivity]|].
  split; [destruct L; lia|].
  split; [unfold bitmap_bytes in O2; rewrite zlen_app, zlen_le_bytes in O2; lia|].
  split; [exact HX|].
  rewrite (fz_data _ _ _ _ _ _ _ _ HF), zlen_app, zlen_footer, zlen_map. lia.
Qed.

Theorem out_of_range options faults h now w :
  finished_run options faults h now w -> consistent (encoding_of options) ->
  exists r, NewReader (bytes_of w) = Ok r
    /\ forall i, is_u64 i -> (i < BlockCount r <-> exists b, GetPairs r i = Ok b)
                             /\ (BlockCount r <= i -> GetPairs r i = Err ErrIndex).
Proof.
  intros H He. destruct (finished_facts options faults h now w H) as (blocks & A & X & L & off & Hef & HL & HF & Hlim & HX & HC & HR).
  eexists. split; [exact HR|]. intros i Hi. rewrite (GetPairs_finalized _ X) by assumption.
  unfold BlockCount. cbn [the_reader r_header h_blockCount]. unfold pblock in *. unfold is_u64 in Hi.
  destruct (nth_error L (Z.to_nat i)) as [x|] eqn:E.
  - assert (Z.to_nat i < length L)%nat by (apply nth_error_Some; congruence). unfold zlen. split; [|lia].
    split; [eauto|lia].
  - apply nth_error_None in E. unfold zlen. split; [|auto]. split; [lia|]. intros [b Hb]. discriminate.
Qed.

(** ** One call in the middle of a history *)
Lemma stored_split h1 h2 bs : stored (h1 ++ h2) bs -> exists b1 b2, bs = b1 ++ b2 /\ stored h1 b1 /\ stored h2 b2.
Proof.
  revert bs. induction h1 as [|[c r] h1 IH]; intros bs H; cbn [app] in H.
  - exists [], bs. split; [reflexivity|]. split; [constructor|exact H].
  - inversion H as [|c' r' h' x y Hs Hr]; subst. destruct (IH _ Hr) as (b1 & b2 & -> & H1 & H2).
    exists (x ++ b1), b2. rewrite app_assoc. split; [reflexivity|]. split; [constructor; assumption|exact H2].
Qed.

Theorem partial_write_exact options faults h now w h1 ids vals r h2 :
  finished_run options faults h now w -> faithful (encoding_of options) ->
  h = h1 ++ (CWriteBlock ids vals, r) :: h2 ->
  exists rd before mine after, NewReader (bytes_of w) = Ok rd
    /\ stored h1 before /\ stored h2 after
    /\ (forall i, is_u64 i -> GetPairs rd i = match nth_error (before ++ mine ++ after) (Z.to_nat i) with
                                              | Some b => Ok b | None => Err ErrIndex end)
    /\ match r with
       | Ok _ => mine = [(ids, vals)]
       | Err (ErrBlockFull n) => 1 <= n < zlen ids /\ mine = [(ztake n ids, ztake n vals)]
       | Err ErrSync => exists n, 1 <= n <= zlen ids /\ mine = [(ztake n ids, ztake n vals)]
       | _ => mine = []
       end.
Proof.
  intros H He ->. destruct (blocks_read_back _ _ _ _ _ H He) as (rd & blocks & Hs & HR & _ & HG).
  destruct (stored_split _ _ _ Hs) as (before & rest & -> & H1 & H2).
  inversion H2 as [|c' r' h' mine after Hm Ha]; subst.
  exists rd, before, mine, after. split; [exact HR|]. split; [exact H1|]. split; [exact Ha|]. split; [exact HG|].
  remember (CWriteBlock ids vals) as c eqn:Ec.
  destruct Hm as [i v n|i v n Hn|i v n Hn|i v e N1 N2|c r0 N]; try (injection Ec as -> ->).
  - reflexivity.
  - auto.
  - eauto.
  - destruct e; try reflexivity; exfalso; [apply N1|eapply N2]; reflexivity.
  - exfalso. eapply N. exact Ec.
Qed.

(** ** Single calls in reachable states *)
Lemma Good_bytes (nf : Prop) e t L A (tight : Prop) w : Good nf e t L A tight w ->
  exists wg, End nf wg (bytes_of w) w /\ w_enc wg = e /\ w_target wg = t.
Proof.
  intros (wg & D & Hw & _ & HB & _). exists wg. assert (bytes_of w = D) as -> by (destruct Hw as (fs & -> & _); reflexivity).
  split; [exact Hw|]. destruct HB as (B1 & B2 & _). auto.
Qed.
Lemma End_bytes (nf : Prop) wg D w : End nf wg D w -> bytes_of w = D.
Proof. intros (fs & -> & _). reflexivity. Qed.

Lemma closed_write ids vals w : closed w -> exists e, WriteBlock ids vals w = (Err e, w) /\ soft_error e.
Proof.
  intros H. destruct (run_call_closed (CWriteBlock ids vals) w H) as (e & E & Hs). cbn [run_call] in E.
  unfold mbind, mret in E. destruct (WriteBlock ids vals w) as [[u|er|] w'] eqn:Ew; try discriminate.
  injection E as <- <-. exists er. auto.
Qed.

Lemma write_outcome (nf : Prop) e t L A (tight : Prop) w ids vals :
  Good nf e t L A tight w -> typed_block ids vals ->
  match WriteBlock ids vals w with
  | (Ok _, w') => well_formed ids vals /\ declared e
       /\ (exists wg, End nf wg (bytes_of w) w /\ w_enc wg = e /\ w_target wg = t /\ stored_at nf wg (bytes_of w) ids vals w')
       /\ (zlen ids = 1 \/ estimate e (zlen (bytes_of w)) ids vals <= t)
  | (Err (ErrBlockFull n), w') => well_formed ids vals /\ declared e /\ 1 <= n < zlen ids
       /\ (exists wg, End nf wg (bytes_of w) w /\ w_enc wg = e /\ w_target wg = t
             /\ stored_at nf wg (bytes_of w) (ztake n ids) (ztake n vals) w')
       /\ (n = 1 \/ estimate e (zlen (bytes_of w)) (ztake n ids) (ztake n vals) <= t)
       /\ (nf -> forall m, n < m <= zlen ids -> t < estimate e (zlen (bytes_of w)) (ztake m ids) (ztake m vals))
  | (Err er, _) =>
      (er = ErrLength /\ zlen ids <> zlen vals) \/ (er = ErrEmpty /\ ids = [] /\ vals = [])
      \/ (er = ErrEncoding /\ ~ declared e) \/ ((er = ErrIO \/ er = ErrSync) /\ ~ nf)
      \/ (er = ErrMismatch /\ ~ consistent e)
  | (Panic, _) => False
  end.
Proof.
  intros Hg Ht. destruct (Good_bytes nf e t L A tight w Hg) as (wg & Hw & He & Htt).
  destruct (Z.eq_dec (zlen ids) (zlen vals)) as [El|Nl].
  2:{ rewrite WriteBlock_length by assumption. auto. }
  destruct (Z.eq_dec (zlen ids) 0) as [E0|N0].
  { rewrite E0 in El. symmetry in El. apply zlen_0_nil in E0, El. subst ids vals. rewrite WriteBlock_empty. auto. }
  assert (Henc : w_enc w = e) by (destruct Hw as (fs & -> & _); exact He).
  assert (declared e \/ ~ declared e) as [Hd|Hd] by (unfold declared; lia).
  2:{ rewrite WriteBlock_undeclared by (try assumption; rewrite Henc; exact Hd). auto. }
  assert (Hgood := typed_good ids vals Ht El N0).
  assert (Hwf : well_formed ids vals). { split; [exact El|]. intros ->. apply N0. reflexivity. }
  assert (Hd' : declared (w_enc wg)) by (rewrite He; exact Hd).
  pose proof (WriteBlock_rule nf wg (bytes_of w) ids vals Hd' Hgood w Hw) as T.
  destruct (WriteBlock ids vals w) as [[a|er|] w']; [| |contradiction].
  - destruct T as [T1 T2]. split; [exact Hwf|]. split; [exact Hd|]. split; [exists wg; auto|].
    rewrite <- He, <- Htt. exact T2.
  - destruct T as [(-> & Hnf & Hw')|[(n & -> & Hn & Hfit & Hmax & Hs)|(n & Hn & Hbe & _)]].
    + tauto.
    + split; [exact Hwf|]. split; [exact Hd|]. split; [exact Hn|]. split; [exists wg; auto|].
      unfold est_at in *. rewrite He, Htt in *. auto.
    + rewrite <- He. destruct Hbe as [(-> & Hnf & _)|[(-> & Hnf & _)|([(-> & Hnf)|(-> & Hnc)] & _)]]; tauto.
Qed.

Lemma estimate_outcome (nf : Prop) e t L A (tight : Prop) w ids vals s w' :
  Good nf e t L A tight w -> typed_block ids vals -> EstimateBlockSize ids vals w = (Ok s, w') ->
  well_formed ids vals /\ declared e /\ s = estimate e (zlen (bytes_of w)) ids vals /\ bytes_of w' = bytes_of w
  /\ Good nf e t L A tight w'.
Proof.
  intros Hg Ht HE. destruct (Estimate_state nf ids vals w Ht) as [Hst _]. specialize (Hst e t L A tight Hg).
  cbn [run_call] in Hst. rewrite HE in Hst. destruct Hst as [_ Hg'].
  destruct (Good_bytes nf e t L A tight w Hg) as (wg & Hw & He & Htt).
  assert (Henc : w_enc w = e) by (destruct Hw as (fs & -> & _); exact He).
  destruct (Z.eq_dec (zlen ids) (zlen vals)) as [El|Nl].
  2:{ exfalso. unfold EstimateBlockSize in HE. replace (zlen ids =? zlen vals) with false in HE by lia. discriminate. }
  destruct (Z.eq_dec (zlen ids) 0) as [E0|N0].
  { exfalso. unfold EstimateBlockSize in HE. replace (zlen ids =? zlen vals) with true in HE by lia.
    replace (zlen ids =? 0) with true in HE by lia. discriminate. }
  assert (declared e \/ ~ declared e) as [Hd|Hd] by (unfold declared; lia).
  2:{ exfalso. rewrite EstimateBlockSize_undeclared in HE by (try assumption; rewrite Henc; exact Hd). discriminate. }
  split; [split; [exact El|intros ->; apply N0; reflexivity]|]. split; [exact Hd|].
  pose proof (EstimateBlockSize_rule nf wg (bytes_of w) (zlen (bytes_of w)) ids vals ltac:(rewrite He; exact Hd)
    (typed_good ids vals Ht El N0) (zlen_nonneg _) w Hw) as T.
  rewrite HE in T. destruct T as [-> Hw']. split; [rewrite He; reflexivity|]. split; [eapply End_bytes; exact Hw'|exact Hg'].
Qed.

Lemma typed_prefix ids vals n : typed_block ids vals -> typed_block (ztake n ids) (ztake n vals).
Proof.
  intros (H1 & H2 & H3 & H4). split; [apply Forall_ztake; exact H1|]. split; [apply Forall_ztake; exact H2|].
  rewrite !zlen_ztake. split; lia.
Qed.

Lemma closed_estimate ids vals w s w' : closed w -> EstimateBlockSize ids vals w = (Ok s, w') -> False.
Proof. intros H E. destruct (Estimate_closed ids vals w H) as (e & E' & _). congruence. Qed.

(** A stored block and the estimate made in the same state. *)
Lemma stored_growth (nf : Prop) wg e D w ids vals w' :
  End nf wg D w -> w_enc wg = e -> stored_at nf wg D ids vals w' ->
  exists added, bytes_of w' = D ++ added /\ zlen added = estimate e (zlen D) ids vals.
Proof.
  intros Hw He (C1 & C2 & Hw'). rewrite He in *. exists (block_image e (zlen D) ids vals).
  split; [eapply End_bytes; exact Hw'|]. symmetry. apply estimate_image; assumption.
Qed.

Theorem estimate_exact options faults h w ids vals s w1 :
  running options faults h w -> no_torn_block h -> typed_block ids vals ->
  EstimateBlockSize ids vals w = (Ok s, w1) ->
  bytes_of w1 = bytes_of w
  /\ (forall u w2, WriteBlock ids vals w1 = (Ok u, w2) ->
        exists added, bytes_of w2 = bytes_of w1 ++ added /\ zlen added = s)
  /\ (forall ids' vals' w2, typed_block ids' vals' ->
        WriteBlock ids' vals' w1 = (Err (ErrBlockFull (zlen ids)), w2) ->
        ztake (zlen ids) ids' = ids -> ztake (zlen ids) vals' = vals ->
        exists added, bytes_of w2 = bytes_of w1 ++ added /\ zlen added = s).
Proof.
  intros Hrun Hnt Ht HE.
  destruct (running_good options faults h w Hrun (or_introl Hnt)) as [(L & A & _ & Hg)|Hc];
    [|exfalso; eapply closed_estimate; eassumption].
  destruct (estimate_outcome _ _ _ _ _ _ w ids vals s w1 Hg Ht HE) as (Hwf & Hd & -> & Hb & Hg1).
  split; [exact Hb|]. split.
  - intros u w2 HW. pose proof (write_outcome _ _ _ _ _ _ w1 ids vals Hg1 Ht) as T. rewrite HW in T.
    destruct T as (_ & _ & (wg & Hw & He & _ & Hs) & _). rewrite <- Hb. eapply stored_growth; eassumption.
  - intros ids' vals' w2 Ht' HW E1 E2. pose proof (write_outcome _ _ _ _ _ _ w1 ids' vals' Hg1 Ht') as T. rewrite HW in T.
    destruct T as (_ & _ & _ & (wg & Hw & He & _ & Hs) & _). rewrite E1, E2 in Hs. rewrite <- Hb. eapply stored_growth; eassumption.
Qed.

Theorem target_respected options faults h w ids vals :
  running options faults h w -> no_torn_block h -> typed_block ids vals ->
  (forall u w', WriteBlock ids vals w = (Ok u, w') ->
     zlen ids = 1 \/ zlen (bytes_of w') - zlen (bytes_of w) <= target_of options)
  /\ (forall n w', WriteBlock ids vals w = (Err (ErrBlockFull n), w') ->
     1 <= n < zlen ids
     /\ (n = 1 \/ zlen (bytes_of w') - zlen (bytes_of w) <= target_of options)
     /\ (fault_free faults -> forall m s w1, n < m <= zlen ids ->
           EstimateBlockSize (ztake m ids) (ztake m vals) w = (Ok s, w1) -> target_of options < s)).
Proof.
  intros Hrun Hnt Ht.
  destruct (running_good options faults h w Hrun (or_introl Hnt)) as [(L & A & _ & Hg)|Hc].
  2:{ destruct (closed_write ids vals w Hc) as (er & -> & Hs). split; [discriminate|].
      intros n w' E. injection E as -> _. destruct Hs as [?|[?|[?|[?|?]]]]; discriminate. }
  pose proof (write_outcome _ _ _ _ _ _ w ids vals Hg Ht) as T. split.
  - intros u w' HW. rewrite HW in T. destruct T as (_ & _ & (wg & Hw & He & _ & Hs) & T).
    destruct (stored_growth _ wg _ _ w ids vals w' Hw He Hs) as (added & -> & Hz). rewrite zlen_app. lia.
  - intros n w' HW. rewrite HW in T. destruct T as (_ & _ & Hn & (wg & Hw & He & _ & Hs) & T1 & T2).
    split; [exact Hn|]. split.
    + destruct (stored_growth _ wg _ _ w _ _ w' Hw He Hs) as (added & -> & Hz). rewrite zlen_app. lia.
    + intros Hff m s w1 Hm HE.
      destruct (estimate_outcome _ _ _ _ _ _ w _ _ s w1 Hg (typed_prefix ids vals m Ht) HE) as (_ & _ & -> & _).
      apply T2; assumption.
Qed.

(** ** The configuration never changes *)
Definition conf {A} (m : M A) : Prop := forall w, w_enc (snd (m w)) = w_enc w /\ w_target (snd (m w)) = w_target w.
Lemma conf_bind {A B} (m : M A) (k : A -> M B) : conf m -> (forall a, conf (k a)) -> conf (mbind m k).
Proof.
  intros H1 H2 w. unfold mbind. destruct (H1 w) as [E1 E2]. destruct (m w) as [[a|e|] w']; cbn [snd] in *; auto.
  destruct (H2 a w') as [F1 F2]. rewrite F1, F2. auto.
Qed.
Lemma conf_pure {A} (r : res A) : conf (fun w => (r, w)).
Proof. intros w. auto. Qed.
Lemma conf_get : conf mget.
Proof. intros w. auto. Qed.
Lemma conf_modify f : (forall w, w_enc (f w) = w_enc w /\ w_target (f w) = w_target w) -> conf (mmodify f).
Proof. intros H w. apply H. Qed.
Lemma conf_file {A} (op : file -> res A * file) : conf (mfile op).
Proof. intros w. unfold mfile. destruct (op (w_file w)) as [r f]. auto. Qed.
Lemma conf_writeAll l : forall acc, conf (writeAll l acc).
Proof. induction l as [|bs l IH]; intros acc; cbn [writeAll]; [apply conf_pure|]. apply conf_bind; [apply conf_file|]. intros n. apply IH. Qed.
Ltac cf := lazymatch goal with
  | |- conf (mbind _ _) => apply conf_bind; [cf|intros; cf]
  | |- conf (let '(_, _) := ?x in _) => destruct x; cf
  | |- conf (match ?x with _ => _ end) => destruct x; cf
  | |- conf (seek _ _) => apply conf_file
  | |- conf (write _) => apply conf_file
  | |- conf (writeInt _ _) => apply conf_file
  | |- conf (writeAll _ _) => apply conf_writeAll
  | |- conf sync => apply conf_file
  | |- conf closeFile => apply conf_file
  | |- conf mget => apply conf_get
  | |- conf (mret _) => apply conf_pure
  | |- conf (mfail _) => apply conf_pure
  | |- conf mpanic => apply conf_pure
  | |- conf (mlift _) => apply conf_pure
  | |- conf (mmodify _) => apply conf_modify; intros; split; reflexivity
  | |- conf (let x := _ in _) => cbv zeta; cf
  | _ => idtac
  end.
Lemma conf_header now : conf (writeHeader now).
Proof. unfold writeHeader. cf. Qed.
Lemma conf_estimate ids vals : conf (EstimateBlockSize ids vals).
Proof. unfold EstimateBlockSize. cf. Qed.
Lemma conf_find ids vals : forall idx opt, conf (findOptimal ids vals idx opt).
Proof.
  induction idx as [|i idx IH]; intros opt w; cbn [findOptimal]; [apply conf_pure|].
  destruct (conf_estimate (ztake i ids) (ztake i vals) w) as [E1 E2].
  destruct (EstimateBlockSize (ztake i ids) (ztake i vals) w) as [[s|e|] w']; cbn [snd] in *; auto.
  destruct (s <=? w_target w'); [|auto]. destruct (IH i w') as [F1 F2]. rewrite F1, F2. auto.
Qed.
Lemma conf_internal ids vals : conf (writeBlockInternal ids vals).
Proof. unfold writeBlockInternal, writeBlockHeader, writeSection. cf. Qed.
Lemma conf_write ids vals : conf (WriteBlock ids vals).
Proof.
  unfold WriteBlock. destruct (negb _); [apply conf_pure|]. destruct (_ =? 0); [apply conf_pure|].
  apply conf_bind; [apply conf_estimate|]. intros s. apply conf_bind; [apply conf_get|]. intros w.
  destruct (_ && _); [|apply conf_internal]. apply conf_bind; [apply conf_find|]. intros n.
  apply conf_bind; [apply conf_internal|]. intros _. apply conf_pure.
Qed.
Lemma conf_entries : forall idx, conf (writeFooterEntries idx).
Proof.
  induction idx as [|i idx IH]; cbn [writeFooterEntries]; [apply conf_pure|].
  apply conf_bind; [apply conf_get|]. intros w. destruct (nth_error (w_positions w) (Z.to_nat i)), (nth_error (w_sizes w) (Z.to_nat i)), (nth_error (w_stats w) (Z.to_nat i)); try apply conf_pure.
  apply conf_bind; [unfold writeBlockFooter; cf|]. intros _. apply IH.
Qed.
Lemma conf_finalize now : conf (Finalize now).
Proof. unfold Finalize, writeGlobalIDBitmap. cf. all: apply conf_entries. Qed.
Lemma conf_call c : conf (run_call c).
Proof.
  destruct c; cbn [run_call]; unfold FinalizeAndClose, Close; try apply conf_estimate; cf; first [apply conf_write|apply conf_finalize].
Qed.
Lemma conf_calls cs : forall w, w_enc (snd (run_calls cs w)) = w_enc w /\ w_target (snd (run_calls cs w)) = w_target w.
Proof.
  induction cs as [|c cs IH]; intros w; cbn [run_calls]; [auto|]. destruct (conf_call c w) as [E1 E2].
  destruct (run_call c w) as [r w1]. cbn [snd] in *. destruct (IH w1) as [F1 F2]. destruct (run_calls cs w1) as [rs w2]. cbn [snd] in *.
  rewrite F1, F2. auto.
Qed.
Lemma conf_options options : forall w, w_enc (fold_left applyOption options w) = fst (fold_left (fun '(e, t) o => match o with WithEncoding e' => (e', t) | WithBlockSize t' => (e, t') end) options (w_enc w, w_target w))
  /\ w_target (fold_left applyOption options w) = snd (fold_left (fun '(e, t) o => match o with WithEncoding e' => (e', t) | WithBlockSize t' => (e, t') end) options (w_enc w, w_target w)).
Proof.
  induction options as [|o os IH]; intros w; cbn [fold_left]; [auto|]. destruct (IH (applyOption w o)) as [E1 E2]. rewrite E1, E2.
  destruct o; cbn [applyOption set_enc set_target w_enc w_target]; auto.
Qed.
Lemma running_configured options faults h w : running options faults h w ->
  w_enc w = encoding_of options /\ w_target w = target_of options.
Proof.
  intros [now0 w0 f0 cs outs HN _ _ HR _ _]. destruct (conf_calls cs w0) as [E1 E2]. rewrite HR in E1, E2. cbn [snd] in *. rewrite E1, E2.
  unfold NewWriter in HN. set (wi := mkWriter _ _ _ _ _ _ _ _) in HN. destruct (conf_options options wi) as [O1 O2].
  destruct (conf_header now0 (fold_left applyOption options wi)) as [H1 H2].
  destruct (writeHeader now0 (fold_left applyOption options wi)) as [[u|e|] w']; try discriminate. cbn [snd] in *.
  apply (f_equal fst) in HN. cbn [fst] in HN. injection HN as <-. rewrite H1, H2, O1, O2. unfold wi. cbn [w_enc w_target]. auto.
Qed.

Theorem bad_blocks_refused options faults h w ids vals :
  running options faults h w ->
  (zlen ids <> zlen vals -> WriteBlock ids vals w = (Err ErrLength, w))
  /\ WriteBlock [] [] w = (Err ErrEmpty, w)
  /\ (~ 0 <= encoding_of options <= 7 -> well_formed ids vals -> WriteBlock ids vals w = (Err ErrEncoding, w)).
Proof.
  intros Hr. destruct (running_configured _ _ _ _ Hr) as [He _]. rewrite <- He. split; [apply WriteBlock_length|]. split; [apply WriteBlock_empty|].
  intros Hd [Hl Hn]. apply WriteBlock_undeclared; [exact Hl| |exact Hd].
  intros E. apply zlen_0_nil in E. contradiction.
Qed.

(** ** No faults: every call does what is expected *)
Lemma call_expected c e t L A (tight : Prop) w : consistent e ->
  typed_call c -> Good True e t L A tight w -> is_closing c = false ->
  let '(r, w') := run_call c w in
  expected c r /\ exists L' A', Good True e t L' A' False w'.
Proof.
  intros He Ht Hg Hcl. assert (Hd : declared e) by (unfold consistent, declared in *; lia).
  pose proof (call_good True c e t L A tight w Ht Hg) as T.
  destruct c as [ids vals|ids vals|now|now|]; try discriminate.
  - pose proof (write_outcome True e t L A tight w ids vals Hg Ht) as O.
    cbn [run_call] in *. unfold mbind, mret in *. destruct (WriteBlock ids vals w) as [[u|er|] w']; [| |contradiction].
    + split; [constructor; apply O|]. destruct T as (_ & _ & [(? & ? & _ & [?|?] & _)|[(? & _)|[(L' & bs & ad & _ & _ & G & _)|(? & ? & _ & _ & ?)]]]); try discriminate.
      exists L', (A ++ ad). eapply Good_weaken; [|exact G]. tauto.
    + assert (expected (CWriteBlock ids vals) (Err er)) as Hx.
      { destruct er; try solve [exfalso; decompose [or and] O; try discriminate; tauto].
        - apply exp_length with (ids := ids) (vals := vals); [auto|]. decompose [or and] O; try discriminate; assumption.
        - decompose [or and] O; try discriminate. subst. apply exp_empty. auto.
        - destruct O as (O1 & _ & O2 & _). apply exp_full; assumption. }
      split; [exact Hx|].
      destruct T as (_ & _ & [(? & ? & _ & Hr & Hn)|[(? & _)|[(L' & bs & ad & _ & _ & G & _)|(? & ? & _ & _ & ?)]]]); try discriminate.
      * tauto.
      * exists L', (A ++ ad). eapply Good_weaken; [|exact G]. tauto.
  - destruct (Estimate_state True ids vals w Ht) as [Hst _]. specialize (Hst e t L A tight Hg). cbn [run_call] in *.
    destruct (EstimateBlockSize ids vals w) as [r w'] eqn:HE. destruct Hst as [[Hp Herr] Hg'].
    split; [|exists L, A; eapply Good_weaken; [|exact Hg']; tauto].
    destruct r as [s|er|]; [| |congruence].
    + constructor. destruct (estimate_outcome _ _ _ _ _ _ w ids vals s w' Hg Ht HE) as [X _]. exact X.
    + unfold EstimateBlockSize in HE.
      destruct (Z.eqb_spec (zlen ids) (zlen vals)) as [El|Nl]; cbn [negb] in HE.
      2:{ injection HE as <- _. apply exp_length with (ids := ids) (vals := vals); auto. }
      destruct (Z.eqb_spec (zlen ids) 0) as [E0|N0].
      { injection HE as <- _. rewrite E0 in El. symmetry in El. apply zlen_0_nil in E0, El. subst. apply exp_empty. auto. }
      exfalso. destruct (Good_bytes True e t L A tight w Hg) as (wg & Hw & Hwe & Htt).
      pose proof (EstimateBlockSize_rule True wg (bytes_of w) (zlen (bytes_of w)) ids vals ltac:(rewrite Hwe; exact Hd)
        (typed_good ids vals Ht El N0) (zlen_nonneg _) w Hw) as T'.
      unfold EstimateBlockSize in T'. replace (zlen ids =? zlen vals) with true in T' by lia.
      replace (zlen ids =? 0) with false in T' by lia. cbn [negb] in T'. rewrite HE in T'. tauto.
  - pose proof (Finalize_good True e t L A tight now w Hg) as G. cbn [run_call] in *. unfold mbind, mret in *.
    destruct (Finalize now w) as [[u|er|] w']; [|tauto|contradiction].
    split; [constructor|]. exists L, A. tauto.
Qed.

Lemma expected_finalizes cs : forall w outs w', run_calls cs w = (outs, w') -> Forall2 expected cs outs -> finalizes_ok cs w.
Proof.
  induction cs as [|c cs IH]; intros w outs w' Hr Hx; [exact I|]. cbn [run_calls finalizes_ok] in *.
  destruct (run_call c w) as [r w1]. destruct (run_calls cs w1) as [rs w2] eqn:Er. injection Hr as <- <-.
  inversion Hx as [|? ? ? ? H1 H2]; subst. cbn [fst snd]. split; [|eapply IH; eassumption].
  intros Hf. left. destruct H1; try discriminate; eauto;
      match goal with H : _ \/ _ |- _ => destruct H; subst; discriminate end.
Qed.

Theorem no_faults_no_errors now0 options faults cs :
  fault_free faults -> Forall typed_option options -> consistent (encoding_of options) ->
  Forall typed_call cs -> (forall c, In c cs -> is_closing c = false) ->
  exists w0 f0 outs w, NewWriter now0 options faults = (Ok w0, f0)
    /\ run_calls cs w0 = (outs, w) /\ Forall2 expected cs outs
    /\ running options faults (combine cs outs) w
    /\ forall now, fst (run_call (CFinalize now) w) = Ok 0 /\ fst (run_call (CFinalizeAndClose now) w) = Ok 0.
Proof.
  intros Hff Hopt He Hty Hcl.
  pose proof (NewWriter_rule True now0 options faults (fun _ => Hff)) as T.
  destruct (NewWriter now0 options faults) as [[w0|er|] f0] eqn:Hnew;
    [clear T|exfalso; destruct T as (_ & T & _); apply T; exact I|contradiction].
  exists w0, f0. pose proof (NewWriter_good True now0 options faults w0 f0 (fun _ => Hff) Hnew) as Hg0.
  destruct (run_calls cs w0) as [outs w] eqn:Hrun. exists outs, w. split; [reflexivity|]. split; [reflexivity|].
  assert (G : Forall2 expected cs outs /\ exists L A, Good True (encoding_of options) (target_of options) L A False w).
  { assert (Hg0' : exists L A, Good True (encoding_of options) (target_of options) L A False w0).
    { exists [], []. eapply Good_weaken; [|exact Hg0]. tauto. }
    clear Hg0 Hnew. revert w0 outs Hrun Hg0'. induction Hty as [|c cs Hc _ IH]; intros w0 outs Hrun (L & A & Hg).
    - cbn in Hrun. injection Hrun as <- <-. split; [constructor|]. exists L, A. exact Hg.
    - cbn [run_calls] in Hrun. pose proof (call_expected c _ _ L A False w0 He Hc Hg (Hcl c (or_introl eq_refl))) as X.
      destruct (run_call c w0) as [r w1]. destruct (run_calls cs w1) as [rs w2] eqn:Er. injection Hrun as <- <-.
      destruct X as [X1 X2]. destruct (IH (fun c' Hin => Hcl c' (or_intror Hin)) w1 rs Er X2) as [Y1 Y2].
      split; [constructor; assumption|exact Y2]. }
  destruct G as [G1 (L & A & G2)]. split; [exact G1|]. split.
  - econstructor; try eassumption; [reflexivity|].
    eapply expected_finalizes; eassumption.
  - intros now. pose proof (Finalize_good True _ _ L A False now w G2) as T. cbn [run_call]. unfold FinalizeAndClose.
    unfold mbind, mret. destruct (Finalize now w) as [[u|er|] w']; [|tauto|contradiction]. split; [reflexivity|].
    destruct T as ((wg & D & (fs & -> & Hfs) & _) & _). unfold closeFile, mfile, file_close. cbn.
    specialize (Hfs I). destruct Hfs as [|x fs <- _]; reflexivity.
Qed.

Lemma run_calls_app cs1 cs2 : forall w, run_calls (cs1 ++ cs2) w
  = let '(o1, w1) := run_calls cs1 w in let '(o2, w2) := run_calls cs2 w1 in (o1 ++ o2, w2).
Proof.
  induction cs1 as [|c cs1 IH]; intros w; cbn [app run_calls].
  - destruct (run_calls cs2 w). reflexivity.
  - destruct (run_call c w) as [r w1]. rewrite IH. destruct (run_calls cs1 w1) as [o1 v1].
    destruct (run_calls cs2 v1) as [o2 v2]. reflexivity.
Qed.
Lemma combine_app' {A B} (a1 a2 : list A) (b1 b2 : list B) : length a1 = length b1 ->
  combine (a1 ++ a2) (b1 ++ b2) = combine a1 b1 ++ combine a2 b2.
Proof.
  revert b1. induction a1 as [|x a1 IH]; intros [|y b1] H; try discriminate; [reflexivity|].
  cbn. f_equal. apply IH. injection H as H. exact H.
Qed.
Lemma run_Finalize now w : fst (run_call (CFinalize now) w) = Ok 0 ->
  exists w', Finalize now w = (Ok tt, w') /\ run_call (CFinalize now) w = (Ok 0, w').
Proof.
  cbn [run_call]. unfold mbind, mret. destruct (Finalize now w) as [[[]|e|] w']; cbn; try discriminate. eauto.
Qed.

Theorem finalize_again now0 options faults cs1 now1 cs2 now2 :
  fault_free faults -> Forall typed_option options -> faithful (encoding_of options) ->
  Forall typed_call (cs1 ++ cs2) -> (forall c, In c (cs1 ++ cs2) -> is_closing c = false) ->
  exists w0 f0 outs1 w1 w1' outs2 w2 w2',
    NewWriter now0 options faults = (Ok w0, f0)
    /\ run_calls cs1 w0 = (outs1, w1) /\ Forall2 expected cs1 outs1
    /\ Finalize now1 w1 = (Ok tt, w1')
    /\ run_calls cs2 w1' = (outs2, w2) /\ Forall2 expected cs2 outs2
    /\ Finalize now2 w2 = (Ok tt, w2')
    /\ (fits w2' (bytes_of w2') ->
        exists blocks1 blocks2 r, stored (combine cs1 outs1) blocks1 /\ stored (combine cs2 outs2) blocks2
          /\ NewReader (bytes_of w2') = Ok r /\ BlockCount r = zlen (blocks1 ++ blocks2)
          /\ forall i, is_u64 i ->
               GetPairs r i = match nth_error (blocks1 ++ blocks2) (Z.to_nat i) with
                              | Some b => Ok b
                              | None => Err ErrIndex
                              end).
Proof.
  intros Hff Hopt He Hty Hcl. apply Forall_app in Hty. destruct Hty as [Hty1 Hty2].
  assert (HA : Forall typed_call (cs1 ++ CFinalize now1 :: cs2)).
  { apply Forall_app. split; [exact Hty1|]. constructor; [exact I|exact Hty2]. }
  assert (HB : forall c, In c (cs1 ++ CFinalize now1 :: cs2) -> is_closing c = false).
  { intros c Hin. apply in_app_or in Hin. destruct Hin as [Hin|[<-|Hin]]; [|reflexivity|]; apply Hcl, in_or_app; auto. }
  destruct (no_faults_no_errors now0 options faults (cs1 ++ CFinalize now1 :: cs2) Hff Hopt (faithful_consistent _ He) HA HB)
    as (w0 & f0 & outs & w & Hnew & Hrun & Hexp & Hst & Hfin).
  rewrite run_calls_app in Hrun. destruct (run_calls cs1 w0) as [outs1 w1] eqn:E1. cbn [run_calls] in Hrun.
  destruct (run_call (CFinalize now1) w1) as [r1 w1'] eqn:Ef1. destruct (run_calls cs2 w1') as [outs2 w2] eqn:E2.
  injection Hrun as <- <-. assert (Hexp' := Hexp). apply Forall2_app_inv_l in Hexp. destruct Hexp as (x1 & x2 & X1 & X2 & Hx).
  pose proof (run_calls_length _ _ _ _ E1) as Hlen.
  assert (x1 = outs1 /\ x2 = r1 :: outs2) as [-> ->].
  { assert (length cs1 = length x1) by (clear - X1; induction X1; cbn; congruence). assert (length x1 = length outs1) as Hl by congruence. clear - Hl Hx.
    revert outs1 Hl Hx. induction x1 as [|y x1 IH]; intros [|z o] Hl Hx; try discriminate; [auto|].
    cbn in Hx. injection Hx as -> Hx. injection Hl as Hl. destruct (IH o Hl Hx) as [-> ->]. auto. }
  inversion X2 as [|c0 r0 cs0 rs0 Hx1 Hx2]; subst. assert (r1 = Ok 0) as -> by (inversion Hx1; subst; try reflexivity;
    match goal with H : _ \/ _ |- _ => destruct H; discriminate end).
  destruct (run_Finalize now1 w1) as (v1 & F1 & F1'); [rewrite Ef1; reflexivity|]. rewrite Ef1 in F1'. injection F1' as <-.
  destruct (Hfin now2) as [Hf2 _]. destruct (run_Finalize now2 w2 Hf2) as (w2' & F2 & F2').
  exists w0, f0, outs1, w1, w1', outs2, w2, w2'. repeat (split; [assumption|]). intros Hfit.
  assert (HF : finished_run options faults (combine cs1 outs1 ++ (CFinalize now1, Ok 0) :: combine cs2 outs2) now2 w2').
  { assert (Hr : run_calls (cs1 ++ CFinalize now1 :: cs2) w0 = (outs1 ++ Ok 0 :: outs2, w2)).
    { rewrite run_calls_app, E1. cbn [run_calls]. rewrite Ef1, E2. reflexivity. }
    eapply finished with (cs := cs1 ++ CFinalize now1 :: cs2) (outs := outs1 ++ Ok 0 :: outs2) (fin := CFinalize now2);
      [exact Hnew|exact Hopt|exact HA| | | |left; reflexivity|exact F2'|exact Hfit].
    - exact Hr.
    - rewrite combine_app' by congruence. reflexivity.
    - eapply expected_finalizes; [exact Hr|exact Hexp']. }
  destruct (blocks_read_back _ _ _ _ _ HF He) as (r & blocks & Hs & HR & HC & HG).
  destruct (stored_split _ _ _ Hs) as (b1 & b2 & -> & S1 & S2).
  inversion S2 as [|c' r' h' m b2' Hm Hb]; subst. inversion Hm; subst. cbn [app] in *.
  exists b1, b2', r. repeat (split; [assumption|]). exact HG.
Qed.

(** ** Closed writers *)
Theorem closed_writer_inert options faults h w c r w1 cs outs w2 :
  running options faults h w -> is_closing c = true -> run_call c w = (r, w1) ->
  (forall now, c = CFinalizeAndClose now -> exists n, r = Ok n) ->
  run_calls cs w1 = (outs, w2) ->
  bytes_of w2 = bytes_of w1 /\ Forall (fun r => exists e, r = Err e) outs.
Proof.
  intros _ Hc Hr Hok Hrun.
  assert (Hcl : closed w1).
  { destruct c as [| | |now|]; try discriminate; cbn [run_call] in Hr.
    - destruct (Hok now eq_refl) as [n ->]. unfold FinalizeAndClose in Hr. unfold mbind at 1 2 in Hr. unfold mret in Hr.
      destruct (Finalize now w) as [[u|er|] w']; try discriminate.
      destruct (closeFile_closes w') as (X & _). destruct (closeFile w') as [[u'|er|] w'']; try discriminate.
      injection Hr as _ <-. exact X.
    - unfold mbind, mret, Close in Hr. destruct (closeFile_closes w) as (X & _ & _ & _ & Hp).
      destruct (closeFile w) as [[u'|er|] w'']; [| |contradiction Hp; reflexivity]; injection Hr as _ <-; exact X. }
  destruct (run_calls_closed cs w1 Hcl) as [E1 E2]. rewrite Hrun in E1, E2. cbn [fst snd] in *. subst. auto.
Qed.

(** ** The global ID bitmap *)
Theorem global_ids {Lw : SroarLaws Srr} options faults h now w hp :
  finished_run options faults h now w ->
  exists r blocks p r' hp' b, stored h blocks /\ NewReader (bytes_of w) = Ok r
    /\ GetGlobalIDBitmap r hp = (Ok p, r', hp') /\ nth_error hp' p = Some b
    /\ (forall id, is_u64 id -> In id (flat_map fst blocks) -> bm_contains b id = true)
    /\ (no_torn_block h -> forall id, is_u64 id -> bm_contains b id = true -> In id (flat_map fst blocks)).
Proof.
  intros H. assert (Hty : Forall (fun p => typed_call (fst p)) h).
  { destruct H as [now0 w0 f0 cs outs w1 fin n _ _ Hty _ -> _ _ _ _]. clear - Hty. revert outs.
    induction Hty as [|c cs Hc _ IH]; intros [|o outs]; cbn [combine]; constructor; auto. }
  destruct (finished_facts options faults h now w H) as (blocks & A & X & L & off & Hef & HL & HF & Hlim & HX & HC & HR).
  set (bb := fold_left bm_set A bm_new) in *.
  pose proof (loadGlobalIDBitmap_finalized _ _ _ _ _ _ _ _ HF Hlim) as HB.
  destruct (law_ser bb) as (b' & Hb' & Heq). rewrite Hb' in HB.
  eexists _, blocks, (length hp), _, (hp ++ [b']), b'.
  split; [eapply effects_stored; exact Hef|]. split; [exact HR|].
  split; [unfold GetGlobalIDBitmap; cbn [the_reader r_globalIDs r_cacheGlobalIDs]; rewrite HB; reflexivity|].
  split; [rewrite nth_error_app2 by lia; rewrite Nat.sub_diag; reflexivity|].
  destruct (effects_typed _ _ _ Hef Hty) as [HA _]. split.
  - intros id Hid Hin. rewrite (Heq id Hid). unfold bb. apply bm_fold_contains; [assumption|assumption|].
    left. eapply effects_ids; eassumption.
  - intros Hnt id Hid Hc. rewrite (Heq id Hid) in Hc. unfold bb in Hc. apply bm_fold_contains in Hc; [|assumption|assumption].
    destruct Hc as [Hin|Hc]; [|rewrite law_new in Hc by assumption; discriminate].
    rewrite <- (effects_ids_exact _ _ _ Hef Hnt). exact Hin.
Qed.

End Props.
