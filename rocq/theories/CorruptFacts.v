(** Changed bytes that the reader does not notice. *)
From Verif Require Import Machine MachineFacts Encoding EncodingFacts FileIO Sroar Writer Spec FileFacts
  WriterFacts BlockFacts FinalFacts Reader ReaderFacts DecodeFacts HistoryFacts RunFacts ReachFacts WriterProps Aggregate.
Ltac Zify.zify_post_hook ::= Z.div_mod_to_equations.

Definition with_data (r : reader) (data : list Z) : reader :=
  mkReader data (r_open r) (r_header r) (r_meta r) (r_index r) (r_globalIDs r) (r_cacheGlobalIDs r).

(** ** Opening a file looks only at the header and the footer *)
Section Frame.
Variables A old new B : list Z.
Hypothesis Hsame : zlen old = zlen new.
Let F := A ++ old ++ B.
Let F' := A ++ new ++ B.

Lemma frame_len : zlen F' = zlen F.
Proof using Hsame. unfold F, F'. rewrite !zlen_app. lia. Qed.
Lemma frame_slice off n : 0 <= off -> 0 <= n -> off + n <= zlen A \/ zlen A + zlen old <= off -> slice F' off n = slice F off n.
Proof using Hsame.
  intros Ho Hn [H|H]; unfold F, F'.
  - rewrite !slice_app_l by lia. reflexivity.
  - rewrite !(slice_app_r A) by (pose proof (zlen_nonneg old); lia). rewrite !slice_app_r by lia. rewrite Hsame. reflexivity.
Qed.
Lemma frame_read open off n : off < 0 \/ off + n <= zlen A \/ zlen A + zlen old <= off ->
  readBytesAt F' open off n = readBytesAt F open off n.
Proof using Hsame.
  intros H. unfold readBytesAt. destruct (Z.ltb_spec n 0); [reflexivity|]. destruct (Z.ltb_spec off 0); [reflexivity|].
  rewrite frame_slice by lia. reflexivity.
Qed.

Theorem NewReader_frame r : 64 <= zlen A -> zlen A + zlen old <= zlen F - 24 -> zlen F < two63 ->
  NewReader F = Ok r ->
  zlen A + zlen old <= i64 (zlen F - 24 - i64 (le_val (slice F (zlen F - 24) 8))) ->
  NewReader F' = Ok (with_data r F').
Proof using Hsame.
  intros HA HB HS H HT. unfold NewReader in *.
  assert (E1 : readHeader F' = readHeader F).
  { unfold readHeader. rewrite frame_read by (unfold headerSize; lia). reflexivity. }
  rewrite E1. destruct (readHeader F) as [h| |]; cbn [rbind] in *; try discriminate.
  assert (E2 : readFooter F' h = readFooter F h).
  { unfold readFooter. rewrite frame_len. destruct (Z.ltb_spec (zlen F) 24); [reflexivity|].
    rewrite frame_read by lia.
    rewrite readBytesAt_ok by lia. cbn [rbind]. unfold readBufferedUint64, readBufferedUint32.
    assert (L24 : zlen (slice F (zlen F - 24) 24) = 24) by (rewrite zlen_slice; lia).
    rewrite (readBuffered_ok 8 (slice F (zlen F - 24) 24) 0 (slice F (zlen F - 24) 8)) by
      (try lia; rewrite slice_slice by lia; f_equal; lia). cbn [rbind].
    destruct (readBuffered 8 (slice F (zlen F - 24) 24) 8); cbn [rbind]; [|reflexivity|reflexivity].
    destruct (readBuffered 8 (slice F (zlen F - 24) 24) 16); cbn [rbind]; [|reflexivity|reflexivity].
    destruct (negb _); [reflexivity|].
    set (S := i64 (zlen F - 24 - i64 (le_val (slice F (zlen F - 24) 8)))) in *.
    destruct (S <? 64); [reflexivity|]. rewrite frame_read by lia.
    destruct (readBytesAt F true S 4) as [cb| |]; cbn [rbind]; [|reflexivity|reflexivity].
    destruct (readBuffered 4 cb 0) as [c| |]; cbn [rbind]; [|reflexivity|reflexivity].
    rewrite frame_read; [reflexivity|].
    assert (is_i64 S) by apply i64_range. unfold is_i64, i64, two63, two64 in *. lia. }
  rewrite E2. destruct (readFooter F h) as [[[h' m] ix]| |]; cbn [rbind] in *; try discriminate. injection H as <-. reflexivity.
Qed.
End Frame.

Lemma Aggregate_data {Srr : Sroar} r data : r_index r <> [] -> Aggregate (with_data r data) = Aggregate r.
Proof.
  intros H. unfold Aggregate, aggregateSequential. cbn [DefaultAggregateOptions has_filter o_filter o_deny o_skip with_data r_index].
  assert (zlen (r_index r) > 0) by (destruct (r_index r); [congruence|rewrite zlen_cons; pose proof (zlen_nonneg l); lia]).
  destruct (Z.gtb_spec (zlen (r_index r)) 0); [|lia]. reflexivity.
Qed.

(** Replacing one element. *)
Definition replace_at {A} (j : nat) (x : A) (l : list A) : list A := firstn j l ++ x :: skipn (S j) l.
Lemma replace_at_split {A} (l : list A) j x y : nth_error l j = Some y -> exists l1 l2, l = l1 ++ y :: l2 /\ replace_at j x l = l1 ++ x :: l2 /\ length l1 = j.
Proof.
  intros H. apply nth_error_split in H. destruct H as (l1 & l2 & -> & Hl). exists l1, l2. split; [reflexivity|]. split; [|exact Hl].
  unfold replace_at. subst j. rewrite firstn_app, Nat.sub_diag, firstn_all. cbn [firstn]. rewrite app_nil_r. f_equal. f_equal.
  rewrite skipn_app. rewrite skipn_all2 by lia. replace (S (length l1) - length l1)%nat with 1%nat by lia. reflexivity.
Qed.

Section Corrupt.
Context {Srr : Sroar}.

Theorem corruption_unnoticed options faults h now w :
  finished_run options faults h now w -> encoding_of options = EncodingRaw ->
  exists r blocks, NewReader (bytes_of w) = Ok r /\ stored h blocks
    /\ forall i j b v v', nth_error blocks i = Some b -> nth_error (snd b) j = Some v -> is_i64 v' ->
       exists before after r', bytes_of w = before ++ le_bytes 8 v ++ after
         /\ NewReader (before ++ le_bytes 8 v' ++ after) = Ok r'
         /\ r_header r' = r_header r /\ r_index r' = r_index r
         /\ GetPairs r (Z.of_nat i) = Ok b
         /\ GetPairs r' (Z.of_nat i) = Ok (fst b, replace_at j v' (snd b))
         /\ Aggregate r' = Aggregate r.
Proof.
  intros H He. destruct (finished_facts options faults h now w H) as (blocks & A & X & L & off & Hef & HL & HF & Hlim & HX & HC & HR).
  eexists _, blocks. split; [exact HR|]. split; [eapply effects_stored; exact Hef|].
  intros i j b v v' Hb Hv Hv'. rewrite He in *.
  pose proof (fz_data _ _ _ _ _ _ _ _ HF) as HD. pose proof (fz_blocks _ _ _ _ _ _ _ _ HF) as HB.
  pose proof (lim_file _ _ _ _ _ Hlim) as LF. pose proof (lim_index _ _ _ _ _ Hlim) as LI.
  rewrite <- HL, nth_error_map' in Hb. unfold pblock in *. destruct (nth_error L i) as [[p b']|] eqn:Ex; [|discriminate].
  cbn [option_map snd] in Hb. injection Hb as ->.
  assert (Hpl : placed EncodingRaw X (p, b)) by (rewrite Forall_forall in HB; apply HB; eapply nth_error_In; exact Ex).
  destruct b as [ids vals]. cbn [fst snd] in *.
  destruct Hpl as (Hg & HCl & Hp & Hend & Hsl). cbn [fst snd] in *. unfold image_of in *. cbn [fst snd] in *.
  destruct (replace_at_split vals j v' v Hv) as (v1 & v2 & Evals & Erep & Lj).
  set (img := block_image EncodingRaw p ids vals) in *.
  set (pad := zeros (calculatePadding (p + zlen (block_body EncodingRaw ids vals)) PageSize)).
  set (pre := block_header EncodingRaw (stats_of ids vals) ++ block_layout EncodingRaw ids vals ++ concat (map (le_bytes 8) ids) ++ concat (map (le_bytes 8) v1)).
  set (post := concat (map (le_bytes 8) v2) ++ pad).
  assert (Himg : img = pre ++ le_bytes 8 v ++ post).
  { unfold img, block_image, block_body. change (id_chunks EncodingRaw ids) with (map (le_bytes 8) ids).
    change (val_chunks EncodingRaw vals) with (map (le_bytes 8) vals). rewrite Evals at 3. rewrite map_app, concat_app. cbn [map concat].
    unfold pre, post, pad. rewrite <- !app_assoc. reflexivity. }
  set (F := bytes_of w) in *.
  pose proof (zlen_nonneg L) as NL.
  assert (LenF : zlen F = zlen X + 28 + 56 * zlen L) by (rewrite HD, zlen_app, zlen_footer; unfold pblock; lia).
  set (before := ztake p X ++ pre).
  set (after := post ++ zdrop (p + zlen img) X ++ footer_bytes (zlen L) (map (pentry EncodingRaw) L)).
  assert (HFs : F = before ++ le_bytes 8 v ++ after).
  { rewrite HD. unfold before, after. rewrite (slice_full_split X p (zlen img)) at 1 by (try apply zlen_nonneg; lia).
    rewrite Hsl. rewrite Himg at 1. rewrite <- !app_assoc. reflexivity. }
  assert (Limg : zlen img = zlen pre + 8 + zlen post) by (rewrite Himg, !zlen_app, zlen_le_bytes; lia).
  pose proof (zlen_nonneg pre) as Npre. pose proof (zlen_nonneg post) as Npost.
  assert (Lbef : zlen before = p + zlen pre) by (unfold before; rewrite zlen_app, zlen_ztake; lia).
  assert (Hfs : le_val (slice F (zlen F - 24) 8) = 4 + 56 * zlen L).
  { set (C := concat (map (pentry EncodingRaw) L)). assert (LC : zlen C = 56 * zlen L) by (unfold C; rewrite concat_entries_len; reflexivity).
    assert (S8 : slice F (zlen F - 24) 8 = le_bytes 8 (4 + zlen C)).
    { rewrite LenF, HD. unfold footer_bytes. fold C.
      rewrite (app_assoc (le_bytes 4 _) C), (app_assoc X).
      apply slice_mid; [rewrite !zlen_app, !zlen_le_bytes; lia|rewrite zlen_le_bytes; reflexivity]. }
    rewrite S8, le_val_8, u64_id; [lia|]. unfold is_u64, two64, two32 in *. lia. }
  assert (HF' := HR). rewrite HFs in HF' at 1.
  apply (NewReader_frame before (le_bytes 8 v) (le_bytes 8 v') after) in HF'.
  2:{ rewrite !zlen_le_bytes. reflexivity. }
  2:{ lia. }
  2:{ rewrite <- HFs, zlen_le_bytes. lia. }
  2:{ rewrite <- HFs. exact LF. }
  2:{ rewrite <- HFs, Hfs, zlen_le_bytes. rewrite (i64_id (4 + 56 * zlen L)) by (unfold is_i64, two63, two32 in *; lia).
      rewrite i64_id by (unfold is_i64, two63, two32 in *; lia). lia. }
  exists before, after. eexists. split; [exact HFs|]. split; [exact HF'|]. split; [reflexivity|]. split; [reflexivity|].
  assert (Hi : 0 <= Z.of_nat i < zlen L) by (assert (i < length L)%nat by (apply nth_error_Some; congruence); unfold zlen; lia).
  assert (Hiu : is_u64 (Z.of_nat i)) by (unfold is_u64, two64, two32 in *; lia).
  split.
  { rewrite (GetPairs_finalized _ X) by (try assumption; unfold consistent, EncodingRaw; tauto). rewrite Nat2Z.id. unfold pblock. rewrite Ex. reflexivity. }
  split.
  2:{ apply Aggregate_data. cbn [the_reader r_index]. destruct L as [|x0 L0]; [destruct i; discriminate|discriminate]. }
  unfold GetPairs. rewrite i64_id by (unfold is_i64, two63, two32 in *; lia). rewrite Erep.
  set (vals' := v1 ++ v' :: v2).
  assert (Lv : zlen vals' = zlen vals) by (unfold vals'; rewrite Evals, !zlen_app, !zlen_cons; reflexivity).
  change (Ok (ids, vals')) with (Ok (readback EncodingRaw (ids, vals'))).
  assert (Hlay : block_layout EncodingRaw ids vals' = block_layout EncodingRaw ids vals).
  { unfold block_layout. change (val_claim EncodingRaw vals') with (zlen vals' * 8). rewrite Lv. reflexivity. }
  set (BD := block_layout EncodingRaw ids vals' ++ concat (id_chunks EncodingRaw ids) ++ concat (val_chunks EncodingRaw vals') ++ pad).
  set (prebody := block_layout EncodingRaw ids vals ++ concat (map (le_bytes 8) ids) ++ concat (map (le_bytes 8) v1)).
  assert (HBD : BD = prebody ++ le_bytes 8 v' ++ post).
  { unfold BD, prebody, post. rewrite Hlay. change (id_chunks EncodingRaw ids) with (map (le_bytes 8) ids).
    change (val_chunks EncodingRaw vals') with (map (le_bytes 8) vals'). unfold vals'. rewrite map_app, concat_app. cbn [map concat].
    rewrite <- !app_assoc. reflexivity. }
  assert (Hpre : pre = block_header EncodingRaw (stats_of ids vals) ++ prebody) by reflexivity.
  assert (Lpre : zlen pre = 64 + zlen prebody) by (rewrite Hpre, zlen_app, zlen_block_header; reflexivity).
  assert (LBD : zlen BD = zlen img - 64) by (rewrite HBD, !zlen_app, zlen_le_bytes; lia).
  destruct Hg as (G1 & G2 & G3 & G4). cbn [fst snd] in *.
  apply (readBlock_body _ EncodingRaw (Z.of_nat i) p ids vals' pad (entry_of EncodingRaw (p, (ids, vals)))).
  - reflexivity.
  - cbn [with_data r_data]. rewrite !zlen_app, zlen_le_bytes. apply (f_equal zlen) in HFs. rewrite !zlen_app, zlen_le_bytes in HFs. lia.
  - reflexivity.
  - split; [exact G1|]. split; [|cbn [fst snd]; split; [rewrite Lv; exact G3|exact G4]].
    cbn [snd]. unfold vals'. rewrite Evals in G2. apply Forall_app in G2. destruct G2 as [Ga Gb]. inversion Gb; subst.
    apply Forall_app. split; [exact Ga|]. constructor; assumption.
  - split; cbn [fst snd].
    + change (id_claim EncodingRaw ids) with (zlen ids * 8). change (id_chunks EncodingRaw ids) with (map (le_bytes 8) ids). rewrite zlen_concat_fixed. reflexivity.
    + change (val_claim EncodingRaw vals') with (zlen vals' * 8). change (val_chunks EncodingRaw vals') with (map (le_bytes 8) vals'). rewrite zlen_concat_fixed. reflexivity.
  - exact Hp.
  - unfold consistent, EncodingRaw; tauto.
  - cbn [with_data the_reader r_index]. rewrite zlen_map. exact Hi.
  - cbn [with_data the_reader r_index]. rewrite nth_error_map, Nat2Z.id. unfold pblock. rewrite Ex. reflexivity.
  - reflexivity.
  - reflexivity.
  - cbn [entry_of e_size]. unfold image_of. cbn [fst snd]. fold img. fold BD. lia.
  - cbn [with_data r_data entry_of e_size]. unfold image_of. cbn [fst snd]. fold img. 
    apply (f_equal zlen) in HFs. rewrite !zlen_app, zlen_le_bytes in *. lia.
  - cbn [with_data r_data]. fold BD. rewrite HBD at 2. unfold before. rewrite Hpre. unfold after.
    replace (((ztake p X ++ block_header EncodingRaw (stats_of ids vals) ++ prebody) ++ le_bytes 8 v' ++ post ++ zdrop (p + zlen img) X ++ footer_bytes (zlen L) (map (pentry EncodingRaw) L)))
      with ((ztake p X ++ block_header EncodingRaw (stats_of ids vals)) ++ (prebody ++ le_bytes 8 v' ++ post) ++ (zdrop (p + zlen img) X ++ footer_bytes (zlen L) (map (pentry EncodingRaw) L)))
      by (rewrite <- !app_assoc; reflexivity).
    apply slice_mid; [rewrite zlen_app, zlen_ztake, zlen_block_header; lia|rewrite <- HBD; reflexivity].
Qed.

End Corrupt.
