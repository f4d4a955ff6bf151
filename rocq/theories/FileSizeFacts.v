(** How long a finished file is. *)
From Verif Require Import Machine MachineFacts Encoding EncodingFacts FileIO Sroar Writer Spec FileFacts
  WriterFacts BlockFacts FinalFacts Reader ReaderFacts DecodeFacts HistoryFacts RunFacts ReachFacts WriterProps SizeSpec PowerFacts SizeFacts.
Ltac Zify.zify_post_hook ::= Z.div_mod_to_equations.

Lemma page_up_pad n : n + calculatePadding n PageSize = page_up n.
Proof. unfold calculatePadding, PageSize, page_up. destruct (Z.eqb_spec (n mod 4096) 0); lia. Qed.

Section FileSize.
Context {Srr : Sroar}.

Lemma zlen_concat_56 (l : list (Z * (Z * blockStats))) :
  zlen (concat (map (fun '(p, (s, st)) => entry_bytes p s st) l)) = 56 * zlen l.
Proof.
  induction l as [|[p [s st]] l IH]; [reflexivity|]. cbn [map concat]. rewrite zlen_app, zlen_entry_bytes, zlen_cons, IH. lia.
Qed.
Lemma image_size e (x : pblock) :
  zlen (block_body e (fst (snd x)) (snd (snd x))) = content e (fst (snd x)) (snd (snd x)) ->
  fst x + zlen (image_of e x) = page_up (fst x + content e (fst (snd x)) (snd (snd x))).
Proof.
  intros EB. unfold image_of, block_image. rewrite zlen_app, zlen_zeros, EB.
  pose proof (calculatePadding_range (fst x + content e (fst (snd x)) (snd (snd x)))).
  rewrite Z.max_r by lia. rewrite <- page_up_pad. lia.
Qed.
Lemma body_size e D x : consistent e -> placed e D x ->
  zlen (block_body e (fst (snd x)) (snd (snd x))) = content e (fst (snd x)) (snd (snd x)).
Proof.
  intros Hc. destruct x as [p [ids vals]]. intros ((G1 & G2 & G3 & G4) & [C1 C2] & _). cbn [fst snd] in *.
  rewrite <- claimed_content by assumption. unfold block_body, claimed. rewrite !zlen_app, zlen_block_header, C1, C2, zlen_block_layout. lia.
Qed.
Lemma chain_end e D L : consistent e -> Forall (placed e D) L -> forall start stop, chain e start L stop ->
  stop = blocks_end start (map (fun b => content e (fst b) (snd b)) (map snd L)).
Proof.
  intros Hc H. induction H as [|x L Hx _ IH]; intros start stop HC; cbn [chain map blocks_end] in *; [symmetry; exact HC|].
  destruct HC as [<- HC]. apply IH in HC. rewrite HC. f_equal. apply image_size.
  eapply body_size; eassumption.
Qed.

Lemma final_size wg now D : 64 <= zlen D -> zlen (w_positions wg) = w_blockCount wg -> zlen (w_sizes wg) = w_blockCount wg -> zlen (w_stats wg) = w_blockCount wg ->
  zlen (final_data wg now D (zlen D)) = page_up (zlen D + (4 + zlen (bm_ser (w_ids wg)))) + 28 + 56 * w_blockCount wg.
Proof.
  intros HD H1 H2 H3. unfold final_data, with_header.
  assert (LB : zlen (with_bitmap wg D (zlen D)) = zlen D + (4 + zlen (bm_ser (w_ids wg)))).
  { unfold with_bitmap. rewrite overwrite_end by reflexivity. unfold bitmap_bytes. rewrite !zlen_app, zlen_le_bytes. lia. }
  set (H := header_bytes _ _ _ _ _ _ ++ _).
  assert (LH : zlen H = zlen D + (4 + zlen (bm_ser (w_ids wg)))).
  { unfold H. pose proof (zlen_nonneg (bm_ser (w_ids wg))). rewrite zlen_app, zlen_header_bytes, zlen_zdrop by lia. rewrite LB. lia. }
  rewrite !zlen_app, zlen_zeros, LH. pose proof (calculatePadding_range (zlen D + (4 + zlen (bm_ser (w_ids wg))))).
  rewrite Z.max_r by lia. rewrite <- page_up_pad. unfold footer_bytes. rewrite !zlen_app, !zlen_le_bytes.
  assert (LE : zlen (concat (if w_blockCount wg >? 0 then entries_of wg else [])) = 56 * w_blockCount wg).
  { pose proof (zlen_nonneg (w_sizes wg)). destruct (Z.gtb_spec (w_blockCount wg) 0).
    - unfold entries_of. rewrite zlen_concat_56. f_equal. unfold zlen in *. rewrite !combine_length. lia.
    - cbn [concat]. change (zlen (@nil Z)) with 0. lia. }
  rewrite LE. lia.
Qed.

Theorem finalize_size options faults h w fin now n w' :
  running options faults h w -> no_torn_block h -> finalizing fin now -> run_call fin w = (Ok n, w') ->
  exists blocks, stored h blocks
    /\ zlen (bytes_of w') = page_up (zlen (bytes_of w) + bitmap_size blocks) + 28 + 56 * zlen blocks
    /\ (never_finalized h -> consistent (encoding_of options) ->
        zlen (bytes_of w) = blocks_end 64 (map (fun b => content (encoding_of options) (fst b) (snd b)) blocks)).
Proof.
  intros Hrun Hnt Hfin Hlast.
  destruct (running_good options faults h w Hrun (or_introl Hnt)) as [(L & A & He & Hg)|Hcl].
  2:{ exfalso. destruct (run_call_closed fin w Hcl) as (er & E & _). rewrite E in Hlast. discriminate. }
  exists (map snd L). split; [eapply effects_stored; exact He|].
  pose proof (effects_ids_exact _ _ _ He Hnt) as EA.
  destruct Hg as (wg & D & Hw & HD & HB & HP & HA & HC). destruct HB as (B1 & B2 & B3 & B4 & B5 & B6).
  assert (Hd : bytes_of w = D) by (destruct Hw as (fs & -> & _); reflexivity).
  pose proof (Finalize_rule (fault_free faults) wg D (zlen D) now ltac:(lia)) as T.
  assert (P1 : zlen (w_positions wg) = w_blockCount wg) by (rewrite B3, B6, zlen_map; reflexivity).
  assert (P2 : zlen (w_sizes wg) = w_blockCount wg) by (rewrite B4, B6, zlen_map; reflexivity).
  assert (P3 : zlen (w_stats wg) = w_blockCount wg) by (rewrite B5, B6, zlen_map; reflexivity).
  specialize (T ltac:(rewrite B6; apply zlen_nonneg) P2 P3 w Hw).
  assert (HF : bytes_of w' = final_data wg now D (zlen D)).
  { destruct Hfin as [-> | ->]; cbn [run_call] in Hlast.
    - unfold mbind, mret in Hlast. destruct (Finalize now w) as [[a|er|] w1]; try discriminate.
      injection Hlast as _ <-. destruct T as [_ (fs & -> & _)]. reflexivity.
    - unfold FinalizeAndClose in Hlast. unfold mbind at 1 2 in Hlast. unfold mret in Hlast.
      destruct (Finalize now w) as [[a|er|] w1]; try discriminate.
      destruct (closeFile_closes w1) as (_ & C1 & C2 & C3 & _).
      destruct (closeFile w1) as [[u|er|] w2]; try discriminate. injection Hlast as _ <-. cbn [snd] in *.
      unfold bytes_of. rewrite C1. destruct T as [_ (fs & -> & _)]. reflexivity. }
  split.
  - rewrite HF, final_size by assumption. rewrite Hd. unfold bitmap_size. rewrite B6, zlen_map. rewrite HA, EA. reflexivity.
  - intros Hn Hc. rewrite Hd. eapply chain_end; [exact Hc|exact HP|]. apply HC. exact Hn.
Qed.

Theorem file_size options faults h now w :
  finished_run options faults h now w -> no_torn_block h -> never_finalized h -> consistent (encoding_of options) ->
  exists blocks, stored h blocks
    /\ zlen (bytes_of w) = page_up (blocks_end 64 (map (fun b => content (encoding_of options) (fst b) (snd b)) blocks) + bitmap_size blocks)
                           + 28 + 56 * zlen blocks.
Proof.
  intros [now0 w0 f0 cs outs w1 fin n Hnew Hopt Hty Hrun Hh Hok Hfin Hlast _] Hnt Hn Hc.
  destruct (finalize_size options faults h w1 fin now n w) as (blocks & S & E & R); try assumption.
  { econstructor; eassumption. }
  exists blocks. split; [exact S|]. rewrite E, R by assumption. reflexivity.
Qed.
End FileSize.
