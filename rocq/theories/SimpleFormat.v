(** A SimpleWriter's file follows the format document. *)
From Verif Require Import Machine MachineFacts Encoding EncodingFacts FileIO Sroar SroarFacts Writer SimpleWriter Spec SimpleSpec Reader
  FileFacts WriterFacts BlockFacts FinalFacts ReaderFacts DecodeFacts HistoryFacts RunFacts ReachFacts WriterProps AggFacts SimpleFacts
  FormatSpec FormatFacts FormatProps AsWriter.
From Coq Require Import Permutation.
Ltac Zify.zify_post_hook ::= Z.div_mod_to_equations.

Section SimpleFormat.
Context {Srr : Sroar} {Lw : SroarLaws Srr}.

Lemma finalized_conforms F X now e t L off : faithful e ->
  finalized F X now e t L (fold_left bm_set (flat_map fst (map snd L)) bm_new) off ->
  within_limits F e t L (fold_left bm_set (flat_map fst (map snd L)) bm_new) ->
  conforms F t e (u64 now) (fold_left bm_set (flat_map fst (map snd L)) bm_new) (map snd L)
  /\ format_limits F (map snd L)
  /\ (forall id, is_u64 id -> (bm_contains (fold_left bm_set (flat_map fst (map snd L)) bm_new) id = true <-> In id (flat_map fst (map snd L)))).
Proof.
  intros He HF Hlim. set (b := fold_left bm_set (flat_map fst (map snd L)) bm_new) in *.
  pose proof (footer_laid _ _ _ _ _ _ _ _ HF Hlim) as [FF CK].
  pose proof (fz_blocks _ _ _ _ _ _ _ _ HF) as HB. pose proof (lim_enc _ _ _ _ _ Hlim) as LE. pose proof (lim_file _ _ _ _ _ Hlim) as LF.
  assert (HB' : Forall (placed e F) L).
  { rewrite (fz_data _ _ _ _ _ _ _ _ HF). eapply Forall_impl; [|exact HB]. intros x. apply placed_app. }
  assert (HU : Forall is_u64 (flat_map fst (map snd L))).
  { clear - HB'. induction HB' as [|x L Hx _ IH]; [constructor|]. cbn [map flat_map]. apply Forall_app. split; [apply Hx|exact IH]. }
  assert (HIn : forall id, is_u64 id -> (bm_contains b id = true <-> In id (flat_map fst (map snd L)))).
  { intros id Hid. unfold b. rewrite bm_fold_contains by assumption. rewrite law_new by exact Hid. split; [intros [?|?]; [assumption|discriminate]|auto]. }
  split; [|split; [|exact HIn]].
  - exists off, (4 + zlen (bm_ser b)), (zlen X), (map (entry_of e) L).
    split; [rewrite zlen_map; eapply header_laid; eassumption|].
    split; [eapply bitmap_laid; eassumption|]. split; [|split; [exact FF|]].
    + intros id Hin. apply HIn; [|exact Hin]. rewrite Forall_forall in HU. apply HU. exact Hin.
    + clear - HB' He LE LF. induction HB' as [|x L Hx _ IH]; cbn [map]; constructor; [|exact IH].
      split; [apply entry_true; apply Hx|]. destruct (block_laid e F x He LE LF Hx) as (P1 & P2 & _). split; [exact P1|exact P2].
  - split; [exact LF|]. split; [rewrite zlen_map; exact (lim_index _ _ _ _ _ Hlim)|].
    apply Forall_map. eapply Forall_impl; [|exact HB']. intros x ((G1 & G2 & G3 & G4) & _).
    split; [split; [exact G1|]; split; [exact G2|]; lia|]. split; [exact G3|].
    intros E. rewrite E in G4. change (zlen (@nil Z)) with 0 in G4. lia.
Qed.

Theorem simple_conforms srt options faults h sw : simple_run srt options faults h sw -> sorts srt -> undisturbed h ->
  IsClosed sw = true -> fits (sw_writer sw) (file_of sw) -> faithful (encoding_of options) ->
  exists target time b blocks outs,
    conforms (file_of sw) target (encoding_of options) time b blocks /\ format_limits (file_of sw) blocks
    /\ Forall2 arrives (written h) outs /\ all_pairs blocks = concat outs
    /\ (forall id, is_u64 id -> (bm_contains b id = true <-> In id (map fst (concat (written h))))).
Proof.
  intros H1 Hs H3 H4 H5 He. destruct (simple_closed _ _ _ _ _ H1 Hs H3 H4 H5) as (t & now & L & off & X & HF & HL & HP).
  destruct (finalized_conforms _ _ _ _ _ _ _ He HF HL) as (C1 & C2 & C3).
  exists t, (u64 now), (fold_left bm_set (flat_map fst (map snd L)) bm_new), (map snd L), (map (arrange srt) (written h)).
  split; [exact C1|]. split; [exact C2|]. split; [|split; [exact HP|]].
  - clear - Hs. induction (written h) as [|b l IH]; cbn [map]; constructor; [apply arrange_arrives; exact Hs|exact IH].
  - intros id Hid. rewrite (C3 id Hid).
    pose proof (arranged_perm srt (written h) Hs) as Pm. rewrite <- HP in Pm.
    pose proof (v_good _ _ (v_indexed _ _ (finalized_view _ _ _ _ _ _ _ _ HF HL He))) as Good.
    rewrite <- all_pairs_fst' by exact Good.
    split; intros Hin; (eapply Permutation_in; [|exact Hin]); [apply Permutation_map; exact Pm|apply Permutation_sym, Permutation_map; exact Pm].
Qed.
End SimpleFormat.
