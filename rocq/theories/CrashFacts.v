(** Files left behind by a writer that never finalized. *)
From Verif Require Import Machine MachineFacts Encoding EncodingFacts FileIO Sroar Writer Spec FileFacts
  WriterFacts BlockFacts FinalFacts Reader ReaderFacts DecodeFacts HistoryFacts RunFacts ReachFacts WriterProps ArbFacts.
Ltac Zify.zify_post_hook ::= Z.div_mod_to_equations.

Lemma value_section_chunks e vals : concat (val_chunks e vals) = value_section e vals.
Proof.
  unfold val_chunks, value_section, val_items, is_delta, useVarIntForValues.
  change EncodingDeltaID with 1. change EncodingDeltaValue with 2. change EncodingDeltaBoth with 3.
  change EncodingVarIntValue with 6. change EncodingVarIntBoth with 7. change EncodingVarInt with 4.
  destruct ((e =? 4) || (e =? 6) || (e =? 7)); reflexivity.
Qed.

Section Crash.
Context {Srr : Sroar}.

Lemma last_byte_zero l k : 0 < k -> slice (l ++ zeros k) (zlen (l ++ zeros k) - 8) 8 <> le_bytes 8 MagicNumber.
Proof.
  intros Hk H.
  assert (E : zeros k = zeros (k - 1) ++ [0]).
  { unfold zeros. replace (Z.to_nat k) with (Z.to_nat (k - 1) + 1)%nat by lia. rewrite repeat_app. reflexivity. }
  rewrite E, app_assoc in H. set (l' := l ++ zeros (k - 1)) in H.
  destruct (Z_lt_dec (zlen (l' ++ [0])) 8) as [S|S].
  - apply (f_equal zlen) in H. unfold slice in H. rewrite zlen_ztake, zlen_zdrop, zlen_le_bytes in H.
    pose proof (zlen_nonneg (l' ++ [0])). rewrite zlen_app in *. change (zlen [0]) with 1 in *.
    unfold zdrop in H. lia.
  - assert (D : slice (l' ++ [0]) (zlen (l' ++ [0]) - 8) 8 = slice l' (zlen l' - 7) 7 ++ [0]).
    { rewrite zlen_app in *. change (zlen [0]) with 1 in *.
      unfold slice. replace (zlen l' + 1 - 8) with (zlen l' - 7) by lia.
      rewrite zdrop_app_l by lia. rewrite !ztake_all; [reflexivity|rewrite zlen_zdrop; lia|].
      rewrite zlen_app, zlen_zdrop. change (zlen [0]) with 1. lia. }
    rewrite D in H. change (le_bytes 8 MagicNumber) with ([0; 76; 79; 67; 95; 69; 66] ++ [86]) in H.
    apply app_inj_tail in H. destruct H as [_ H]. discriminate.
Qed.

Lemma chain_app e L1 L2 : forall start stop, chain e start (L1 ++ L2) stop -> exists mid, chain e start L1 mid /\ chain e mid L2 stop.
Proof.
  induction L1 as [|x L1 IH]; intros start stop H; cbn [app chain] in *.
  - exists start. auto.
  - destruct H as [H1 H2]. destruct (IH _ _ H2) as (mid & M1 & M2). exists mid. auto.
Qed.

(** The file of a good state that was never finalized. *)
Lemma good_unfinalized (nf : Prop) e t L A w : Good nf e t L A True w -> zlen (bytes_of w) < two63 ->
  (exists er, NewReader (bytes_of w) = Err er)
  \/ exists L0 b pre, map snd L = L0 ++ [b] /\ good_block b /\ bytes_of w = pre ++ value_section e (snd b)
       /\ slice (bytes_of w) (zlen (bytes_of w) - 8) 8 = le_bytes 8 MagicNumber.
Proof.
  intros (wg & D & Hw & HD & HB & HP & HA & HC) HS. destruct (HC I) as (C1 & C2 & C3).
  assert (HF : bytes_of w = D) by (destruct Hw as (fs & -> & _); reflexivity). rewrite HF in *.
  destruct (NewReader D) as [r|er|] eqn:E; [|left; exists er; reflexivity|destruct (NewReader_no_panic D C3 E)].
  right. destruct (NewReader_accepts D r C3 HS E) as (_ & _ & _ & M & _).
  destruct L as [|x0 L] using rev_ind.
  - exfalso. cbn in C1. rewrite <- C1 in M. change (64 - 8) with 56 in M. rewrite C2 in M. discriminate.
  - clear IHL.
    destruct x0 as [p [ids vals]]. apply chain_app in C1. destruct C1 as (mid & C1 & C1'). cbn [chain fst] in C1'. destruct C1' as [<- C1'].
    apply Forall_app in HP. destruct HP as [_ HP]. pose proof (Forall_inv HP) as Hx. destruct Hx as (G1 & G2 & G3 & G4 & G5). cbn [fst snd] in *.
    unfold pblock in *. set (img := image_of e (p, (ids, vals))) in *.
    assert (HDs : D = ztake p D ++ img).
    { assert (G6 : img = slice D p (zlen img)) by (symmetry; exact G5). assert (C6 : p + zlen img = zlen D) by exact C1'.
      rewrite G6. pose proof (zlen_nonneg img). unfold slice. rewrite (ztake_all (zlen img)) by (rewrite zlen_zdrop; lia). rewrite ztake_zdrop. reflexivity. }
    change img with (block_body e ids vals ++ zeros (calculatePadding (p + zlen (block_body e ids vals)) PageSize)) in HDs.
    set (pad := calculatePadding (p + zlen (block_body e ids vals)) PageSize) in *.
    pose proof (zlen_nonneg (block_body e ids vals)) as Nb.
    assert (Hpad : 0 <= pad < PageSize) by (apply padding_bounds; lia).
    destruct (Z.eq_dec pad 0) as [P0|P0].
    + exists (map snd L), (ids, vals). rewrite P0 in HDs. change (zeros 0) with (@nil Z) in HDs. rewrite app_nil_r in HDs.
      exists (ztake p D ++ block_header e (stats_of ids vals) ++ block_layout e ids vals ++ concat (id_chunks e ids)).
      split; [rewrite map_app; reflexivity|]. split; [exact G1|]. split; [|exact M].
      rewrite HDs at 1. cbn [snd]. rewrite <- value_section_chunks. unfold block_body. rewrite <- !app_assoc. reflexivity.
    + exfalso. rewrite app_assoc in HDs. rewrite HDs in M. apply last_byte_zero in M; [exact M|lia].
Qed.

Lemma no_finalize_ok cs : forall w, no_finalize cs -> finalizes_ok cs w.
Proof.
  induction cs as [|c cs IH]; intros w H; [exact I|]. split.
  - rewrite (H c (or_introl eq_refl)). discriminate.
  - apply IH. intros c' Hc. apply H. right. exact Hc.
Qed.

(** Closing ends the effects of a history. *)
Lemma split_close cs : forall w outs w', run_calls cs w = (outs, w') -> no_finalize cs ->
  exists cs1 cs2 outs1 outs2 w1, cs = cs1 ++ cs2 /\ outs = outs1 ++ outs2 /\ length outs1 = length cs1
    /\ run_calls cs1 w = (outs1, w1) /\ not_closed (combine cs1 outs1) /\ bytes_of w' = bytes_of w1
    /\ effects (combine cs2 outs2) [] [].
Proof.
  induction cs as [|c cs IH]; intros w outs w' H Hn; cbn [run_calls] in H.
  - injection H as <- <-. exists [], [], [], [], w. repeat split; try constructor. intros c r [].
  - destruct (run_call c w) as [r w1] eqn:Ec. destruct (run_calls cs w1) as [rs w2] eqn:Er. injection H as <- <-.
    destruct (is_closing c) eqn:Hcl.
    + assert (c = CClose) as -> by (pose proof (Hn c (or_introl eq_refl)); destruct c; cbn in *; congruence).
      exists [], (CClose :: cs), [], (r :: rs), w. split; [reflexivity|]. split; [reflexivity|]. split; [reflexivity|]. split; [reflexivity|].
      split; [intros c' r' []|].
      cbn [run_call] in Ec. unfold mbind, mret, Close in Ec. destruct (closeFile_closes w) as (K1 & K2 & _ & _ & K3).
      assert (w1 = snd (closeFile w)) by (destruct (closeFile w) as [[u|er|] w'']; injection Ec as _ <-; reflexivity). subst w1.
      destruct (run_calls_closed cs _ K1) as [R1 _]. pose proof (effects_closed cs _ K1) as He. rewrite Er in R1, He. cbn [fst snd] in *. subst w2.
      split; [exact K2|]. cbn [combine]. change (@nil block) with (@nil block ++ []). change (@nil Z) with (@nil Z ++ []).
      constructor; [apply ef_other; discriminate|exact He].
    + destruct (IH w1 rs w2 Er) as (cs1 & cs2 & o1 & o2 & w3 & -> & -> & Hl & Hr & Hnc & Hb & He).
      { intros c' Hc'. apply Hn. right. exact Hc'. }
      exists (c :: cs1), cs2, (r :: o1), o2, w3. split; [reflexivity|]. split; [reflexivity|]. split; [cbn; lia|].
      split; [cbn [run_calls]; rewrite Ec, Hr; reflexivity|].
      split; [|split; [exact Hb|exact He]]. intros c' r' [E|Hin]; [injection E as <- <-; exact Hcl|]. eapply Hnc. exact Hin.
Qed.

Theorem unfinalized_rejected options faults h w :
  running options faults h w -> no_torn_block h -> never_finalized h -> zlen (bytes_of w) < two63 ->
  (exists er, NewReader (bytes_of w) = Err er)
  \/ exists blocks b pre, stored h (blocks ++ [b]) /\ good_block b
       /\ bytes_of w = pre ++ value_section (encoding_of options) (snd b)
       /\ slice (bytes_of w) (zlen (bytes_of w) - 8) 8 = le_bytes 8 MagicNumber.
Proof.
  intros [now0 w0 f0 cs outs Hnew Hopt Hty Hrun -> Hok] Hnt Hnv HS.
  pose proof (run_calls_length _ _ _ _ Hrun) as Hlen.
  assert (Hn := never_no_finalize cs outs Hlen Hnv).
  destruct (split_close cs w0 outs w Hrun Hn) as (cs1 & cs2 & o1 & o2 & w1 & -> & -> & Hl & Hr & Hnc & Hb & He).
  rewrite combine_app' in * by exact (eq_sym Hl).
  apply Forall_app in Hty. destruct Hty as [Hty1 _].
  pose proof (NewWriter_good False now0 options faults w0 f0 ltac:(tauto) Hnew) as Hg.
  assert (Hok1 : finalizes_ok cs1 w0).
  { apply no_finalize_ok. intros c Hc. apply Hn. apply in_or_app. left. exact Hc. }
  assert (Hnt1 : no_torn_block (combine cs1 o1)) by (intros i v r Hin; apply (Hnt i v); apply in_or_app; left; exact Hin).
  destruct (history_good False cs1 _ _ Hty1 [] [] True w0 o1 w1 Hg Hr Hok1 (or_introl Hnt1)) as [(L & bs & A & He1 & HL & Hg')|[_ Hc]]; [|tauto].
  cbn [map app] in *.
  assert (Hg1 : Good False (encoding_of options) (target_of options) L A True w1).
  { eapply Good_weaken; [|exact Hg']. intros _. split; [exact I|]. intros c Hc. apply Hn. apply in_or_app. left. exact Hc. }
  rewrite Hb in *.
  destruct (good_unfinalized False _ _ L A w1 Hg1 HS) as [Hq|(L0 & b & pre & E1 & E4 & E2 & E3)]; [left; exact Hq|right].
  exists L0, b, pre. split; [|auto]. rewrite <- E1, HL. rewrite <- (app_nil_r bs). 
  apply effects_stored with (A := A ++ []). apply effects_app; assumption.
Qed.

(** In a raw file the bytes are those of the last value. *)
Lemma raw_last_value pre b : good_block b ->
  slice (pre ++ value_section EncodingRaw (snd b)) (zlen (pre ++ value_section EncodingRaw (snd b)) - 8) 8 = le_bytes 8 MagicNumber ->
  exists vals, snd b = vals ++ [MagicNumber].
Proof.
  intros (_ & Hv & Hl & Hn) H. destruct b as [ids vals]. cbn [fst snd] in *.
  destruct vals as [|v vals] using rev_ind; [cbn in *; change (zlen (@nil Z)) with 0 in *; lia|]. clear IHvals.
  exists vals. apply Forall_app in Hv. destruct Hv as [_ Hv]. apply Forall_inv in Hv.
  assert (E : value_section EncodingRaw (vals ++ [v]) = value_section EncodingRaw vals ++ le_bytes 8 v).
  { unfold value_section. cbn [orb Z.eqb EncodingRaw EncodingDeltaID EncodingDeltaValue EncodingDeltaBoth EncodingVarIntValue EncodingVarIntBoth EncodingVarInt].
    rewrite map_app, concat_app. cbn [map concat]. rewrite app_nil_r. reflexivity. }
  rewrite E, app_assoc in H. set (q := pre ++ value_section EncodingRaw vals) in *.
  assert (S : slice (q ++ le_bytes 8 v) (zlen (q ++ le_bytes 8 v) - 8) 8 = le_bytes 8 v).
  { rewrite zlen_app, zlen_le_bytes. change (Z.of_nat 8) with 8. replace (zlen q + 8 - 8) with (zlen q) by lia.
    unfold slice. rewrite zdrop_app_exact by reflexivity. apply ztake_all. rewrite zlen_le_bytes. lia. }
  rewrite S in H. apply (f_equal le_val) in H. rewrite !le_val_le_bytes in H. change (256 ^ Z.of_nat 8) with two64 in H.
  change (MagicNumber mod two64) with MagicNumber in H. f_equal. f_equal.
  assert (M : MagicNumber < two63) by reflexivity. assert (M0 : 0 <= MagicNumber) by discriminate.
  unfold is_i64, two63, two64 in *. lia.
Qed.

End Crash.
