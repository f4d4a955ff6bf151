(** Facts about DebugInfo. *)
From Coq Require Import Ascii String.
From Verif Require Import Machine MachineFacts Encoding EncodingFacts Sroar FileIO Writer Reader Aggregate Spec Cli CliSpec CliFacts Debug DebugSpec
  WriterFacts FinalFacts ReaderFacts HistoryFacts ReachFacts RunFacts WriterProps AggFacts ArbFacts AnyFacts.
Ltac Zify.zify_post_hook ::= Z.div_mod_to_equations.
Local Open Scope Z_scope.
Local Open Scope list_scope.

Section Info.
Context {Srr : Sroar}.

Lemma stat_back v : is_i64 v -> v <> min_int64 -> uint64ToInt64 (sign_magnitude v) = v.
Proof.
  intros Hv Hn. unfold sign_magnitude. destruct (Z.geb_spec v 0); [|destruct (Z.eqb_spec v min_int64); [contradiction|]];
    unfold is_i64, min_int64 in *; rewrite uint64ToInt64_val by (unfold is_u64, two63, two64 in *; lia);
    match goal with |- context [?a <? two63] => destruct (Z.ltb_spec a two63) end; unfold two63, two64 in *; lia.
Qed.

Lemma blocks_text : forall blocks es i, Forall2 (fun e b => true_entry b e) es blocks -> Forall good_block blocks -> Forall no_min_stat blocks ->
  Forall (fun e => is_u64 (e_offset e) /\ is_u64 (e_size e)) es -> 0 <= i -> i + zlen blocks < two64 ->
  block_lines i blocks es (debugBlocks i es).
Proof.
  intros blocks es i H. revert i. induction H as [|e b es blocks HT _ IH]; intros i HG HN HU Hi Hl; [constructor|].
  inversion HG as [|? ? G HG']; subst. inversion HN as [|? ? N HN']; subst. inversion HU as [|? ? [U1 U2] HU']; subst.
  rewrite zlen_cons in Hl. destruct HT as (T1 & T2 & (mn & T3 & E3) & (mx & T4 & E4) & T5 & T6 & T7). destruct N as [N1 N2]. destruct G as (G1 & G2 & G3 & G4).
  rewrite Forall_forall in G1, G2. pose proof (zlen_nonneg blocks) as Z0.
  pose proof (G1 _ (proj1 T1)) as B1. pose proof (G1 _ (proj1 T2)) as B2. pose proof (G2 _ (proj1 T3)) as B3. pose proof (G2 _ (proj1 T4)) as B4.
  assert (V3 : uint64ToInt64 (e_minValue e) = mn) by (rewrite E3; apply stat_back; [exact B3|intros ->; apply N1, T3]).
  assert (V4 : uint64ToInt64 (e_maxValue e) = mx) by (rewrite E4; apply stat_back; [exact B4|intros ->; apply N1, T4]).
  assert (V5 : uint64ToInt64 (e_sum e) = i64 (zsum (snd b))) by (rewrite T5; apply stat_back; [apply i64_range|exact N2]).
  cbn [debugBlocks]. unfold debugBlock. rewrite V3, V4, V5, T6, T7. rewrite <- !app_assoc.
  assert (Q : forall z, is_i64 z -> canonical_decimal (decimal z) z) by (intros z Hz; apply decimal_canonical; unfold is_i64, two63, two64 in *; lia).
  assert (P : forall z, is_u64 z -> canonical_decimal (decimal z) z) by (intros z Hz; apply decimal_canonical; unfold is_u64, two64 in *; lia).
  eapply lines_cons with (mn := mn) (mx := mx) (mnID := e_minID e) (mxID := e_maxID e); try assumption; try (apply Q; assumption); try (apply P; assumption).
  - apply P. unfold is_u64. lia.
  - apply P. unfold is_u64, max_items, two64 in *. lia.
  - apply Q, i64_range.
  - apply IH; try assumption; lia.
Qed.

Theorem debug_info options faults h now w : finished_run options faults h now w ->
  exists r blocks, NewReader (bytes_of w) = Ok r /\ stored h blocks /\ Forall2 (fun e b => true_entry b e) (r_index r) blocks
    /\ (Forall no_min_stat blocks -> debug_report (encoding_of options) blocks (r_index r) (DebugInfo r)).
Proof.
  intros H. destruct (finished_facts options faults h now w H) as (blocks & A & X & L & off & Hef & HL & HF & Hlim & HX & HC & HR).
  eexists _, blocks. split; [exact HR|]. split; [apply (effects_stored _ _ _ Hef)|].
  pose proof (finalized_indexed _ _ _ _ _ _ _ _ HF Hlim) as HI. rewrite HL in HI. split; [exact (v_index _ _ HI)|]. intros HN.
  assert (Hz : zlen L = zlen blocks) by (rewrite <- HL, zlen_map; reflexivity).
  pose proof (v_small _ _ HI) as Hs. pose proof (zlen_nonneg blocks) as Hn.
  exists (decimal (zlen blocks)), (decimal (encoding_of options)), (decimal (4 + 56 * zlen blocks)), (debugBlocks 0 (r_index (the_reader (bytes_of w) now (encoding_of options) (target_of options) L (fold_left bm_set A bm_new) off))).
  destruct Hlim as [Hfile _ He _ _].
  split; [apply decimal_canonical; unfold two32, two64 in *; lia|]. split; [apply decimal_canonical; unfold is_u32, two32, two64 in *; lia|].
  split; [apply decimal_canonical; unfold two32, two64 in *; lia|]. split.
  - apply blocks_text; [exact (v_index _ _ HI)|exact (v_good _ _ HI)|exact HN| |lia|unfold two32, two64 in *; lia].
    cbn [the_reader r_index]. apply Forall_map. pose proof (fz_blocks _ _ _ _ _ _ _ _ HF) as HB. eapply Forall_impl; [|exact HB].
    intros x (_ & _ & B1 & B2 & _). pose proof (zlen_nonneg (image_of (encoding_of options) x)). cbn [entry_of e_offset e_size].
    rewrite (fz_data _ _ _ _ _ _ _ _ HF), zlen_app in Hfile. pose proof (zlen_nonneg (footer_bytes (zlen L) (map (pentry (encoding_of options)) L))).
    unfold is_u64, two63, two64 in *. unfold pblock in *. clear - Hfile B1 B2 H0 H1. lia.
  - unfold DebugInfo, the_reader. cbn [r_header r_meta r_index h_magic h_version h_blockCount h_encodingType h_compressionType fm_size fm_magic].
    change (hexadecimal MagicNumber) with (text "5642455F434F4C00"). change (decimal 1) with (text "1"). change (decimal 0) with (text "0").
    rewrite zlen_map. change (@zlen pblock L) with (@zlen (Z * block) L) in *. rewrite !Hz. reflexivity.
Qed.
End Info.

(** ** Hexadecimal numbers *)
Lemma hexDigit_spec d : 0 <= d < 16 -> hex_digit (hexDigit d) d.
Proof. intros H. unfold hex_digit, hexDigit. destruct (Z.ltb_spec d 10); lia. Qed.
Lemma fold_hexDigits : forall fuel z acc, 0 <= z < 16 ^ Z.of_nat fuel -> (0 < fuel)%nat ->
  exists s, hexDigits fuel z acc = s ++ acc /\ canonical_hex s z.
Proof.
  induction fuel as [|fuel IH]; intros z acc Hz Hf; [lia|]. cbn [hexDigits].
  rewrite Nat2Z.inj_succ, Z.pow_succ_r in Hz by lia.
  pose proof (hexDigit_spec (z mod 16) ltac:(lia)) as D. destruct (z / 16 =? 0) eqn:E.
  - exists [hexDigit (z mod 16)]. split; [reflexivity|]. exists [z mod 16]. split; [discriminate|]. split; [constructor; [exact D|constructor]|].
    split; [cbn [fold_left]; lia|]. cbn [hd]. congruence.
  - destruct (IH (z / 16) (hexDigit (z mod 16) :: acc)) as (s & Hs & ds & N & F & V & Z0).
    + lia.
    + destruct fuel; [cbn in Hz; lia|lia].
    + exists (s ++ [hexDigit (z mod 16)]). split; [rewrite Hs, <- app_assoc; reflexivity|]. exists (ds ++ [z mod 16]).
      split; [destruct ds; discriminate|]. split; [apply Forall2_app; [exact F|constructor; [exact D|constructor]]|].
      split; [rewrite fold_left_app, V; cbn [fold_left]; lia|].
      destruct ds as [|d ds]; [congruence|]. cbn [hd app]. intros H0. specialize (Z0 H0). injection Z0 as -> ->. exfalso. cbn in V. lia.
Qed.
Theorem hexadecimal_spec z : is_u64 z -> canonical_hex (hexadecimal z) z.
Proof.
  intros H. unfold hexadecimal. destruct (fold_hexDigits 16 z []) as (s & -> & C); [|lia|rewrite app_nil_r; exact C].
  unfold is_u64, two64 in *. change (16 ^ Z.of_nat 16) with 18446744073709551616. lia.
Qed.
Lemma hex_digit_det c d d' : hex_digit c d -> hex_digit c d' -> d = d'.
Proof. unfold hex_digit. lia. Qed.

(** ** Any file *)
Lemma readHeader_typed data h : Forall is_byte data -> readHeader data = Ok h ->
  h_magic h = MagicNumber /\ h_version h = Version /\ 0 <= h_blockCount h < two64 /\ 0 <= h_encodingType h < two32 /\ 0 <= h_compressionType h < two32.
Proof.
  intros HB H. unfold readHeader in H. destruct (readBytesAt data true 0 headerSize) as [buf| |] eqn:E; cbn [rbind] in H; try discriminate.
  pose proof (readBytesAt_bytes _ _ _ _ _ HB E) as BB. unfold readBufferedUint64, readBufferedUint32 in H.
  repeat match type of H with
  | context [readBuffered ?n buf ?o] => let E := fresh "E" in destruct (readBuffered n buf o) eqn:E; cbn [rbind] in H; [|discriminate H|discriminate H];
      apply readBuffered_range in E; [|exact BB|lia]; change (256 ^ 8) with two64 in E; change (256 ^ 4) with two32 in E
  end.
  match type of H with (if negb (?a =? ?b) then _ else _) = _ => destruct (Z.eqb_spec a b) as [M|]; [|discriminate H] end. cbn [negb] in H.
  match type of H with (if negb (?a =? ?b) then _ else _) = _ => destruct (Z.eqb_spec a b) as [V|]; [|discriminate H] end. cbn [negb] in H. injection H as <-.
  cbn [h_magic h_version h_blockCount h_encodingType h_compressionType]. repeat split; try assumption; lia.
Qed.
Lemma opened_typed data r : Forall is_byte data -> NewReader data = Ok r ->
  h_magic (r_header r) = MagicNumber /\ h_version (r_header r) = Version /\ is_u64 (h_blockCount (r_header r)) /\ is_u64 (h_encodingType (r_header r))
  /\ is_u64 (h_compressionType (r_header r)) /\ fm_magic (r_meta r) = MagicNumber /\ is_u64 (fm_size (r_meta r)).
Proof.
  intros HB H. unfold NewReader in H. destruct (readHeader data) as [h| |] eqn:EH; cbn [rbind] in H; try discriminate.
  destruct (readHeader_typed _ _ HB EH) as (T1 & T2 & T3 & T4 & T5).
  destruct (readFooter data h) as [[[h' m] ix]| |] eqn:E; cbn [rbind] in H; try discriminate. injection H as <-. cbn [r_header r_meta].
  unfold readFooter in E. destruct (zlen data <? 24); [discriminate|].
  destruct (readBytesAt data true (zlen data - 24) 24) as [b| |] eqn:EB; cbn [rbind] in E; try discriminate. pose proof (readBytesAt_bytes _ _ _ _ _ HB EB) as BB.
  unfold readBufferedUint64 in E.
  repeat match type of E with
  | context [readBuffered ?n b ?o] => let X := fresh "X" in destruct (readBuffered n b o) eqn:X; cbn [rbind] in E; [|discriminate E|discriminate E];
      apply readBuffered_range in X; [|exact BB|lia]; change (256 ^ 8) with two64 in X
  end.
  match type of E with (if negb (?a =? ?b) then _ else _) = _ => destruct (Z.eqb_spec a b) as [M|]; [|discriminate E] end. cbn [negb] in E.
  destruct (_ <? 64); [discriminate E|].
  match type of E with context [readBytesAt ?d true ?o 4] => destruct (readBytesAt d true o 4) as [cb| |] eqn:EC; cbn [rbind] in E; try discriminate end.
  pose proof (readBytesAt_bytes _ _ _ _ _ HB EC) as BC. unfold readBufferedUint32 in E.
  destruct (readBuffered 4 cb 0) as [c| |] eqn:XC; cbn [rbind] in E; try discriminate.
  apply readBuffered_range in XC; [|exact BC|lia]. change (256 ^ 4) with two32 in XC.
  match type of E with context [readBytesAt ?d true ?o ?k] => destruct (readBytesAt d true o k) as [ib| |] eqn:EI; cbn [rbind] in E; try discriminate end.
  destruct (readEntries ib (zseq c)) as [ix'| |] eqn:EE; cbn [rbind] in E; try discriminate. injection E as <- <- <-. cbn [fm_magic fm_size].
  unfold is_u64, two32, two64 in *.
  assert (K : forall n, h_magic (set_blockCount h n) = h_magic h /\ h_version (set_blockCount h n) = h_version h /\ h_blockCount (set_blockCount h n) = n
    /\ h_encodingType (set_blockCount h n) = h_encodingType h /\ h_compressionType (set_blockCount h n) = h_compressionType h) by (intros; repeat split).
  destruct (c >? h_blockCount h); [destruct (K c) as (-> & -> & -> & -> & ->)|]; repeat split; try assumption; lia.
Qed.
Lemma entries_text : forall es i, Forall entry_typed es -> 0 <= i -> i + zlen es < two64 -> entry_lines i es (debugBlocks i es).
Proof.
  intros es i H. revert i. induction H as [|e es (T1 & T2 & T3 & T4 & T5 & T6 & T7 & T8) _ IH]; intros i Hi Hl; [constructor|].
  rewrite zlen_cons in Hl. pose proof (zlen_nonneg es) as Z0. cbn [debugBlocks]. unfold debugBlock. rewrite <- !app_assoc.
  assert (Q : forall z, is_i64 (uint64ToInt64 z) -> canonical_decimal (decimal (uint64ToInt64 z)) (uint64ToInt64 z)) by (intros z Hz; apply decimal_canonical; unfold is_i64, two63, two64 in *; lia).
  assert (R : forall z, is_u64 z -> is_i64 (uint64ToInt64 z)).
  { intros z Hz. rewrite uint64ToInt64_val by exact Hz. unfold is_i64, is_u64 in *. destruct (Z.ltb_spec z two63); unfold two63, two64 in *; lia. }
  assert (P : forall z, is_u64 z -> canonical_decimal (decimal z) z) by (intros z Hz; apply decimal_canonical; unfold is_u64, two64 in *; lia).
  assert (U : forall z, is_u32 z -> is_u64 z) by (unfold is_u32, is_u64, two32, two64; lia).
  apply entries_cons; auto.
  - apply P. unfold is_u64. lia.
  - apply IH; lia.
Qed.
Lemma NewReader_few data r : Forall is_byte data -> NewReader data = Ok r -> zlen (r_index r) < two64.
Proof. intros HB H. pose proof (NewReader_small _ _ HB H). unfold two64. lia. Qed.
Theorem debug_any data r : Forall is_byte data -> NewReader data = Ok r -> accessor_report r (DebugInfo r).
Proof.
  intros HB H. destruct (opened_typed _ _ HB H) as (M & V & B & E & C & FM & FS). pose proof (NewReader_few _ _ HB H) as N. pose proof (zlen_nonneg (r_index r)) as Z0.
  assert (P : forall z, is_u64 z -> canonical_decimal (decimal z) z) by (intros z Hz; apply decimal_canonical; unfold is_u64, two64 in *; lia).
  exists (decimal (BlockCount r)), (decimal (EncodingType r)), (decimal (h_compressionType (r_header r))), (decimal (fm_size (r_meta r))), (decimal (zlen (r_index r))), (debugBlocks 0 (r_index r)).
  split; [apply P; exact B|]. split; [apply P; exact E|]. split; [apply P; exact C|]. split; [apply P; exact FS|]. split; [apply P; unfold is_u64; lia|].
  split; [apply entries_text; [exact (NewReader_typed _ _ HB H)|lia|lia]|].
  unfold DebugInfo. rewrite M, V, FM. change (hexadecimal MagicNumber) with (text "5642455F434F4C00"). change (decimal Version) with (text "1").
  cbn [text app]. reflexivity.
Qed.
