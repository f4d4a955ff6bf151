(** The two encodings that mix a varint section with a fixed-width one. *)
From Coq Require Import Sorted.
From Verif Require Import Machine MachineFacts Encoding EncodingFacts FileIO Sroar Writer Spec FileFacts
  WriterFacts BlockFacts FinalFacts Reader ReaderFacts DecodeFacts HistoryFacts RunFacts ReachFacts WriterProps.
Ltac Zify.zify_post_hook ::= Z.div_mod_to_equations.

Lemma decodeVarIntValues_len n : forall i buf, length (decodeVarIntValues n i buf) = n.
Proof.
  induction n as [|n IH]; intros i buf; [reflexivity|]. cbn [decodeVarIntValues]. destruct buf as [|b buf].
  - apply repeat_length.
  - destruct (decodeSignedVarInt (b :: buf)) as [v k]. destruct (k <=? 0); cbn [length]; rewrite IH; reflexivity.
Qed.

(** Sizes. *)
Lemma varint_small x : is_u64 x -> x < 2 ^ 49 -> zlen (encodeVarInt x) <= 7.
Proof.
  intros H L. destruct (encodeVarInt_len x H) as (_ & _ & [E|E]); [lia|].
  destruct (Z_le_gt_dec (zlen (encodeVarInt x)) 7); [assumption|exfalso].
  assert (2 ^ (7 * 7) <= 2 ^ (7 * (zlen (encodeVarInt x) - 1))) by (apply Z.pow_le_mono_r; lia).
  change (7 * 7) with 49 in *. lia.
Qed.
Lemma varints_small l : Forall is_u64 l -> Forall (fun x => x < 2 ^ 49) l ->
  zlen (concat (map encodeVarInt l)) <= 7 * zlen l.
Proof.
  intros H1 H2. induction l as [|x l IH]; [reflexivity|]. inversion H1; subst. inversion H2; subst.
  cbn [map concat]. rewrite zlen_app, zlen_cons. pose proof (varint_small x ltac:(assumption) ltac:(assumption)).
  specialize (IH ltac:(assumption) ltac:(assumption)). lia.
Qed.
Lemma svarints_small l : Forall is_i64 l -> Forall (fun x => - 2 ^ 48 <= x < 2 ^ 48) l ->
  zlen (concat (map encodeSignedVarInt l)) <= 7 * zlen l.
Proof.
  intros H1 H2. assert (E : map encodeSignedVarInt l = map encodeVarInt (map zigzag l)) by (rewrite map_map; reflexivity). rewrite E.
  rewrite <- (zlen_map zigzag l). apply varints_small; apply Forall_map; rewrite Forall_forall in *; intros x Hx.
  - apply zigzag_range. auto.
  - specialize (H1 x Hx). specialize (H2 x Hx). cbn beta in H2. rewrite zigzag_val by exact H1.
    destruct (Z.ltb_spec x 0); lia.
Qed.
Lemma sorted_deltas_from b l : b <= two64 -> forall p, 0 <= p < b -> Forall (fun x => p <= x < b) l -> StronglySorted Z.le l ->
  Forall (fun d => d < b) (delta_from u64 p l).
Proof.
  intros Hb. induction l as [|x l IH]; intros p Hp Hl Hs; [constructor|]. cbn [delta_from].
  inversion Hl as [|? ? Hx Hl']; subst. inversion Hs as [|? ? Hs' Hxs]; subst. constructor.
  - rewrite u64_id by (unfold is_u64, two64 in *; lia). lia.
  - apply IH; [lia| |exact Hs']. rewrite Forall_forall in *. intros y Hy. specialize (Hxs y Hy). specialize (Hl' y Hy).
    cbn beta in *. lia.
Qed.
Lemma sorted_deltas b l : b <= two64 -> StronglySorted Z.le l -> Forall (fun x => 0 <= x < b) l ->
  Forall (fun d => d < b) (deltaEncode l).
Proof.
  intros Hb Hs Hl. destruct l as [|x l]; [constructor|]. unfold deltaEncode, delta_encode_with.
  inversion Hl as [|? ? Hx Hl']; subst. inversion Hs as [|? ? Hs' Hxs]; subst. constructor; [lia|].
  apply sorted_deltas_from; [exact Hb|lia| |exact Hs']. rewrite Forall_forall in *. intros y Hy. specialize (Hxs y Hy).
  specialize (Hl' y Hy). cbn beta in *. lia.
Qed.

(** What the recorded section sizes of a stored block force. *)
Lemma claims_varint_id ids vals : claims_ok 5 (ids, vals) -> zlen (concat (map encodeSignedVarInt vals)) = 8 * zlen vals.
Proof.
  intros [_ C]. cbn [fst snd] in C. change (val_claim 5 vals) with (zlen (concat (map encodeSignedVarInt vals))) in C.
  change (val_chunks 5 vals) with (map (le_bytes 8) vals) in C. rewrite zlen_concat_fixed in C. lia.
Qed.
Lemma claims_varint_value ids vals : claims_ok 6 (ids, vals) -> zlen (concat (map encodeVarInt (deltaEncode ids))) = 8 * zlen ids.
Proof.
  intros [C _]. cbn [fst snd] in C. change (id_claim 6 ids) with (zlen (concat (map encodeVarInt (deltaEncode ids)))) in C.
  change (id_chunks 6 ids) with (map (le_bytes 8) (deltaEncode ids)) in C. rewrite zlen_concat_fixed in C.
  assert (zlen (deltaEncode ids) = zlen ids) by (unfold zlen, deltaEncode; rewrite delta_encode_length; reflexivity). lia.
Qed.

Lemma uvarints_loop_facts n : forall first buf,
  match decodeUVarInts_loop n first buf with
  | Ok (vals, _) => (length vals <= n)%nat
  | Err e => e = ErrVarint
  | Panic => False
  end.
Proof.
  induction n as [|n IH]; intros first buf; [cbn; lia|]. cbn [decodeUVarInts_loop].
  destruct buf as [|b buf]; [cbn; lia|].
  destruct (uvarint (b :: buf)) as [v k]. destruct (k <=? 0).
  { destruct first; cbn; [reflexivity|lia]. }
  specialize (IH false (zdrop k (b :: buf))). destruct (decodeUVarInts_loop n false _) as [[vs st]|e|]; cbn [rbind length]; [lia|exact IH|exact IH].
Qed.
Lemma decodeUVarInts_facts buf count : 0 <= count ->
  match decodeUVarInts buf count with
  | Ok vals => zlen vals <= count
  | Err e => e = ErrVarint
  | Panic => False
  end.
Proof.
  intros Hc. unfold decodeUVarInts. pose proof (uvarints_loop_facts (Z.to_nat count) true buf) as T.
  destruct (decodeUVarInts_loop _ _ _) as [[vs st]|e|]; cbn [rbind]; [|exact T|exact T].
  destruct st; [unfold zlen; lia|]. rewrite zlen_app, zlen_map, zlen_zdrop, zlen_zseq. pose proof (zlen_nonneg vs). unfold zlen in *. lia.
Qed.

Section Half.
Context {Srr : Sroar}.

Theorem varint_id_read_back options faults h now w :
  finished_run options faults h now w -> encoding_of options = EncodingVarIntID ->
  exists r blocks, stored h blocks /\ NewReader (bytes_of w) = Ok r /\ BlockCount r = zlen blocks
    /\ Forall (fun b => zlen (concat (map encodeSignedVarInt (snd b))) = 8 * zlen (snd b)) blocks
    /\ forall i, is_u64 i ->
         match nth_error blocks (Z.to_nat i) with
         | Some b => exists values, GetPairs r i = Ok (deltaDecode (fst b), values) /\ zlen values = zlen (snd b)
         | None => GetPairs r i = Err ErrIndex
         end.
Proof.
  intros H He. destruct (finished_facts options faults h now w H) as (blocks & A & X & L & off & Hef & HL & HF & Hlim & HX & HC & HR).
  eexists _, blocks. split; [eapply effects_stored; exact Hef|]. split; [exact HR|]. split.
  { cbn. rewrite <- HL, zlen_map. reflexivity. }
  pose proof (fz_blocks _ _ _ _ _ _ _ _ HF) as HB. rewrite He in *.
  assert (HB' : Forall (fun b => good_block b /\ claims_ok 5 b) blocks).
  { rewrite <- HL. apply Forall_map. rewrite Forall_forall in *. intros x Hx. specialize (HB x Hx).
    destruct HB as (G & C & _). split; assumption. }
  split.
  { rewrite Forall_forall in *. intros [i v] Hb. apply HB' in Hb. destruct Hb as [_ Hb]. apply claims_varint_id in Hb. exact Hb. }
  intros i Hi. rewrite (GetPairs_placed _ X) by assumption. rewrite <- HL, nth_error_map' in *.
  unfold pblock in *. destruct (nth_error L (Z.to_nat i)) as [x|] eqn:Ex; cbn [option_map]; [|reflexivity].
  apply nth_error_In in Ex. rewrite Forall_forall in HB'. destruct (HB' (snd x) ltac:(apply in_map; exact Ex)) as [(G1 & G2 & G3 & G4) _].
  destruct x as [p [ids vals]]. cbn [fst snd] in *.
  unfold decodeBlockData. change (isVarInt EncodingVarIntID) with true.
  change (id_chunks EncodingVarIntID ids) with (map encodeVarInt ids). cbv iota.
  rewrite decodeUVarInts_ok; [|assumption| |reflexivity].
  2:{ intros ->. unfold zlen in G4. cbn in G4. lia. }
  cbn [rbind]. eexists. split; [reflexivity|]. unfold zlen at 1. rewrite decodeVarIntValues_len. lia.
Qed.

Theorem varint_value_read_back options faults h now w :
  finished_run options faults h now w -> encoding_of options = EncodingVarIntValue ->
  exists r blocks, stored h blocks /\ NewReader (bytes_of w) = Ok r /\ BlockCount r = zlen blocks
    /\ Forall (fun b => zlen (concat (map encodeVarInt (deltaEncode (fst b)))) = 8 * zlen (fst b)) blocks
    /\ forall i, is_u64 i ->
         match nth_error blocks (Z.to_nat i) with
         | Some b => GetPairs r i = Err ErrVarint \/ exists ids, GetPairs r i = Ok (ids, snd b) /\ zlen ids <= zlen (fst b)
         | None => GetPairs r i = Err ErrIndex
         end.
Proof.
  intros H He. destruct (finished_facts options faults h now w H) as (blocks & A & X & L & off & Hef & HL & HF & Hlim & HX & HC & HR).
  eexists _, blocks. split; [eapply effects_stored; exact Hef|]. split; [exact HR|]. split.
  { cbn. rewrite <- HL, zlen_map. reflexivity. }
  pose proof (fz_blocks _ _ _ _ _ _ _ _ HF) as HB. rewrite He in *.
  assert (HB' : Forall (fun b => good_block b /\ claims_ok 6 b) blocks).
  { rewrite <- HL. apply Forall_map. rewrite Forall_forall in *. intros x Hx. specialize (HB x Hx).
    destruct HB as (G & C & _). split; assumption. }
  split.
  { rewrite Forall_forall in *. intros [i v] Hb. apply HB' in Hb. destruct Hb as [_ Hb]. apply claims_varint_value in Hb. exact Hb. }
  intros i Hi. rewrite (GetPairs_placed _ X) by assumption. rewrite <- HL, nth_error_map' in *.
  unfold pblock in *. destruct (nth_error L (Z.to_nat i)) as [x|] eqn:Ex; cbn [option_map]; [|reflexivity].
  apply nth_error_In in Ex. rewrite Forall_forall in HB'. destruct (HB' (snd x) ltac:(apply in_map; exact Ex)) as [(G1 & G2 & G3 & G4) _].
  destruct x as [p [ids vals]]. cbn [fst snd] in *.
  unfold decodeBlockData. change (isVarInt EncodingVarIntValue) with true.
  change (val_chunks EncodingVarIntValue vals) with (map encodeSignedVarInt (deltaEncodeInt64 vals)). cbv iota.
  pose proof (svarints_ok (deltaEncodeInt64 vals) [] 0 (deltaEncodeInt64_range vals G2)) as S. rewrite app_nil_r in S.
  replace (length (deltaEncodeInt64 vals)) with (Z.to_nat (zlen ids)) in S
    by (unfold deltaEncodeInt64; rewrite delta_encode_length; unfold zlen in *; lia).
  pose proof (decodeUVarInts_facts (concat (id_chunks EncodingVarIntValue ids)) (zlen ids) ltac:(lia)) as U.
  destruct (decodeUVarInts _ _) as [is|e|]; cbn [rbind]; [| |contradiction].
  - right. rewrite S. cbn -[deltaDecodeInt64 deltaEncodeInt64]. rewrite deltaDecodeInt64_encode by assumption.
    eexists. split; [reflexivity|]. exact U.
  - left. rewrite U. reflexivity.
Qed.

(** Ordinary data is never stored. *)
Definition half_small (e : Z) (ids vals : list Z) : Prop :=
  (e = EncodingVarIntID /\ Forall (fun v => - 2 ^ 48 <= v < 2 ^ 48) vals)
  \/ (e = EncodingVarIntValue /\ StronglySorted Z.le ids /\ Forall (fun x => x < 2 ^ 49) ids).
Lemma firstn_incl {A} (k : nat) (l : list A) x : In x (firstn k l) -> In x l.
Proof. intros H. rewrite <- (firstn_skipn k l). apply in_or_app. left. exact H. Qed.
Lemma sorted_ztake n l : StronglySorted Z.le l -> StronglySorted Z.le (ztake n l).
Proof.
  unfold ztake. generalize (Z.to_nat n) as k. intros k H. revert k. induction H as [|x l _ IH Hx]; intros [|k]; cbn [firstn]; try constructor.
  - apply IH.
  - apply Forall_forall. intros y Hy. rewrite Forall_forall in Hx. apply Hx. eapply firstn_incl. exact Hy.
Qed.
Lemma Forall_ztake {A} (P : A -> Prop) n l : Forall P l -> Forall P (ztake n l).
Proof. intros H. rewrite Forall_forall in *. intros x Hx. apply H. unfold ztake in Hx. eapply firstn_incl. exact Hx. Qed.
Lemma half_small_prefix e ids vals n : half_small e ids vals -> half_small e (ztake n ids) (ztake n vals).
Proof.
  intros [(-> & H)|(-> & H1 & H2)]; [left|right].
  - split; [reflexivity|]. apply Forall_ztake. exact H.
  - split; [reflexivity|]. split; [apply sorted_ztake; exact H1|apply Forall_ztake; exact H2].
Qed.
Lemma half_small_claims e ids vals : half_small e ids vals -> typed_block ids vals -> 1 <= zlen ids -> zlen ids = zlen vals ->
  ~ claims_ok e (ids, vals).
Proof.
  intros Hs (T1 & T2 & _) H1 H2 C. destruct Hs as [(-> & H)|(-> & Hs & H)].
  - apply claims_varint_id in C. pose proof (svarints_small vals T2 H). lia.
  - apply claims_varint_value in C. pose proof (varints_small (deltaEncode ids) (deltaEncode_range ids T1)) as S.
    assert (zlen (deltaEncode ids) = zlen ids) as E by (unfold zlen, deltaEncode; rewrite delta_encode_length; reflexivity).
    rewrite E, C in S. enough (8 * zlen ids <= 7 * zlen ids) by lia. apply S. apply sorted_deltas; [unfold two64; lia|exact Hs|].
    rewrite Forall_forall in *. intros x Hx. specialize (T1 x Hx). specialize (H x Hx). unfold is_u64 in T1. cbn beta in *. lia.
Qed.

Lemma open_if_not_closed options faults h w :
  running options faults h w -> no_torn_block h -> not_closed h -> closed w -> False.
Proof.
  intros [now0 w0 f0 cs outs Hnew Hopt Hty Hrun -> Hok] Hnt Hnc Hc.
  pose proof (NewWriter_good (fault_free faults) now0 options faults w0 f0 (fun x => x) Hnew) as Hg.
  destruct (history_good _ cs _ _ Hty [] [] True w0 outs w Hg Hrun Hok (or_introl Hnt)) as [(L & bs & A & He & HL & Hg')|[_ Hn]].
  - destruct Hg' as (wg & D & (fs & -> & _) & _). discriminate Hc.
  - apply Hn. exact Hnc.
Qed.
Theorem half_varint_refuses options faults h w ids vals :
  running options faults h w -> no_torn_block h ->
  typed_block ids vals -> well_formed ids vals -> half_small (encoding_of options) ids vals ->
  (exists e, fst (WriteBlock ids vals w) = Err e /\ e <> ErrSync /\ forall n, e <> ErrBlockFull n)
  /\ (fault_free faults -> not_closed h -> fst (WriteBlock ids vals w) = Err ErrMismatch).
Proof.
  intros Hrun Hnt Ht [Hl Hne] Hs.
  assert (Hn : 1 <= zlen ids). { pose proof (zlen_nonneg ids). destruct (Z.eq_dec (zlen ids) 0) as [E|E]; [apply zlen_0_nil in E; contradiction|lia]. }
  assert (Hb : forall n, 1 <= n -> ~ claims_ok (encoding_of options) (ztake n ids, ztake n vals)).
  { intros n Hn1. apply half_small_claims; [apply half_small_prefix; exact Hs|apply typed_prefix; exact Ht| |];
      rewrite !zlen_ztake; lia. }
  assert (Hd : declared (encoding_of options)).
  { destruct Hs as [[-> _]|[-> _]]; unfold declared, EncodingVarIntID, EncodingVarIntValue; lia. }
  destruct (running_good options faults h w Hrun (or_introl Hnt)) as [(L & A & _ & Hg)|Hc].
  - destruct (Good_bytes _ _ _ L A _ w Hg) as (wg & Hw & He & Htt).
    assert (Hd' : declared (w_enc wg)) by (rewrite He; exact Hd).
    pose proof (WriteBlock_rule (fault_free faults) wg (bytes_of w) ids vals Hd' (typed_good ids vals Ht Hl ltac:(lia)) w Hw) as T.
    rewrite <- He in Hb.
    destruct (WriteBlock ids vals w) as [[a|er|] w']; [exfalso| |contradiction].
    + destruct T as [(C1 & C2 & _) _]. apply (Hb (zlen ids) Hn).
      rewrite (ztake_all (zlen ids) ids) by lia. rewrite (ztake_all (zlen ids) vals) by lia. split; assumption.
    + destruct T as [(-> & Hnf & Hw')|[(n & -> & Hn' & Hfit & Hmax & (C1 & C2 & _))|(n & Hn' & Hbe & _)]].
      * split; [exists ErrIO; repeat split; discriminate|]. tauto.
      * exfalso. apply (Hb n ltac:(lia)). split; assumption.
      * destruct Hbe as [(-> & Hnf & _)|[(-> & Hnf & (C1 & C2 & _))|([(-> & Hnf)|(-> & Hnc)] & _)]].
        -- split; [exists ErrIO; repeat split; discriminate|]. tauto.
        -- exfalso. apply (Hb n ltac:(lia)). split; assumption.
        -- split; [exists ErrIO; repeat split; discriminate|]. tauto.
        -- split; [exists ErrMismatch; repeat split; discriminate|]. reflexivity.
  - destruct (closed_write ids vals w Hc) as (er & E & Hsoft). rewrite E. cbn [fst]. split.
    + exists er. split; [reflexivity|]. destruct Hsoft as [->|[->|[->|[->| ->]]]]; split; discriminate.
    + intros Hff Hnc. exfalso. eapply open_if_not_closed; eassumption.
Qed.
End Half.
