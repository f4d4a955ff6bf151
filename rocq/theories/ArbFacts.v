(** The reader on arbitrary bytes. *)
From Verif Require Import Machine MachineFacts Encoding EncodingFacts Sroar Writer Reader Aggregate.
Ltac Zify.zify_post_hook ::= Z.div_mod_to_equations.

(** ** Reading bytes *)
Lemma readBytesAt_len data open off n b : readBytesAt data open off n = Ok b -> 0 <= n -> zlen b = n.
Proof.
  unfold readBytesAt. intros H Hn. destruct (n <? 0); [discriminate|]. destruct (off <? 0) eqn:E; [discriminate|].
  destruct (Z.eqb_spec n 0); [injection H as <-; subst; reflexivity|]. destruct (negb open); [discriminate|].
  destruct (off + n >? max_int64); [discriminate|]. injection H as <-. rewrite zlen_app, zlen_zeros, zlen_slice by lia. lia.
Qed.
Lemma readBytesAt_bytes data open off n b : Forall is_byte data -> readBytesAt data open off n = Ok b -> Forall is_byte b.
Proof.
  unfold readBytesAt. intros HD H. destruct (n <? 0); [discriminate|]. destruct (off <? 0); [discriminate|].
  destruct (n =? 0); [injection H as <-; constructor|]. destruct (negb open); [discriminate|].
  destruct (off + n >? max_int64); [discriminate|]. injection H as <-. apply Forall_app. split; [apply Forall_slice; exact HD|apply zeros_bytes].
Qed.
Lemma readBytesAt_no_panic data open off n : 0 <= n -> readBytesAt data open off n <> Panic.
Proof.
  unfold readBytesAt. intros Hn. destruct (Z.ltb_spec n 0); [lia|].
  destruct (off <? 0); [discriminate|]. destruct (n =? 0); [discriminate|]. destruct (negb open); [discriminate|].
  destruct (off + n >? max_int64); discriminate.
Qed.
Lemma readBuffered_some n buf off : 0 <= off -> off + n <= zlen buf -> readBuffered n buf off = Ok (le_val (slice buf off n)).
Proof.
  unfold readBuffered. intros H1 H2. destruct (Z.ltb_spec off 0); [lia|]. destruct (Z.gtb_spec (off + n) (zlen buf)); [lia|]. reflexivity.
Qed.
Lemma readBuffered_range n buf off v : Forall is_byte buf -> 0 <= n -> readBuffered n buf off = Ok v -> 0 <= v < 256 ^ n.
Proof.
  unfold readBuffered. intros HB Hn H. destruct (Z.ltb_spec off 0); [discriminate|]. destruct (Z.gtb_spec (off + n) (zlen buf)); [discriminate|].
  cbn [orb] in H. injection H as <-. pose proof (le_val_range (slice buf off n) (Forall_slice _ _ _ _ HB)) as G.
  rewrite zlen_slice in G by lia. replace (Z.max 0 (Z.min n (zlen buf - off))) with n in G by lia. exact G.
Qed.

Tactic Notation "field" := rewrite readBuffered_some by lia; cbn [rbind].

(** ** NewReader *)
Lemma readHeader_no_panic data : readHeader data <> Panic.
Proof.
  unfold readHeader. destruct (readBytesAt data true 0 headerSize) as [buf|e|] eqn:E; cbn [rbind];
    [|discriminate|apply readBytesAt_no_panic in E; [destruct E|unfold headerSize; lia]].
  apply readBytesAt_len in E; [|unfold headerSize; lia]. unfold headerSize in E. unfold readBufferedUint64, readBufferedUint32.
  repeat field. destruct (negb _); [discriminate|]. destruct (negb _); discriminate.
Qed.
Lemma readEntry_no_panic buf n i : 0 <= i < n -> zlen buf = n * 56 -> readEntry buf i <> Panic.
Proof.
  intros Hi HL. unfold readEntry, readBufferedUint64, readBufferedUint32.
  assert (G : forall k, 0 <= k -> 0 <= u32 (u32 (i * 56) + k) <= i * 56 + k).
  { intros k Hk. unfold u32, two32. lia. }
  pose proof (G 8 ltac:(lia)). pose proof (G 12 ltac:(lia)). pose proof (G 20 ltac:(lia)). pose proof (G 28 ltac:(lia)).
  pose proof (G 36 ltac:(lia)). pose proof (G 44 ltac:(lia)). pose proof (G 52 ltac:(lia)).
  assert (0 <= u32 (i * 56) <= i * 56) by (unfold u32, two32; lia).
  repeat (rewrite readBuffered_some by lia; cbn [rbind]). discriminate.
Qed.
Lemma readEntries_no_panic buf n idx : (forall i, In i idx -> 0 <= i < n) -> zlen buf = n * 56 -> readEntries buf idx <> Panic.
Proof.
  intros Hi HL. induction idx as [|i idx IH]; cbn [readEntries]; [discriminate|].
  pose proof (readEntry_no_panic buf n i (Hi i (or_introl eq_refl)) HL).
  destruct (readEntry buf i); cbn [rbind]; try congruence.
  specialize (IH (fun j Hj => Hi j (or_intror Hj))). destruct (readEntries buf idx); cbn [rbind]; congruence.
Qed.
Lemma readFooter_no_panic data h : Forall is_byte data -> readFooter data h <> Panic.
Proof.
  intros HB. unfold readFooter. destruct (Z.ltb_spec (zlen data) 24); [discriminate|].
  destruct (readBytesAt data true (zlen data - 24) 24) as [buf|e|] eqn:E; cbn [rbind];
    [|discriminate|apply readBytesAt_no_panic in E; [destruct E|lia]].
  apply readBytesAt_len in E; [|lia]. unfold readBufferedUint64, readBufferedUint32. repeat field.
  destruct (negb _); [discriminate|]. destruct (_ <? 64); [discriminate|].
  match goal with |- context [readBytesAt data true ?o 4] => destruct (readBytesAt data true o 4) as [cbuf|e|] eqn:E2 end; cbn [rbind];
    [|discriminate|apply readBytesAt_no_panic in E2; [destruct E2|lia]].
  pose proof (readBytesAt_bytes _ _ _ _ _ HB E2) as B2. apply readBytesAt_len in E2; [|lia]. field.
  set (c := le_val (slice cbuf 0 4)). assert (0 <= c) by (apply le_val_range, Forall_slice; exact B2).
  match goal with |- context [readBytesAt data true ?o (c * 56)] => destruct (readBytesAt data true o (c * 56)) as [ibuf|e|] eqn:E3 end; cbn [rbind];
    [|discriminate|apply readBytesAt_no_panic in E3; [destruct E3|lia]].
  apply readBytesAt_len in E3; [|lia].
  assert (G : readEntries ibuf (zseq c) <> Panic).
  { apply readEntries_no_panic with (n := c); [|exact E3]. intros i Hi. apply in_zseq in Hi. exact Hi. }
  destruct (readEntries ibuf (zseq c)); cbn [rbind]; congruence.
Qed.
Theorem NewReader_no_panic data : Forall is_byte data -> NewReader data <> Panic.
Proof.
  intros HB. unfold NewReader. pose proof (readHeader_no_panic data). destruct (readHeader data) as [h| |]; cbn [rbind]; try congruence.
  pose proof (readFooter_no_panic data h HB). destruct (readFooter data h) as [[[h' m] ix]| |]; cbn [rbind]; congruence.
Qed.

(** What acceptance implies. *)

Lemma le_val_eq n x bs : Forall is_byte bs -> zlen bs = Z.of_nat n -> le_val bs = x -> bs = le_bytes n x.
Proof. intros H L <-. symmetry. apply le_bytes_le_val; [exact H|unfold zlen in L; lia]. Qed.
Lemma head_field data k n : 0 <= k -> 0 <= n -> k + n <= 64 -> k + n <= zlen data ->
  slice (slice data 0 64 ++ zeros (64 - zlen (slice data 0 64))) k n = slice data k n.
Proof.
  intros. rewrite slice_app_l; [|lia|rewrite zlen_slice by lia; lia]. rewrite slice_slice by lia. reflexivity.
Qed.

Theorem NewReader_accepts data r : Forall is_byte data -> zlen data < two63 -> NewReader data = Ok r ->
  24 <= zlen data
  /\ slice data 0 8 = le_bytes 8 MagicNumber /\ slice data 8 4 = le_bytes 4 Version
  /\ slice data (zlen data - 8) 8 = le_bytes 8 MagicNumber
  /\ r_data r = data /\ r_open r = true /\ r_globalIDs r = None /\ r_cacheGlobalIDs r = false
  /\ fm_size (r_meta r) = le_val (slice data (zlen data - 24) 8)
  /\ 64 <= i64 (zlen data - 24 - fm_size (r_meta r))
  /\ zlen (r_index r) <= BlockCount r.
Proof.
  intros HB HS H. unfold NewReader in H. unfold readHeader, readBytesAt in H.
  change (headerSize <? 0) with false in H. change (0 <? 0) with false in H. change (headerSize =? 0) with false in H.
  change (0 + headerSize >? max_int64) with false in H. change headerSize with 64 in H. cbn [negb rbind] in H.
  unfold readBufferedUint64, readBufferedUint32 in H.
  set (buf := slice data 0 64 ++ zeros (64 - zlen (slice data 0 64))) in H.
  assert (HL : zlen buf = 64).
  { unfold buf. pose proof (zlen_nonneg data). rewrite zlen_app, zlen_zeros, zlen_slice by lia. lia. }
  repeat (rewrite readBuffered_some in H by lia; cbn [rbind] in H).
  destruct (Z.eqb_spec (le_val (slice buf 0 8)) MagicNumber) as [M1|]; [|discriminate].
  destruct (Z.eqb_spec (le_val (slice buf 8 4)) Version) as [M2|]; [|discriminate]. cbn [negb rbind] in H.
  unfold readFooter in H. destruct (Z.ltb_spec (zlen data) 24) as [|HD]; [discriminate|].
  unfold readBytesAt at 1 in H. change (24 <? 0) with false in H. destruct (Z.ltb_spec (zlen data - 24) 0); [lia|].
  change (24 =? 0) with false in H. cbn [negb] in H. destruct (Z.gtb_spec (zlen data - 24 + 24) max_int64) as [Hbig|_]; [unfold max_int64, two63 in *; lia|].
  assert (HL2 : zlen (slice data (zlen data - 24) 24) = 24) by (rewrite zlen_slice; lia). cbn [rbind] in H.
  rewrite HL2 in H. change (24 - 24) with 0 in H. change (zeros 0) with (@nil Z) in H. rewrite app_nil_r in H.
  unfold readBufferedUint64, readBufferedUint32 in H. do 3 (rewrite readBuffered_some in H by lia; cbn [rbind] in H).
  rewrite !slice_slice in H by lia.
  destruct (Z.eqb_spec (le_val (slice data (zlen data - 24 + 16) 8)) MagicNumber) as [M3|]; [|discriminate]. cbn [negb] in H.
  replace (zlen data - 24 + 0) with (zlen data - 24) in H by lia.
  set (fs := le_val (slice data (zlen data - 24) 8)) in *.
  replace (i64 (zlen data - 24 - i64 fs)) with (i64 (zlen data - 24 - fs)) in H by (unfold i64, two63, two64; lia).
  destruct (Z.ltb_spec (i64 (zlen data - 24 - fs)) 64) as [|HF]; [discriminate|].
  destruct (readBytesAt data true (i64 (zlen data - 24 - fs)) 4) as [cbuf|e|] eqn:E2; cbn [rbind] in H; try discriminate.
  destruct (readBuffered 4 cbuf 0) as [c|e|] eqn:E3; cbn [rbind] in H; try discriminate.
  destruct (readBytesAt data true (i64 (i64 (zlen data - 24 - fs) + 4)) (c * 56)) as [ibuf|e|] eqn:E4; cbn [rbind] in H; try discriminate.
  destruct (readEntries ibuf (zseq c)) as [ix|e|] eqn:E5; cbn [rbind] in H; try discriminate.
  injection H as <-. cbn [r_data r_open r_globalIDs r_cacheGlobalIDs r_meta fm_size r_index].
  split; [exact HD|]. rewrite <- (head_field data 0 8), <- (head_field data 8 4) by lia. fold buf.
  assert (BB : Forall is_byte buf) by (apply Forall_app; split; [apply Forall_slice; exact HB|apply zeros_bytes]).
  split; [apply le_val_eq; [apply Forall_slice; exact BB|rewrite zlen_slice; lia|exact M1]|].
  split; [apply le_val_eq; [apply Forall_slice; exact BB|rewrite zlen_slice; lia|exact M2]|].
  split; [replace (zlen data - 8) with (zlen data - 24 + 16) by lia; apply le_val_eq; [apply Forall_slice; exact HB|rewrite zlen_slice; lia|exact M3]|].
  repeat (split; [reflexivity|]). split; [exact HF|].
  assert (HIX : zlen ix = Z.max 0 c).
  { rewrite <- zlen_zseq. clear - E5. revert ix E5. generalize (zseq c). intros l. induction l as [|i l IH]; intros ix E; cbn [readEntries] in E.
    - injection E as <-. reflexivity.
    - destruct (readEntry ibuf i); try discriminate. cbn [rbind] in E. destruct (readEntries ibuf l); try discriminate. cbn [rbind] in E.
      injection E as <-. rewrite !zlen_cons. rewrite (IH _ eq_refl). reflexivity. }
  pose proof (readBytesAt_bytes _ _ _ _ _ HB E2) as B2. pose proof (readBuffered_range 4 cbuf 0 c B2 ltac:(lia) E3) as [Hc _].
  rewrite HIX. unfold BlockCount. cbn [r_header]. 
  match goal with |- context [if ?a >? ?b then _ else _] => destruct (Z.gtb_spec a b) end; cbn [set_blockCount h_blockCount] in *; lia.
Qed.

(** ** Block data *)
Lemma uvarints_loop_len n : forall first buf vals stopped, decodeUVarInts_loop n first buf = Ok (vals, stopped) -> zlen vals <= Z.of_nat n /\ Forall is_u64 vals.
Proof.
  induction n as [|n IH]; intros first buf vals stopped H; cbn [decodeUVarInts_loop] in H; [injection H as <- <-; split; [cbn; lia|constructor]|].
  destruct buf as [|b buf]; [injection H as <- <-; split; [cbn; lia|constructor]|].
  pose proof (uvarint_total (b :: buf)) as HU. destruct (uvarint (b :: buf)) as [v k]. destruct HU as [HU _].
  destruct (k <=? 0); [destruct first; [discriminate|]; injection H as <- <-; split; [cbn; lia|constructor]|].
  destruct (decodeUVarInts_loop n false (zdrop k (b :: buf))) as [[vs st]| |] eqn:E; cbn [rbind] in H; try discriminate.
  injection H as <- <-. apply IH in E. destruct E. rewrite zlen_cons. split; [lia|constructor; assumption].
Qed.
Lemma uvarints_no_panic n : forall first buf, decodeUVarInts_loop n first buf <> Panic.
Proof.
  induction n as [|n IH]; intros first buf; cbn [decodeUVarInts_loop]; [discriminate|]. destruct buf as [|b buf]; [discriminate|].
  destruct (uvarint (b :: buf)) as [v k]. destruct (k <=? 0); [destruct first; discriminate|].
  specialize (IH false (zdrop k (b :: buf))). destruct (decodeUVarInts_loop n false _) as [[vs st]| |]; cbn [rbind]; congruence.
Qed.
Lemma decodeUVarInts_len buf count vals : 0 <= count -> decodeUVarInts buf count = Ok vals -> zlen vals <= count /\ Forall is_u64 vals.
Proof.
  unfold decodeUVarInts. intros Hc H. destruct (decodeUVarInts_loop (Z.to_nat count) true buf) as [[vs st]| |] eqn:E; cbn [rbind] in H; try discriminate.
  apply uvarints_loop_len in E. destruct E as [E1 E2]. destruct st; injection H as <-; [split; [lia|exact E2]|].
  pose proof (zlen_nonneg vs). rewrite zlen_app, zlen_map, zlen_zdrop, zlen_zseq. split; [lia|].
  apply Forall_app. split; [exact E2|]. apply Forall_map, Forall_forall. intros i _. apply u64_range.
Qed.
Lemma varint_values_len n : forall i buf, length (decodeVarIntValues n i buf) = n /\ Forall is_i64 (decodeVarIntValues n i buf).
Proof.
  induction n as [|n IH]; intros i buf; [split; [reflexivity|constructor]|]. cbn [decodeVarIntValues]. destruct buf as [|b buf].
  - split; [apply repeat_length|]. apply Forall_forall. intros x Hx. apply repeat_spec in Hx. subst. unfold is_i64, two63. lia.
  - pose proof (decodeSignedVarInt_total (b :: buf)) as HT. destruct (decodeSignedVarInt (b :: buf)) as [v k]. destruct HT as [HT _].
    destruct (k <=? 0); cbn [length]; [destruct (IH (i + 1) (zdrop 1 (b :: buf))) as [-> HF]|destruct (IH (i + 1) (zdrop k (b :: buf))) as [-> HF]];
      (split; [reflexivity|]); constructor; auto. apply i64_range.
Qed.
Lemma decodeFixed_len bs count conv mock : zlen (decodeFixed bs count conv mock) = Z.max 0 count.
Proof. unfold decodeFixed. rewrite zlen_map. apply zlen_zseq. Qed.

Definition idPart (encodingType : Z) (ids : list Z) : list Z :=
  if (encodingType =? EncodingDeltaBoth) || (encodingType =? EncodingVarIntBoth) || (encodingType =? EncodingDeltaID) || (encodingType =? EncodingVarIntID)
  then deltaDecode ids else ids.

Lemma deltaDecode_zlen l : zlen (deltaDecode l) = zlen l.
Proof. unfold zlen, deltaDecode. rewrite delta_decode_length. reflexivity. Qed.
Lemma deltaDecodeInt64_zlen l : zlen (deltaDecodeInt64 l) = zlen l.
Proof. unfold zlen, deltaDecodeInt64. rewrite delta_decode_length. reflexivity. Qed.

Lemma undelta_range (w : Z -> Z) (ok : Z -> Prop) : (forall x, ok (w x)) -> forall l prev, Forall ok (undelta_from w prev l).
Proof. intros H. induction l as [|x l IH]; intros prev; cbn [undelta_from]; constructor; auto. Qed.
Lemma deltaDecode_u64 l : Forall is_u64 l -> Forall is_u64 (deltaDecode l).
Proof. unfold deltaDecode, delta_decode_with. intros H. destruct H; constructor; [assumption|]. apply undelta_range. apply u64_range. Qed.
Lemma deltaDecodeInt64_i64 l : Forall is_i64 l -> Forall is_i64 (deltaDecodeInt64 l).
Proof. unfold deltaDecodeInt64, delta_decode_with. intros H. destruct H; constructor; [assumption|]. apply undelta_range. apply i64_range. Qed.

Lemma decodeBlockData_no_panic idB valB count e : decodeBlockData idB valB count e <> Panic.
Proof.
  unfold decodeBlockData. destruct (isVarInt e).
  - destruct (decodeUVarInts idB count) as [ids| |] eqn:E; cbn [rbind]; [|discriminate|].
    + repeat (destruct (_ || _); [discriminate|]). discriminate.
    + unfold decodeUVarInts in E. pose proof (uvarints_no_panic (Z.to_nat count) true idB).
      destruct (decodeUVarInts_loop _ true idB) as [[vs st]| |]; cbn [rbind] in E; try congruence. destruct st; discriminate.
  - match goal with |- context [if ?a >? ?b then (?b, ?x) else ?y] => destruct (if a >? b then (b, x) else y) as [c ids] end.
    cbn [rbind]. repeat (destruct (_ || _); [discriminate|]). discriminate.
Qed.

Lemma decodeBlockData_len idB valB count e ids vals : 0 <= count -> decodeBlockData idB valB count e = Ok (ids, vals) ->
  zlen ids <= zlen vals <= count /\ (isVarInt e = false -> zlen ids = zlen vals)
  /\ (isVarInt e = true -> zlen vals = count) /\ (Forall is_byte idB -> Forall is_u64 ids) /\ Forall is_i64 vals.
Proof.
  intros Hc H. unfold decodeBlockData in H.
  assert (G : exists ids0 vals0, (zlen ids0 <= zlen vals0 <= count /\ (isVarInt e = false -> zlen ids0 = zlen vals0)
     /\ (isVarInt e = true -> zlen vals0 = count) /\ (Forall is_byte idB -> Forall is_u64 ids0) /\ Forall is_i64 vals0) /\ (if (e =? EncodingDeltaBoth) || (e =? EncodingVarIntBoth) then Ok (deltaDecode ids0, deltaDecodeInt64 vals0)
      else if (e =? EncodingDeltaID) || (e =? EncodingVarIntID) then Ok (deltaDecode ids0, vals0)
      else if (e =? EncodingDeltaValue) || (e =? EncodingVarIntValue) then Ok (ids0, deltaDecodeInt64 vals0)
      else Ok (ids0, vals0)) = Ok (ids, vals)).
  { destruct (isVarInt e) eqn:EV.
    - destruct (decodeUVarInts idB count) as [ids0| |] eqn:E; cbn [rbind] in H; try discriminate.
      apply decodeUVarInts_len in E; [|exact Hc]. destruct E as [E1 E2].
      destruct (varint_values_len (Z.to_nat count) 0 valB) as [L HF].
      assert (L' : zlen (decodeVarIntValues (Z.to_nat count) 0 valB) = count) by (unfold zlen; lia).
      exists ids0, (decodeVarIntValues (Z.to_nat count) 0 valB). split; [|exact H]. rewrite L'. repeat split; try lia; try assumption; auto.
    - pose proof (zlen_nonneg idB). pose proof (zlen_nonneg valB).
      set (c0 := if count >? zlen idB / 8 then zlen idB / 8 else count) in H.
      assert (Hc0 : 0 <= c0 <= count) by (unfold c0; destruct (Z.gtb_spec count (zlen idB / 8)); lia).
      set (ids0 := decodeFixed idB c0 (fun x => x) (fun i => u64 (i + 1))) in H.
      assert (F0 : Forall is_byte idB -> Forall is_u64 ids0).
      { intros HB. unfold ids0, decodeFixed. apply Forall_map, Forall_forall. intros i Hi. destruct (Z.leb_spec (i * 8 + 8) (zlen idB)); [|apply u64_range].
        apply in_zseq in Hi. pose proof (le_val_range (slice idB (i * 8) 8) (Forall_slice _ _ _ _ HB)) as G. rewrite zlen_slice in G by lia.
        replace (Z.max 0 (Z.min 8 (zlen idB - i * 8))) with 8 in G by lia. change (256 ^ 8) with two64 in G. exact G. }
      assert (L0 : zlen ids0 = c0) by (unfold ids0; rewrite decodeFixed_len; lia).
      assert (FV : forall c, Forall is_i64 (decodeFixed valB c i64 (fun i => i64 ((i + 1) * 100)))).
      { intros c. apply Forall_map, Forall_forall. intros i _. destruct (i * 8 + 8 <=? zlen valB); apply i64_range. }
      destruct (Z.gtb_spec c0 (zlen valB / 8)).
      + cbn [rbind] in H. eexists _, _. split; [|exact H]. rewrite decodeFixed_len. rewrite L0 in *. destruct (Z.gtb_spec c0 (zlen valB / 8)); [|lia].
        rewrite zlen_ztake, L0. repeat split; try lia; try discriminate; auto using Forall_ztake.
      + cbn [rbind] in H. eexists _, _. split; [|exact H]. rewrite decodeFixed_len. rewrite L0. repeat split; try lia; try discriminate; auto. }
  destruct G as (ids0 & vals0 & (G1 & G2 & G3 & G4 & G5) & G).
  destruct (_ || _) in G; [|destruct (_ || _) in G; [|destruct (_ || _) in G]]; injection G as <- <-;
    rewrite ?deltaDecode_zlen, ?deltaDecodeInt64_zlen; repeat split; auto using deltaDecode_u64, deltaDecodeInt64_i64; try lia.
Qed.

(** ** GetPairs *)
Theorem readBlock_no_panic r i : Forall (fun e => 80 <= e_size e) (r_index r) -> readBlock r i <> Panic.
Proof.
  intros HS. unfold readBlock. destruct (_ || _); [discriminate|].
  destruct (nth_error (r_index r) (Z.to_nat i)) as [e|] eqn:E; [|discriminate].
  assert (80 <= e_size e) by (rewrite Forall_forall in HS; apply HS; eapply nth_error_In; exact E).
  destruct (readBytesAt _ _ _ (e_size e - blockHeaderSize)) as [b| |] eqn:ER; cbn [rbind];
    [|discriminate|apply readBytesAt_no_panic in ER; [destruct ER|unfold blockHeaderSize; lia]].
  apply readBytesAt_len in ER; [|unfold blockHeaderSize; lia]. unfold blockHeaderSize in ER. unfold layoutField, readBufferedUint32.
  repeat field. destruct (_ =? 0); [discriminate|]. destruct (_ =? 0); [discriminate|]. destruct (_ || _); [discriminate|].
  apply decodeBlockData_no_panic.
Qed.

Theorem readBlock_len r i ids vals : Forall (fun e => 0 <= e_count e) (r_index r) ->
  readBlock r i = Ok (ids, vals) ->
  0 <= i < zlen (r_index r)
  /\ exists e, nth_error (r_index r) (Z.to_nat i) = Some e
    /\ zlen ids <= zlen vals <= e_count e /\ (IsVarIntEncoded r = false -> zlen ids = zlen vals)
    /\ (IsVarIntEncoded r = true -> zlen vals = e_count e) /\ (Forall is_byte (r_data r) -> Forall is_u64 ids) /\ Forall is_i64 vals.
Proof.
  intros HC H. unfold readBlock in H. destruct (Z.ltb_spec i 0); [discriminate|]. destruct (Z.geb_spec i (zlen (r_index r))); [discriminate|].
  cbn [orb] in H. split; [lia|]. destruct (nth_error (r_index r) (Z.to_nat i)) as [e|] eqn:E; [|discriminate].
  assert (He : 0 <= e_count e) by (rewrite Forall_forall in HC; apply HC; eapply nth_error_In; exact E).
  exists e. split; [reflexivity|].
  destruct (readBytesAt _ _ _ (e_size e - blockHeaderSize)) as [b| |] eqn:ER; cbn [rbind] in H; try discriminate.
  destruct (layoutField b 0) as [a0| |]; cbn [rbind] in H; try discriminate.
  destruct (layoutField b 4) as [a1| |]; cbn [rbind] in H; try discriminate.
  destruct (layoutField b 8) as [a2| |]; cbn [rbind] in H; try discriminate.
  destruct (layoutField b 12) as [a3| |]; cbn [rbind] in H; try discriminate.
  destruct (a1 =? 0); [discriminate|]. destruct (a3 =? 0); [discriminate|]. destruct (_ || _); [discriminate|].
  apply decodeBlockData_len in H; [|exact He]. destruct H as (J1 & J2 & J3 & J4 & J5). repeat split; try apply J1; auto.
  intros HB. apply J4, Forall_slice. eapply readBytesAt_bytes; eassumption.
Qed.

Section Agg.
Context {Srr : Sroar}.

Lemma filterPairs_no_panic f d : forall ids vals, zlen ids <= zlen vals -> filterPairs f d ids vals <> Panic.
Proof.
  induction ids as [|i ids IH]; intros vals H; cbn [filterPairs]; [discriminate|]. destruct vals as [|v vals].
  - rewrite zlen_cons, zlen_nil in H. pose proof (zlen_nonneg ids). lia.
  - rewrite !zlen_cons in H. specialize (IH vals ltac:(lia)). cbn [tl]. destruct (keeps f d i); [|exact IH].
    destruct (filterPairs f d ids vals) as [[a b]| |]; cbn [rbind]; congruence.
Qed.
Lemma filterPairs_len f d : forall ids vals ids' vals', filterPairs f d ids vals = Ok (ids', vals') -> zlen ids' = zlen vals' /\ zlen vals' <= zlen ids.
Proof.
  induction ids as [|i ids IH]; intros vals ids' vals' H; cbn [filterPairs] in H; [injection H as <- <-; split; cbn; lia|].
  destruct (keeps f d i).
  - destruct vals as [|v vals]; [discriminate|]. destruct (filterPairs f d ids vals) as [[a b]| |] eqn:E; cbn [rbind] in H; try discriminate.
    injection H as <- <-. apply IH in E. rewrite !zlen_cons. lia.
  - apply IH in H. rewrite !zlen_cons. lia.
Qed.

Theorem readFiltered_no_panic r i f d : Forall (fun e => 0 <= e_count e) (r_index r) ->
  Forall (fun e => 80 <= e_size e) (r_index r) -> readBlockFiltered r i f d <> Panic.
Proof.
  intros HC HS. unfold readBlockFiltered. pose proof (readBlock_no_panic r i HS) as HP.
  destruct (readBlock r i) as [[ids vals]| |] eqn:E; cbn [rbind]; try congruence.
  apply readBlock_len in E; [|assumption]. destruct E as (_ & e & _ & [L _] & _).
  destruct f, d; try discriminate; apply filterPairs_no_panic; exact L.
Qed.

Lemma scan_no_panic f idx : (forall i, In i idx -> f i <> Panic) -> forall a, scan f idx a <> Panic.
Proof.
  induction idx as [|i idx IH]; intros H a; cbn [scan]; [discriminate|].
  specialize (IH (fun j Hj => H j (or_intror Hj))). specialize (H i (or_introl eq_refl)).
  destruct (f i) as [[ids vs]| |]; cbn [add_block rbind]; [apply IH|apply IH|congruence].
Qed.
Theorem aggregate_no_panic r opts : Forall (fun e => 0 <= e_count e) (r_index r) ->
  Forall (fun e => 80 <= e_size e) (r_index r) ->
  (has_filter opts = true -> o_filter opts = None -> 0 <= BlockCount r <= 2 ^ 45) -> aggregateSequential r opts <> Panic.
Proof.
  intros HC HS HM. unfold aggregateSequential, aggregateWithFilter. destruct (has_filter opts).
  - assert (EI : FilteredBlockIterator r (o_filter opts) (o_deny opts) = Ok (matchingBlocks r (o_filter opts) (o_deny opts))).
    { unfold FilteredBlockIterator. destruct (o_filter opts); [reflexivity|]. specialize (HM eq_refl eq_refl). unfold make_panics.
      destruct (Z.ltb_spec (BlockCount r) 0); [lia|]. destruct (Z.gtb_spec (BlockCount r * 8) (2 ^ 48)); [lia|]. reflexivity. }
    rewrite EI. cbn [rbind]. destruct (zlen _ =? 0); [discriminate|].
    match goal with |- context [scan ?f ?l ?a] => pose proof (scan_no_panic f l (fun i _ => readFiltered_no_panic r (i64 i) _ _ HC HS) a) as G; destruct (scan f l a) end;
      cbn [rbind]; congruence.
  - destruct (_ && _); [discriminate|].
    match goal with |- context [scan ?f ?l ?a] => pose proof (scan_no_panic f l (fun i _ => readBlock_no_panic r (i64 i) HS) a) as G; destruct (scan f l a) end;
      cbn [rbind]; congruence.
Qed.
End Agg.

(** ** More about opened files *)

(** The fields of an index entry come from bytes, so they are in range. *)
Definition entry_typed (e : footerEntry) : Prop :=
  is_u64 (e_offset e) /\ is_u32 (e_size e) /\ is_u64 (e_minID e) /\ is_u64 (e_maxID e) /\ is_u64 (e_minValue e)
  /\ is_u64 (e_maxValue e) /\ is_u64 (e_sum e) /\ is_u32 (e_count e).

Lemma readEntry_typed buf i e : Forall is_byte buf -> readEntry buf i = Ok e -> entry_typed e.
Proof.
  intros HB H. unfold readEntry, readBufferedUint64, readBufferedUint32 in H.
  repeat match type of H with
  | context [readBuffered ?n buf ?o] => let E := fresh "E" in destruct (readBuffered n buf o) eqn:E; cbn [rbind] in H; [|discriminate|discriminate];
      apply readBuffered_range in E; [|exact HB|lia]; change (256 ^ 8) with two64 in E; change (256 ^ 4) with two32 in E
  end.
  injection H as <-. unfold entry_typed, is_u64, is_u32. cbn [e_offset e_size e_minID e_maxID e_minValue e_maxValue e_sum e_count]. repeat split; lia.
Qed.
Lemma readEntries_typed buf l : Forall is_byte buf -> forall ix, readEntries buf l = Ok ix -> Forall entry_typed ix.
Proof.
  intros HB. induction l as [|i l IH]; intros ix H; cbn [readEntries] in H; [injection H as <-; constructor|].
  destruct (readEntry buf i) eqn:E; try discriminate. cbn [rbind] in H. destruct (readEntries buf l) eqn:E'; try discriminate.
  cbn [rbind] in H. injection H as <-. constructor; [eapply readEntry_typed; eassumption|apply IH; reflexivity].
Qed.
Theorem NewReader_typed data r : Forall is_byte data -> NewReader data = Ok r -> Forall entry_typed (r_index r).
Proof.
  intros HB H. unfold NewReader in H. destruct (readHeader data) as [h| |]; cbn [rbind] in H; try discriminate.
  destruct (readFooter data h) as [[[h' m] ix]| |] eqn:E; cbn [rbind] in H; try discriminate. injection H as <-. cbn [r_index].
  unfold readFooter in E. destruct (zlen data <? 24); [discriminate|].
  destruct (readBytesAt data true (zlen data - 24) 24) as [b| |]; cbn [rbind] in E; try discriminate.
  repeat match type of E with
  | context [readBufferedUint64 b ?o] => destruct (readBufferedUint64 b o); cbn [rbind] in E; try discriminate
  end.
  destruct (negb _); [discriminate|]. destruct (_ <? 64); [discriminate|].
  match type of E with context [readBytesAt ?d true ?o 4] => destruct (readBytesAt d true o 4) as [cb| |]; cbn [rbind] in E; try discriminate end.
  destruct (readBufferedUint32 cb 0) as [c| |]; cbn [rbind] in E; try discriminate.
  match type of E with context [readBytesAt ?d true ?o ?k] => destruct (readBytesAt d true o k) as [ib| |] eqn:EI; cbn [rbind] in E; try discriminate end.
  destruct (readEntries ib (zseq c)) as [ix'| |] eqn:EE; cbn [rbind] in E; try discriminate. injection E as <- <- <-.
  eapply readEntries_typed; [|exact EE]. eapply readBytesAt_bytes; eassumption.
Qed.
Lemma NewReader_count data r : Forall is_byte data -> NewReader data = Ok r -> 0 <= BlockCount r.
Proof.
  intros HB H. unfold NewReader in H. destruct (readHeader data) as [h| |] eqn:EH; cbn [rbind] in H; try discriminate.
  assert (Hh : 0 <= h_blockCount h).
  { unfold readHeader in EH. destruct (readBytesAt data true 0 headerSize) as [buf| |] eqn:E; cbn [rbind] in EH; try discriminate.
    pose proof (readBytesAt_bytes _ _ _ _ _ HB E) as BB.
    unfold readBufferedUint64, readBufferedUint32 in EH.
    do 3 (destruct (readBuffered _ buf _); cbn [rbind] in EH; try discriminate).
    destruct (readBuffered 8 buf 16) as [c| |] eqn:EC; cbn [rbind] in EH; try discriminate.
    pose proof (readBuffered_range 8 buf 16 c BB ltac:(lia) EC) as RC. clear EC.
    do 6 (destruct (readBuffered _ buf _); cbn [rbind] in EH; try discriminate).
    match type of EH with (if negb (?a =? ?b) then _ else _) = _ => destruct (a =? b); [|discriminate EH] end. cbn [negb] in EH.
    match type of EH with (if negb (?a =? ?b) then _ else _) = _ => destruct (a =? b); [|discriminate EH] end. cbn [negb] in EH. injection EH as <-. cbn [h_blockCount].
    apply RC. }
  destruct (readFooter data h) as [[[h' m] ix]| |] eqn:E; cbn [rbind] in H; try discriminate. injection H as <-. unfold BlockCount. cbn [r_header].
  unfold readFooter in E. destruct (zlen data <? 24); [discriminate|].
  destruct (readBytesAt data true (zlen data - 24) 24) as [b| |]; cbn [rbind] in E; try discriminate.
  repeat match type of E with
  | context [readBufferedUint64 b ?o] => destruct (readBufferedUint64 b o); cbn [rbind] in E; try discriminate
  end.
  destruct (negb _); [discriminate E|]. destruct (_ <? 64); [discriminate E|].
  destruct (readBytesAt data true _ 4) as [cb| |]; cbn [rbind] in E; try discriminate.
  destruct (readBufferedUint32 cb 0) as [c| |]; cbn [rbind] in E; try discriminate.
  destruct (readBytesAt data true _ (c * 56)) as [ib| |]; cbn [rbind] in E; try discriminate.
  destruct (readEntries ib _); cbn [rbind] in E; try discriminate. injection E as <- _ _.
  destruct (Z.gtb_spec c (h_blockCount h)); cbn [set_blockCount h_blockCount]; lia.
Qed.
Lemma typed_counts l : Forall entry_typed l -> Forall (fun e => 0 <= e_count e) l.
Proof. apply Forall_impl. intros e (_ & _ & _ & _ & _ & _ & _ & H). apply H. Qed.

(** C35, the part that holds: fixed-width data of a block that lies in the file. *)
Lemma in_slice_fixed bs count conv mock x : 0 <= count <= zlen bs / 8 -> In x (decodeFixed bs count conv mock) ->
  exists k, 0 <= k /\ k + 8 <= zlen bs /\ x = conv (le_val (slice bs k 8)).
Proof.
  intros Hc H. unfold decodeFixed in H. apply in_map_iff in H. destruct H as (i & H & Hi). apply in_zseq in Hi.
  destruct (Z.leb_spec (i * 8 + 8) (zlen bs)); [|lia]. exists (i * 8). split; [lia|]. split; [lia|]. symmetry. exact H.
Qed.

Lemma In_ztake {A} (x : A) n l : In x (ztake n l) -> In x l.
Proof. intros H. unfold ztake in H. rewrite <- (firstn_skipn (Z.to_nat n) l). apply in_or_app. left. exact H. Qed.

Theorem raw_reads_bytes r i ids vals : Forall is_byte (r_data r) -> r_open r = true -> Forall entry_typed (r_index r) ->
  EncodingType r = EncodingRaw -> readBlock r i = Ok (ids, vals) ->
  exists e, nth_error (r_index r) (Z.to_nat i) = Some e
   /\ (e_offset e + e_size e <= zlen (r_data r) -> zlen (r_data r) < two63 ->
       (forall x, In x ids -> exists p, e_offset e + 80 <= p /\ p + 8 <= e_offset e + e_size e /\ x = le_val (slice (r_data r) p 8))
       /\ (forall x, In x vals -> exists p, e_offset e + 80 <= p /\ p + 8 <= e_offset e + e_size e /\ x = i64 (le_val (slice (r_data r) p 8)))).
Proof.
  intros HB HO HT HE H. unfold readBlock in H. destruct (Z.ltb_spec i 0); [discriminate|]. destruct (Z.geb_spec i (zlen (r_index r))); [discriminate|].
  cbn [orb] in H. destruct (nth_error (r_index r) (Z.to_nat i)) as [e|] eqn:E; [|discriminate]. exists e. split; [reflexivity|]. intros Hin Hsz.
  assert (He : entry_typed e) by (rewrite Forall_forall in HT; apply HT; eapply nth_error_In; exact E).
  destruct He as (T1 & T2 & _). unfold is_u64, is_u32 in *.
  destruct (Z.ltb_spec (e_size e) 64).
  { unfold readBytesAt at 1 in H. destruct (Z.ltb_spec (e_size e - blockHeaderSize) 0); [discriminate|unfold blockHeaderSize in *; lia]. }
  replace (i64 (i64 (e_offset e) + blockHeaderSize)) with (e_offset e + 64) in H by (unfold i64, blockHeaderSize, two63, two64 in *; lia).
  change blockHeaderSize with 64 in H. unfold readBytesAt in H.
  destruct (Z.ltb_spec (e_size e - 64) 0); [lia|]. destruct (Z.ltb_spec (e_offset e + 64) 0); [lia|].
  destruct (Z.eqb_spec (e_size e - 64) 0); [cbn in H; discriminate|]. rewrite HO in H. cbn [negb] in H.
  destruct (Z.gtb_spec (e_offset e + 64 + (e_size e - 64)) max_int64); [discriminate|]. cbn [rbind] in H.
  set (b := slice (r_data r) (e_offset e + 64) (e_size e - 64)) in H.
  assert (HL : zlen b = e_size e - 64) by (unfold b; rewrite zlen_slice; lia). rewrite HL in H.
  replace (e_size e - 64 - (e_size e - 64)) with 0 in H by lia. change (zeros 0) with (@nil Z) in H. rewrite app_nil_r in H.
  assert (HBb : Forall is_byte b) by (apply Forall_slice; exact HB).
  unfold layoutField, readBufferedUint32 in H.
  destruct (readBuffered 4 b 0) as [a0| |] eqn:E0; cbn [rbind] in H; try discriminate.
  destruct (readBuffered 4 b 4) as [a1| |] eqn:E1; cbn [rbind] in H; try discriminate.
  destruct (readBuffered 4 b 8) as [a2| |] eqn:E2; cbn [rbind] in H; try discriminate.
  destruct (readBuffered 4 b 12) as [a3| |] eqn:E3; cbn [rbind] in H; try discriminate.
  apply readBuffered_range in E0; [|exact HBb|lia]. apply readBuffered_range in E1; [|exact HBb|lia].
  apply readBuffered_range in E2; [|exact HBb|lia]. apply readBuffered_range in E3; [|exact HBb|lia].
  destruct (Z.eqb_spec a1 0); [discriminate|]. destruct (Z.eqb_spec a3 0); [discriminate|].
  rewrite HL in H.
  destruct (Z.gtb_spec (16 + a0 + a1) (e_size e - 64)); [discriminate|]. destruct (Z.gtb_spec (16 + a2 + a3) (e_size e - 64)); [discriminate|].
  cbn [orb] in H. unfold EncodingType in HE. rewrite HE in H.
  set (ib := slice b (16 + a0) a1) in H. set (vb := slice b (16 + a2) a3) in H.
  assert (Li : zlen ib = a1) by (unfold ib; rewrite zlen_slice; lia).
  assert (Lv : zlen vb = a3) by (unfold vb; rewrite zlen_slice; lia).
  unfold decodeBlockData in H. change (isVarInt EncodingRaw) with false in H. cbv iota in H.
  change (EncodingRaw =? EncodingDeltaBoth) with false in H. change (EncodingRaw =? EncodingVarIntBoth) with false in H.
  change (EncodingRaw =? EncodingDeltaID) with false in H. change (EncodingRaw =? EncodingVarIntID) with false in H.
  change (EncodingRaw =? EncodingDeltaValue) with false in H. change (EncodingRaw =? EncodingVarIntValue) with false in H. cbn [orb] in H.
  assert (T8 : is_u32 (e_count e)) by (rewrite Forall_forall in HT; apply (HT e); eapply nth_error_In; exact E).
  unfold is_u32 in T8.
  set (c0 := if e_count e >? zlen ib / 8 then zlen ib / 8 else e_count e) in H.
  assert (Hc0 : 0 <= c0 <= zlen ib / 8) by (unfold c0; destruct (Z.gtb_spec (e_count e) (zlen ib / 8)); lia).
  assert (KI : forall x, In x (decodeFixed ib c0 (fun x => x) (fun i => u64 (i + 1))) ->
     exists p, e_offset e + 80 <= p /\ p + 8 <= e_offset e + e_size e /\ x = le_val (slice (r_data r) p 8)).
  { intros x Hx. destruct (in_slice_fixed ib c0 _ _ x Hc0 Hx) as (k & K1 & K2 & ->). exists (e_offset e + 64 + (16 + a0 + k)).
    split; [lia|]. split; [lia|]. f_equal. unfold ib, b. rewrite !slice_slice by lia. reflexivity. }
  assert (KV : forall c x, 0 <= c <= zlen vb / 8 -> In x (decodeFixed vb c i64 (fun i => i64 ((i + 1) * 100))) ->
     exists p, e_offset e + 80 <= p /\ p + 8 <= e_offset e + e_size e /\ x = i64 (le_val (slice (r_data r) p 8))).
  { intros c x Hc Hx. destruct (in_slice_fixed vb c _ _ x Hc Hx) as (k & K1 & K2 & ->). exists (e_offset e + 64 + (16 + a2 + k)).
    split; [lia|]. split; [lia|]. do 2 f_equal. unfold vb, b. rewrite !slice_slice by lia. reflexivity. }
  destruct (Z.gtb_spec c0 (zlen vb / 8)).
  - cbn [rbind] in H. injection H as <- <-. split.
    + intros x Hx. apply KI. destruct (_ >? zlen vb / 8) in Hx; [eapply In_ztake; exact Hx|exact Hx].
    + intros x Hx. eapply KV; [|exact Hx]. lia.
  - cbn [rbind] in H. injection H as <- <-. split; [exact KI|]. intros x. apply KV. lia.
Qed.
