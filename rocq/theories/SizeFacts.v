(** What an encoding costs. *)
From Verif Require Import Machine MachineFacts Encoding EncodingFacts FileIO Sroar Writer Spec FileFacts
  WriterFacts BlockFacts FinalFacts Reader ReaderFacts DecodeFacts HistoryFacts RunFacts ReachFacts WriterProps SizeSpec PowerFacts.
Ltac Zify.zify_post_hook ::= Z.div_mod_to_equations.

Lemma width_spec x k : 0 <= x -> 1 <= k -> x < 2 ^ (7 * k) -> k = 1 \/ 2 ^ (7 * (k - 1)) <= x -> varint_width x = k.
Proof.
  intros Hx Hk H1 H2. unfold varint_width. destruct (Z.eq_dec x 0) as [->|Hn].
  - destruct H2 as [->|H2]; [reflexivity|]. pose proof (Z.pow_pos_nonneg 2 (7 * (k - 1))). lia.
  - assert (U : Z.log2 x < 7 * k) by (apply Z.log2_lt_pow2; lia).
    pose proof (Z.log2_nonneg x). destruct H2 as [->|H2]; [lia|].
    assert (7 * (k - 1) <= Z.log2 x) by (apply Z.log2_le_pow2; lia). lia.
Qed.
Lemma encode_width x : is_u64 x -> zlen (encodeVarInt x) = varint_width x.
Proof.
  intros H. destruct (encodeVarInt_len x H) as ([H1 H2] & H3 & H4). symmetry. apply width_spec; try assumption. unfold is_u64 in H. lia.
Qed.
Lemma width_bound x k : 0 <= x < 2 ^ (7 * k) -> 1 <= k -> 1 <= varint_width x <= k.
Proof.
  intros [H0 H] Hk. unfold varint_width. pose proof (Z.log2_nonneg x). split; [lia|].
  destruct (Z.eq_dec x 0) as [->|Hn]; [change (Z.log2 0) with 0; lia|].
  assert (Z.log2 x < 7 * k) by (apply Z.log2_lt_pow2; lia). lia.
Qed.
Lemma width_u64 x : is_u64 x -> 1 <= varint_width x <= 10.
Proof. intros H. apply width_bound; [|lia]. unfold is_u64, two64 in H. change (2 ^ (7 * 10)) with 1180591620717411303424. lia. Qed.

Lemma steps_delta_from w : forall l x, delta_from w x l = map (fun '(a, b) => w (b - a)) (combine (x :: l) l).
Proof. induction l as [|y l IH]; intros x; [reflexivity|]. cbn [delta_from combine map]. rewrite IH. reflexivity. Qed.
Lemma steps_delta w l : delta_encode_with w l = steps w l.
Proof. destruct l as [|x l]; [reflexivity|]. unfold steps. cbn [delta_encode_with]. rewrite steps_delta_from. reflexivity. Qed.

Lemma zlen_concat_sum {A} (f : A -> list Z) (g : A -> Z) l : Forall (fun x => zlen (f x) = g x) l -> zlen (concat (map f l)) = zsum (map g l).
Proof.
  induction 1 as [|x l H _ IH]; [reflexivity|]. cbn [map concat]. rewrite zlen_app, IH, H. unfold zsum. cbn [fold_right]. reflexivity.
Qed.

Lemma id_content e ids : consistent e -> Forall is_u64 ids -> id_claim e ids
  = if e =? EncodingVarInt then zsum (map varint_width ids)
    else if e =? EncodingVarIntBoth then zsum (map varint_width (steps u64 ids)) else 8 * zlen ids.
Proof.
  intros He Hi. unfold id_claim, id_items, deltaEncode. rewrite steps_delta.
  assert (G : forall l, Forall is_u64 l -> zlen (concat (map encodeVarInt l)) = zsum (map varint_width l)).
  { intros l Hl. apply zlen_concat_sum. eapply Forall_impl; [|exact Hl]. apply encode_width. }
  assert (Hs : Forall is_u64 (steps u64 ids)) by (rewrite <- steps_delta; apply deltaEncode_range; exact Hi).
  destruct He as [->|[->|[->|[->|[->| ->]]]]]; cbn -[Z.mul]; try lia; apply G; assumption.
Qed.
Lemma val_content e vals : consistent e -> Forall is_i64 vals -> val_claim e vals
  = if e =? EncodingVarInt then zsum (map (fun v => varint_width (alternate v)) vals)
    else if e =? EncodingVarIntBoth then zsum (map (fun v => varint_width (alternate v)) (steps i64 vals)) else 8 * zlen vals.
Proof.
  intros He Hi. unfold val_claim, val_items, deltaEncodeInt64. rewrite steps_delta.
  assert (G : forall l, Forall is_i64 l -> zlen (concat (map encodeSignedVarInt l)) = zsum (map (fun v => varint_width (alternate v)) l)).
  { intros l Hl. apply zlen_concat_sum. eapply Forall_impl; [|exact Hl]. intros v Hv. unfold encodeSignedVarInt.
    rewrite encode_width by (apply zigzag_range; exact Hv). rewrite zigzag_val by exact Hv. reflexivity. }
  assert (Hs : Forall is_i64 (steps i64 vals)) by (rewrite <- steps_delta; apply deltaEncodeInt64_range; exact Hi).
  destruct He as [->|[->|[->|[->|[->| ->]]]]]; cbn -[Z.mul]; try lia; apply G; assumption.
Qed.
Lemma claimed_content e ids vals : consistent e -> Forall is_u64 ids -> Forall is_i64 vals -> claimed e ids vals = content e ids vals.
Proof.
  intros He Hi Hv. unfold claimed, content. rewrite id_content, val_content by assumption.
  destruct (e =? EncodingVarInt); [lia|]. destruct (e =? EncodingVarIntBoth); lia.
Qed.
Lemma padded_claim p n : padded p n (n + calculatePadding (p + n) PageSize).
Proof.
  pose proof (calculatePadding_range (p + n)) as R. pose proof (calculatePadding_aligned (p + n)) as A. unfold padded.
  change PageSize with 4096 in *. split; [lia|]. rewrite Z.add_assoc. exact A.
Qed.
Lemma padded_unique p n s t : padded p n s -> padded p n t -> s = t.
Proof. unfold padded. lia. Qed.
Lemma padded_le p a b s t : a <= b -> padded p a s -> padded p b t -> s <= t.
Proof. unfold padded. lia. Qed.

Section Sizes.
Context {Srr : Sroar}.

Theorem estimate_content options faults h w ids vals s w1 :
  running options faults h w -> no_torn_block h -> typed_block ids vals -> consistent (encoding_of options) ->
  EstimateBlockSize ids vals w = (Ok s, w1) ->
  padded (zlen (bytes_of w)) (content (encoding_of options) ids vals) s.
Proof.
  intros Hrun Hnt Ht Hc HE.
  destruct (running_good options faults h w Hrun (or_introl Hnt)) as [(L & A & _ & Hg)|Hcl];
    [|exfalso; eapply closed_estimate; eassumption].
  destruct (estimate_outcome _ _ _ _ _ _ w ids vals s w1 Hg Ht HE) as (Hwf & Hd & -> & Hb & Hg1).
  destruct Ht as (T1 & T2 & _). unfold estimate. rewrite claimed_content by assumption. apply padded_claim.
Qed.

Theorem blocks_content options faults h now w :
  finished_run options faults h now w -> consistent (encoding_of options) ->
  exists r blocks, NewReader (bytes_of w) = Ok r /\ stored h blocks
    /\ Forall2 (fun e b => padded (e_offset e) (content (encoding_of options) (fst b) (snd b)) (e_size e)) (r_index r) blocks.
Proof.
  intros H Hc. destruct (finished_facts options faults h now w H) as (blocks & A & X & L & off & Hef & HL & HF & Hlim & HX & _ & HR).
  eexists _, blocks. split; [exact HR|]. split; [eapply effects_stored; exact Hef|]. cbn [the_reader r_index]. rewrite <- HL.
  pose proof (fz_blocks _ _ _ _ _ _ _ _ HF) as HB. clear - HB Hc. induction HB as [|x L Hx _ IH]; [constructor|]. cbn [map]. constructor; [|exact IH].
  destruct x as [p [ids vals]]. destruct Hx as ((G1 & G2 & G3 & G4) & [C1 C2] & _). cbn [fst snd entry_of e_offset e_size image_of] in *.
  assert (EB : zlen (block_body (encoding_of options) ids vals) = content (encoding_of options) ids vals).
  { rewrite <- claimed_content by assumption. unfold block_body, claimed. rewrite !zlen_app, zlen_block_header, C1, C2, zlen_block_layout. lia. }
  unfold image_of, block_image. cbn [fst snd]. rewrite zlen_app, zlen_zeros, EB.
  pose proof (calculatePadding_range (p + content (encoding_of options) ids vals)). rewrite Z.max_r by lia. apply padded_claim.
Qed.
End Sizes.

(** ** Comparisons *)
Lemma zsum_le {A} (f g : A -> Z) l : Forall (fun x => f x <= g x) l -> zsum (map f l) <= zsum (map g l).
Proof. induction 1 as [|x l H _ IH]; [apply Z.le_refl|]. unfold zsum in *. cbn [map fold_right]. lia. Qed.
Lemma zsum_const {A} (k : Z) (l : list A) : zsum (map (fun _ => k) l) = k * zlen l.
Proof. induction l as [|x l IH]; [cbn; lia|]. cbn [map]. rewrite zlen_cons. unfold zsum in *. cbn [fold_right]. rewrite IH. lia. Qed.
Lemma alternate_u64 v : is_i64 v -> is_u64 (alternate v).
Proof. unfold alternate, is_i64, is_u64, two63, two64. intros H. destruct (Z.ltb_spec v 0); lia. Qed.

Theorem varint_saves ids vals : Forall (fun x => 0 <= x < 2 ^ 56) ids -> Forall (fun v => - 2 ^ 55 <= v < 2 ^ 55) vals ->
  content EncodingVarInt ids vals <= content EncodingRaw ids vals.
Proof.
  intros H1 H2. unfold content. change (EncodingVarInt =? EncodingVarInt) with true. change (EncodingRaw =? EncodingVarInt) with false.
  change (EncodingRaw =? EncodingVarIntBoth) with false. cbn iota.
  assert (A1 : zsum (map varint_width ids) <= zsum (map (fun _ => 8) ids)).
  { apply zsum_le. eapply Forall_impl; [|exact H1]. intros x Hx. apply (width_bound x 8); [exact Hx|lia]. }
  assert (A2 : zsum (map (fun v => varint_width (alternate v)) vals) <= zsum (map (fun _ => 8) vals)).
  { apply zsum_le. eapply Forall_impl; [|exact H2]. intros v Hv. apply (width_bound (alternate v) 8); [|lia].
    change (2 ^ (7 * 8)) with (2 * 2 ^ 55). unfold alternate. cbn beta in Hv. destruct (Z.ltb_spec v 0); lia. }
  rewrite zsum_const in A1, A2. lia.
Qed.

Lemma steps_len w l : zlen (steps w l) = zlen l.
Proof. rewrite <- steps_delta. unfold zlen. rewrite delta_encode_length. reflexivity. Qed.
Theorem content_bounds e ids vals : consistent e -> typed_block ids vals -> zlen ids = zlen vals ->
  (if (e =? EncodingVarInt) || (e =? EncodingVarIntBoth) then 80 + 2 * zlen ids else 80 + 16 * zlen ids) <= content e ids vals
  /\ content e ids vals <= 80 + 20 * zlen ids.
Proof.
  intros He (Hi & Hv & _) Hl.
  assert (W1 : forall l, Forall is_u64 l -> zlen l <= zsum (map varint_width l) <= 10 * zlen l).
  { intros l H. pose proof (zsum_le (fun _ => 1) varint_width l) as L1. pose proof (zsum_le varint_width (fun _ => 10) l) as L2.
    rewrite zsum_const in L1, L2. split; [apply (Z.le_trans _ (1 * zlen l)); [lia|]; apply L1|apply L2];
      (eapply Forall_impl; [|exact H]; intros x Hx; pose proof (width_u64 x Hx); lia). }
  assert (W2 : forall l, Forall is_i64 l -> zlen l <= zsum (map (fun v => varint_width (alternate v)) l) <= 10 * zlen l).
  { intros l H. rewrite <- (map_map alternate varint_width). rewrite <- (zlen_map alternate l). apply W1. apply Forall_map.
    eapply Forall_impl; [|exact H]. apply alternate_u64. }
  pose proof (zlen_nonneg ids).
  assert (Hs1 : Forall is_u64 (steps u64 ids)) by (rewrite <- steps_delta; apply deltaEncode_range; exact Hi).
  assert (Hs2 : Forall is_i64 (steps i64 vals)) by (rewrite <- steps_delta; apply deltaEncodeInt64_range; exact Hv).
  pose proof (W1 ids Hi) as A1. pose proof (W2 vals Hv) as A2. pose proof (W1 _ Hs1) as A3. pose proof (W2 _ Hs2) as A4. rewrite steps_len in A3, A4.
  unfold content. destruct (e =? EncodingVarInt); cbn [orb]; [lia|]. destruct (e =? EncodingVarIntBoth); lia.
Qed.

Theorem dense_content a b ids vals : 1 <= a -> 1 <= b -> typed_block ids vals -> zlen ids = zlen vals -> ids <> [] ->
  (forall i x y, nth_error ids i = Some x -> nth_error ids (S i) = Some y -> 0 <= y - x < 2 ^ (7 * a)) ->
  (forall i x y, nth_error vals i = Some x -> nth_error vals (S i) = Some y -> - 2 ^ (7 * b - 1) <= y - x < 2 ^ (7 * b - 1)) ->
  content EncodingVarIntBoth ids vals <= 100 + (a + b) * (zlen ids - 1).
Proof.
  intros Ha Hb (Hi & Hv & _) Hl Hne HA HB.
  assert (G : forall (w f : Z -> Z) k (l : list Z) x, (forall i u v, nth_error (x :: l) i = Some u -> nth_error (x :: l) (S i) = Some v -> f (w (v - u)) <= k) ->
            zsum (map f (map (fun '(u, v) => w (v - u)) (combine (x :: l) l))) <= k * zlen l).
  { clear. intros w f k l. induction l as [|y l IH]; intros x H; [cbn; lia|]. change (combine (x :: y :: l) (y :: l)) with ((x, y) :: combine (y :: l) l). cbn [map]. rewrite zlen_cons.
    specialize (IH y (fun i u v E1 E2 => H (S i) u v E1 E2)). pose proof (H 0%nat x y eq_refl eq_refl). unfold zsum in *. cbn [fold_right]. lia. }
  unfold content. change (EncodingVarIntBoth =? EncodingVarInt) with false. change (EncodingVarIntBoth =? EncodingVarIntBoth) with true. cbn iota.
  destruct ids as [|x ids]; [congruence|]. destruct vals as [|v vals]; [rewrite zlen_cons in Hl; pose proof (zlen_nonneg ids); change (zlen (@nil Z)) with 0 in Hl; lia|].
  rewrite !zlen_cons in *. unfold steps. cbn [map]. 
  assert (S1 : zsum (map varint_width (map (fun '(u, v0) => u64 (v0 - u)) (combine (x :: ids) ids))) <= a * zlen ids).
  { apply (G u64 varint_width). intros i u y E1 E2. pose proof (HA i u y E1 E2) as D.
    rewrite Forall_forall in Hi. pose proof (Hi u (nth_error_In _ _ E1)) as U1. pose proof (Hi y (nth_error_In _ _ E2)) as U2.
    rewrite u64_id by (unfold is_u64, two64 in *; lia). apply width_bound; [exact D|exact Ha]. }
  assert (S2 : zsum (map (fun v0 => varint_width (alternate v0)) (map (fun '(u, v0) => i64 (v0 - u)) (combine (v :: vals) vals))) <= b * zlen vals).
  { apply (G i64 (fun z => varint_width (alternate z))). intros i u y E1 E2. pose proof (HB i u y E1 E2) as D.
    rewrite Forall_forall in Hv. pose proof (Hv u (nth_error_In _ _ E1)) as U1. pose proof (Hv y (nth_error_In _ _ E2)) as U2.
    destruct (Z.leb_spec 10 b) as [Bg|Bs].
    - pose proof (width_u64 _ (alternate_u64 _ (i64_range (y - u)))). lia.
    - assert (P : 2 ^ (7 * b) = 2 * 2 ^ (7 * b - 1)) by (replace (7 * b) with (Z.succ (7 * b - 1)) at 1 by lia; apply Z.pow_succ_r; lia).
      assert (P2 : 2 ^ (7 * b - 1) <= 2 ^ 62) by (apply Z.pow_le_mono_r; lia).
      change (2 ^ 62) with 4611686018427387904 in P2.
      rewrite i64_id by (unfold is_i64, two63; lia). apply width_bound; [|exact Hb].
      unfold alternate. destruct (Z.ltb_spec (y - u) 0); lia. }
  inversion Hi as [|? ? X1 _]; subst. inversion Hv as [|? ? X2 _]; subst.
  pose proof (width_u64 x X1). pose proof (width_u64 _ (alternate_u64 v X2)). unfold zsum in *. cbn [fold_right].
  assert (Hz : zlen ids = zlen vals) by lia. rewrite <- Hz in S2. lia.
Qed.
