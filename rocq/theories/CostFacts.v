(** Proofs for C84: counting system calls. *)
From Verif Require Import Machine MachineFacts Encoding EncodingFacts FileIO Sroar Writer SimpleWriter CostSpec.
From Coq Require Import Lia List.
Import ListNotations.
Local Open Scope nat_scope.

Section Facts.
Context {Srr : Sroar}.

Lemma made_0 w : made 0 w w.
Proof. reflexivity. Qed.
Lemma skipn_plus {A} i j (l : list A) : skipn i (skipn j l) = skipn (j + i) l.
Proof. revert l. induction j as [|j IH]; intros l; [reflexivity|]. destruct l as [|x l]; cbn [skipn Nat.add]; [apply skipn_nil|apply IH]. Qed.
Lemma made_trans j k u v w : made j u v -> made k v w -> made (j + k) u w.
Proof. unfold made. intros A B. rewrite B, A. apply skipn_plus. Qed.
Lemma fails_0 w : none_fails 0 w.
Proof. constructor. Qed.
Lemma fails_trans j k u v : made j u v -> none_fails j u -> none_fails k v -> none_fails (j + k) u.
Proof.
  unfold made, none_fails. intros A F G. rewrite A in G. clear A. revert G F. generalize (f_faults (w_file u)). intros l. revert l.
  induction j as [|j IH]; intros l G F; [exact G|]. destruct l as [|x l]; [constructor|]. cbn [skipn firstn Nat.add] in *.
  inversion F; subst. constructor; [reflexivity|]. apply IH; assumption.
Qed.

(** What a call does to the stream, given that [I] holds and is kept. *)
Definition costs (I : writer -> Prop) {A} (m : M A) (l h : nat) : Prop :=
  forall w r w', I w -> m w = (r, w') ->
    I w' /\ (forall e, r <> Err (ErrBlockFull e)) /\ exists k, k <= h /\ made k w w' /\ forall a, r = Ok a -> l <= k /\ none_fails k w.

Section Rules.
Variable I : writer -> Prop.
Hypothesis IF : forall w f, I w -> I (set_file w f).

Lemma c_weaken {A} (m : M A) l h l' h' : costs I m l h -> l' <= l -> h <= h' -> costs I m l' h'.
Proof using Type. clear IF.
  intros C L H w r w' i E. destruct (C w r w' i E) as (i' & B & k & K & T & O). split; [exact i'|]. split; [exact B|]. exists k.
  split; [lia|]. split; [exact T|]. intros a Ea. destruct (O a Ea). split; [lia|assumption].
Qed.
Lemma c_ret {A} (a : A) : costs I (mret a) 0 0.
Proof using Type. clear IF. intros w r w' i E. injection E as <- <-. split; [exact i|]. split; [discriminate|]. exists 0. split; [lia|]. split; [apply made_0|]. intros _ _. split; [lia|apply fails_0]. Qed.
Lemma c_fail {A} e l : (forall k, e <> ErrBlockFull k) -> costs I (mfail e : M A) l 0.
Proof using Type. clear IF. intros N w r w' i E. injection E as <- <-. split; [exact i|]. split; [congruence|]. exists 0. split; [lia|]. split; [apply made_0|]. discriminate. Qed.
Lemma c_panic {A} l : costs I (mpanic : M A) l 0.
Proof using Type. clear IF. intros w r w' i E. injection E as <- <-. split; [exact i|]. split; [discriminate|]. exists 0. split; [lia|]. split; [apply made_0|]. discriminate. Qed.
Lemma c_bind {A B} (m : M A) (k : A -> M B) l1 h1 l2 h2 :
  costs I m l1 h1 -> (forall a, costs I (k a) l2 h2) -> costs I (mbind m k) (l1 + l2) (h1 + h2).
Proof using Type. clear IF.
  intros C D w r w' i E. unfold mbind in E. destruct (m w) as [q w1] eqn:Em. destruct (C w q w1 i Em) as (i1 & N & j & J & T & O).
  destruct q as [a|e|].
  - destruct (D a w1 r w' i1 E) as (i2 & N2 & j2 & J2 & T2 & O2). split; [exact i2|]. split; [exact N2|]. exists (j + j2).
    split; [lia|]. split; [eapply made_trans; eassumption|]. intros b Eb. destruct (O a eq_refl), (O2 b Eb).
    split; [lia|eapply fails_trans; eassumption].
  - injection E as <- <-. split; [exact i1|]. split; [intros f F; injection F as ->; exact (N f eq_refl)|]. exists j. split; [lia|]. split; [exact T|discriminate].
  - injection E as <- <-. split; [exact i1|]. split; [discriminate|]. exists j. split; [lia|]. split; [exact T|discriminate].
Qed.
Lemma c_get {B} (k : writer -> M B) l h : (forall v, I v -> costs I (k v) l h) -> costs I (mbind mget k) l h.
Proof using Type. clear IF. intros D w r w' i E. unfold mbind, mget in E. exact (D w i w r w' i E). Qed.
Lemma c_lift {A} (q : res A) : (forall e, q <> Err (ErrBlockFull e)) -> costs I (mlift q) 0 0.
Proof using Type. clear IF. intros N w r w' i E. injection E as <- <-. split; [exact i|]. split; [exact N|]. exists 0. split; [lia|]. split; [apply made_0|]. intros _ _. split; [lia|apply fails_0]. Qed.
Lemma c_lift_bind {A B} (q : res A) (k : A -> M B) l h : (forall e, q <> Err (ErrBlockFull e)) ->
  (forall a, q = Ok a -> costs I (k a) l h) -> costs I (mbind (mlift q) k) l h.
Proof using Type. clear IF.
  intros N D w r w' i E. unfold mbind, mlift in E. destruct q as [a|e|]; [exact (D a eq_refl w r w' i E)| |]; injection E as <- <-;
  (split; [exact i|]; split; [try discriminate; intros f F; injection F as ->; exact (N f eq_refl)|]; exists 0; split; [lia|]; split; [apply made_0|discriminate]).
Qed.
Lemma c_modify f : (forall w, I w -> I (f w)) -> (forall w, w_file (f w) = w_file w) -> costs I (mmodify f) 0 0.
Proof using Type. clear IF.
  intros K S w r w' i E. injection E as <- <-. split; [auto|]. split; [discriminate|]. exists 0. split; [lia|]. split; [unfold made; rewrite S; reflexivity|].
  intros _ _. split; [lia|apply fails_0].
Qed.
Lemma c_if {A} (b : bool) (m n : M A) l h : costs I m l h -> costs I n l h -> costs I (if b then m else n) l h.
Proof using Type. clear IF. destruct b; auto. Qed.

Lemma skipn_1 {A} (l : list A) : tl l = skipn 1 l.
Proof using Type. clear IF. destruct l; reflexivity. Qed.
Ltac one H Ef := injection H as <- <-; split; [apply IF; assumption|split; [congruence|]];
  exists 1; split; [lia|split; [unfold made; cbn [w_file set_file set_pos write_at f_faults]; rewrite ?Ef; reflexivity|]].
Ltac none H := injection H as <- <-; split; [apply IF; assumption|split; [congruence|]];
  exists 0; split; [lia|split; [unfold made; cbn [w_file set_file]; reflexivity|discriminate]].
Ltac fine Ef := let a := fresh in let Ea := fresh in intros a Ea; first [discriminate|split; [lia|unfold none_fails; rewrite Ef; cbn [firstn]; repeat constructor]].
Lemma c_seek off wh : costs I (seek off wh) 1 1.
Proof.
  intros w r w' i. unfold seek, mfile, file_seek. destruct (f_open (w_file w)); [|intros H; none H].
  destruct (f_faults (w_file w)) as [|[|k] fs] eqn:Ef; [destruct (_ <? 0)%Z|destruct (_ <? 0)%Z|]; intros H; one H Ef; fine Ef.
Qed.
Lemma c_write bs : costs I (write bs) 1 1.
Proof.
  intros w r w' i. unfold write, mfile, file_write. destruct (f_open (w_file w)); [|intros H; none H].
  destruct (f_faults (w_file w)) as [|[|k] fs] eqn:Ef; intros H; one H Ef; fine Ef.
Qed.
Lemma c_sync : costs I sync 1 1.
Proof.
  intros w r w' i. unfold sync, mfile, file_sync. destruct (f_open (w_file w)); [|intros H; none H].
  destruct (f_faults (w_file w)) as [|[|k] fs] eqn:Ef; intros H; one H Ef; fine Ef.
Qed.
Lemma c_close : costs I closeFile 1 1.
Proof.
  intros w r w' i. unfold closeFile, mfile, file_close. destruct (f_open (w_file w)); [|intros H; none H].
  destruct (f_faults (w_file w)) as [|[|k] fs] eqn:Ef; intros H; one H Ef; fine Ef.
Qed.
Lemma c_writeAll l acc : costs I (writeAll l acc) (length l) (length l).
Proof.
  revert acc. induction l as [|b l IH]; intros acc; cbn [writeAll length]; [apply c_ret|].
  eapply c_weaken; [eapply c_bind; [apply c_write|intros; apply IH]| |]; lia.
Qed.

Ltac step := cbv zeta; first
  [ apply c_ret | apply c_fail; congruence | apply c_panic | apply c_seek | apply c_write | apply c_sync | apply c_close | apply c_writeAll ].
Lemma c_header now : costs I (writeHeader now) 13 13.
Proof.
  unfold writeHeader. eapply (c_weaken _ (1 + (10 + (1 + (1 + 0)))) (1 + (10 + (1 + (1 + 0))))); [|lia|lia].
  eapply c_bind; [apply c_seek|intros]. apply c_get. intros v iv. eapply c_bind; [apply (c_writeAll (headerFields _ _ _ _ _ _))|intros]. cbv zeta.
  eapply c_bind; [apply c_write|intros]. eapply c_bind; [apply c_seek|intros]. apply c_if; [apply c_ret|apply c_fail; congruence].
Qed.

Lemma enc_items f l s : (forall k, encode_items f l s <> Err (ErrBlockFull k)) /\ forall bs n, encode_items f l s = Ok (bs, n) -> length bs = length l.
Proof using Type. clear IF.
  revert s. induction l as [|x l IH]; intros s; cbn [encode_items]; [split; [discriminate|]; intros bs n H; injection H as <- _; reflexivity|].
  cbv zeta. destruct (_ =? 0)%Z; [split; discriminate|]. destruct (IH (u32 (s + u32 (zlen (f x))))) as [A B].
  destruct (encode_items f l (u32 (s + u32 (zlen (f x))))) as [[bs n]|e|]; cbn [rbind];
  (split; [|first [intros cs m H; injection H as <- _; cbn [length]; rewrite (B bs n eq_refl); reflexivity|discriminate]]); try discriminate.
  intros k H. injection H as ->. exact (A k eq_refl).
Qed.
Lemma enc_data e l delta f : (forall m, length (delta m) = length m) ->
  (forall k, encodeData e l delta f <> Err (ErrBlockFull k))
  /\ forall a b n, encodeData e l delta f = Ok (a, b, n) -> length a = length l /\ (usesFixedWidth e = false -> length b = length l).
Proof using Type. clear IF.
  intros D. unfold encodeData. destruct (usesDelta e) as [d|]; [|split; discriminate]. cbv zeta.
  assert (length (if d then delta l else l) = length l) as L by (destruct d; [apply D|reflexivity]).
  destruct (usesFixedWidth e); [split; [discriminate|]; intros a b n H; injection H as <- <- _; split; [exact L|discriminate]|].
  destruct (enc_items f (if d then delta l else l) 0) as [A B].
  destruct (encode_items f _ 0) as [[bs s]|x|]; cbn [rbind]; [|split; [|discriminate]; intros k H; injection H as ->; exact (A k eq_refl)|split; discriminate].
  destruct (_ && _); [split; discriminate|]. split; [discriminate|]. intros a b n H. injection H as <- <- _. split; [exact L|]. intros _. rewrite (B bs s eq_refl). exact L.
Qed.

Lemma len_ztake (z : Z) {A} (l : list A) : length (ztake z l) = Nat.min (Z.to_nat z) (length l).
Proof using Type. clear IF. unfold ztake. apply firstn_length. Qed.
Lemma c_blockHeader a b c d e n : costs I (writeBlockHeader a b c d e n) 10 10.
Proof.
  unfold writeBlockHeader. eapply (c_weaken _ (1 + (8 + (1 + 0))) (1 + (8 + (1 + 0)))); [|lia|lia].
  eapply c_bind; [apply c_seek|intros]. apply c_get. intros v iv. eapply c_bind; [eapply c_weaken; [apply c_writeAll| |]; cbn [length]; lia|intros].
  eapply c_bind; [apply c_seek|intros]. cbv zeta. apply c_if; [apply c_ret|apply c_fail; congruence].
Qed.
Lemma c_section u enc bytes n : length enc = n -> (u = true -> length bytes = n) -> costs I (writeSection u enc bytes) n n.
Proof.
  intros A B. unfold writeSection. destruct u; [eapply c_weaken; [apply c_writeAll| |]; rewrite (B eq_refl); lia|].
  eapply c_weaken; [apply c_writeAll| |]; rewrite map_length; lia.
Qed.
Lemma c_estimate ids values : costs I (EstimateBlockSize ids values) 1 1.
Proof.
  unfold EstimateBlockSize. destruct (negb _); [eapply c_weaken; [apply (c_fail _ 1); congruence| |]; lia|].
  destruct (_ =? 0)%Z; [eapply c_weaken; [apply (c_fail _ 1); congruence| |]; lia|]. apply c_get. intros v iv.
  apply c_lift_bind; [apply enc_data; apply delta_encode_length|]. intros [[? ?] s1] _.
  apply c_lift_bind; [apply enc_data; apply delta_encode_length|]. intros [[? ?] s2] _. cbv zeta.
  eapply (c_weaken _ (1 + 0) (1 + 0)); [|lia|lia]. eapply c_bind; [apply c_seek|intros]. apply c_if; apply c_ret.
Qed.
End Rules.

Lemma ids_wide e : useVarIntForIDs e = true -> usesFixedWidth e = false.
Proof. unfold useVarIntForIDs, usesFixedWidth, EncodingVarInt, EncodingVarIntID, EncodingVarIntBoth, EncodingRaw, EncodingDeltaID, EncodingDeltaValue, EncodingDeltaBoth. lia. Qed.
Lemma values_wide e : useVarIntForValues e = true -> usesFixedWidth e = false.
Proof. unfold useVarIntForValues, usesFixedWidth, EncodingVarInt, EncodingVarIntValue, EncodingVarIntBoth, EncodingRaw, EncodingDeltaID, EncodingDeltaValue, EncodingDeltaBoth. lia. Qed.

Let any : writer -> Prop := fun _ => True.
Lemma any_file : forall w f, any w -> any (set_file w f).
Proof. intros; exact I. Qed.

Lemma c_internal ids values n : length ids = n -> length values = n -> costs any (writeBlockInternal ids values) (20 + 2 * n) (21 + 2 * n).
Proof.
  intros Li Lv. unfold writeBlockInternal.
  eapply (c_weaken any _ (0 + (20 + 2 * n)) (0 + (21 + 2 * n))); [|lia|lia]. eapply c_bind; [apply c_modify; reflexivity|intros _].
  apply c_get. intros v _. cbv zeta.
  apply c_lift_bind; [apply enc_data; apply delta_encode_length|]. intros [[ei bi] si] Ei.
  apply c_lift_bind; [apply enc_data; apply delta_encode_length|]. intros [[ev bv] sv] Ev.
  destruct (proj2 (enc_data _ _ deltaEncode _ (delta_encode_length _)) _ _ _ Ei) as [Lei Lbi].
  destruct (proj2 (enc_data _ _ deltaEncodeInt64 _ (delta_encode_length _)) _ _ _ Ev) as [Lev Lbv].
  destruct (calculateMinMax ids), (calculateMinMax values).
  eapply (c_weaken any _ (1 + (0 + (10 + (1 + (1 + (1 + (1 + (1 + (1 + (1 + (n + (n + (1 + (0 + (0 + 1)))))))))))))))
                         (1 + (0 + (10 + (1 + (1 + (1 + (1 + (1 + (1 + (1 + (n + (n + (1 + (1 + (0 + 1)))))))))))))))); [|lia|lia].
  eapply c_bind; [apply c_seek; exact any_file|intros]. eapply c_bind; [apply c_modify; reflexivity|intros].
  eapply c_bind; [apply c_blockHeader; exact any_file|intros].
  do 2 (eapply c_bind; [apply c_write; exact any_file|intros]). eapply c_bind; [apply c_seek; exact any_file|intros].
  eapply c_bind; [apply c_write; exact any_file|intros]. eapply c_bind; [apply c_seek; exact any_file|intros].
  assert (forall {A} (e : err) l h, (forall k, e <> ErrBlockFull k) -> costs any (mfail e : M A) l h) as FL
    by (intros A e l h N; eapply c_weaken; [apply (c_fail any e l N)| |]; lia).
  apply c_if; [apply FL; congruence|]. apply c_if; [apply FL; congruence|]. apply c_if; [apply FL; congruence|].
  eapply c_bind; [apply c_write; exact any_file|intros]. apply c_if; [apply FL; congruence|].
  eapply c_bind; [apply c_seek; exact any_file|intros].
  eapply c_bind; [apply c_section; [exact any_file|congruence|intros U; rewrite (Lbi (ids_wide _ U)); exact Li]|intros]. apply c_if; [apply FL; congruence|].
  eapply c_bind; [apply c_section; [exact any_file|congruence|intros U; rewrite (Lbv (values_wide _ U)); exact Lv]|intros]. apply c_if; [apply FL; congruence|].
  eapply c_bind; [apply c_seek; exact any_file|intros].
  eapply c_bind; [apply c_if; [eapply c_weaken; [apply c_write; exact any_file| |]; lia|eapply c_weaken; [apply c_ret| |]; lia]|intros].
  apply c_if; [apply FL; congruence|]. eapply c_bind; [apply c_modify; reflexivity|intros]. apply c_sync; exact any_file.
Qed.

Lemma c_find ids values : forall idx i0 opt w r w', map Z.of_nat (seq i0 (length idx)) = idx -> (Z.of_nat i0 - 1 <= opt)%Z ->
  findOptimal ids values idx opt w = (r, w') ->
  (forall e, r <> Err (ErrBlockFull e)) /\ exists k, k <= length idx /\ made k w w'
    /\ forall o, r = Ok o -> (o = opt \/ In o idx) /\ (Z.of_nat k <= o - Z.of_nat i0 + 2)%Z.
Proof.
  induction idx as [|z idx IH]; intros i0 opt w r w' SQ L E; cbn [findOptimal] in E.
  { injection E as <- <-. split; [discriminate|]. exists 0. split; [lia|]. split; [apply made_0|]. intros o H. injection H as <-. split; [tauto|lia]. }
  cbn [length seq map] in SQ. injection SQ as Sz SQ.
  destruct (EstimateBlockSize (ztake z ids) (ztake z values) w) as [q w1] eqn:Ee.
  destruct (c_estimate any any_file (ztake z ids) (ztake z values) w q w1 Logic.I Ee) as (_ & N & k & K & T & O).
  destruct q as [size|e|].
  - destruct (size <=? w_target w1)%Z.
    + destruct (IH (S i0) z w1 r w' SQ ltac:(lia) E) as (N' & k' & K' & T' & O'). split; [exact N'|]. exists (k + k'). cbn [length].
      split; [lia|]. split; [eapply made_trans; eassumption|]. intros o H. destruct (O' o H) as [In' Le]. split; [|lia].
      right. destruct In' as [->|In']; [left; reflexivity|right; exact In'].
    + injection E as <- <-. split; [discriminate|]. exists k. cbn [length]. split; [lia|]. split; [exact T|]. intros o H. injection H as <-. split; [tauto|lia].
  - injection E as <- <-. split; [discriminate|]. exists k. cbn [length]. split; [lia|]. split; [exact T|]. intros o H. injection H as <-. split; [tauto|lia].
  - injection E as <- <-. split; [discriminate|]. exists k. cbn [length]. split; [lia|]. split; [exact T|discriminate].
Qed.

Lemma tl_zseq (l : list Z) : tl (zseq (zlen l)) = map Z.of_nat (seq 1 (length l - 1)).
Proof. unfold zseq, zlen. rewrite Nat2Z.id. destruct (length l) as [|n]; [reflexivity|]. cbn [seq map tl]. rewrite Nat.sub_0_r || (replace (S n - 1) with n by lia). reflexivity. Qed.

Lemma c_WriteBlock ids values w r w' : WriteBlock ids values w = (r, w') ->
  exists k, made k w w' /\
    match r with
    | Ok _ => 21 + 2 * length ids <= k <= 22 + 2 * length ids /\ none_fails k w
    | Err (ErrBlockFull m) => (1 <= m < Z.of_nat (length ids))%Z /\ 21 + 2 * Z.to_nat m <= k <= 23 + 3 * Z.to_nat m
    | _ => k <= 21 + 3 * length ids
    end.
Proof.
  unfold WriteBlock. destruct (zlen ids =? zlen values)%Z eqn:EL; cbn [negb];
    [|intros E; injection E as <- <-; exists 0; split; [apply made_0|lia]].
  destruct (zlen ids =? 0)%Z eqn:E0; [intros E; injection E as <- <-; exists 0; split; [apply made_0|lia]|].
  assert (length values = length ids) as LV by (unfold zlen in EL; lia). assert (1 <= length ids) as LP by (unfold zlen in E0; lia).
  unfold mbind at 1. intros E. destruct (EstimateBlockSize ids values w) as [q w1] eqn:Ee.
  destruct (c_estimate any any_file ids values w q w1 Logic.I Ee) as (_ & N & k1 & K1 & T1 & O1).
  destruct q as [size|e|]; [|injection E as <- <-; exists k1; split; [exact T1|destruct e; try lia; exfalso; eapply N; reflexivity]|injection E as <- <-; exists k1; split; [exact T1|lia]].
  unfold mbind at 1, mget at 1 in E.
  destruct ((size >? w_target w1)%Z && (zlen ids >? 1)%Z) eqn:Eb.
  - apply andb_prop in Eb. destruct Eb as [_ E1]. assert (1 < length ids) as L1 by (unfold zlen in E1; lia).
    unfold mbind at 1 in E. rewrite tl_zseq in E. destruct (findOptimal ids values _ 1 w1) as [p w2] eqn:Ef.
    destruct (c_find ids values _ 1 1 w1 p w2 ltac:(rewrite map_length, seq_length; reflexivity) ltac:(lia) Ef) as (N2 & k2 & K2 & T2 & O2).
    rewrite map_length, seq_length in K2. pose proof (made_trans _ _ _ _ _ T1 T2) as T12.
    destruct p as [o|e|]; [|injection E as <- <-; exists (k1 + k2); split; [exact T12|destruct e; try lia; exfalso; eapply N2; reflexivity]|injection E as <- <-; exists (k1 + k2); split; [exact T12|lia]].
    destruct (O2 o eq_refl) as [Ho Hk]. assert (1 <= o < Z.of_nat (length ids))%Z as Ho'.
    { destruct Ho as [->|Ho]; [lia|]. apply in_map_iff in Ho. destruct Ho as (x & <- & Hx). apply in_seq in Hx. lia. }
    unfold mbind at 1 in E. destruct (writeBlockInternal (ztake o ids) (ztake o values) w2) as [p w3] eqn:Ew.
    destruct (c_internal (ztake o ids) (ztake o values) (Z.to_nat o) ltac:(rewrite len_ztake; lia) ltac:(rewrite len_ztake; lia) w2 p w3 Logic.I Ew) as (_ & N3 & k3 & K3 & T3 & O3).
    pose proof (made_trans _ _ _ _ _ T12 T3) as T.
    destruct p as [u|e|]; cbn [mfail] in E; injection E as <- <-; exists (k1 + k2 + k3); (split; [exact T|]).
    + destruct (O3 u eq_refl). split; [exact Ho'|]. destruct (O1 size eq_refl). lia.
    + destruct e; try lia. exfalso. eapply N3. reflexivity.
    + lia.
  - destruct (c_internal ids values (length ids) eq_refl LV w1 r w' Logic.I E) as (_ & N3 & k3 & K3 & T3 & O3).
    exists (k1 + k3). split; [eapply made_trans; eassumption|]. destruct (O1 size eq_refl) as [B1 F1]. destruct r as [u|e|].
    + destruct (O3 u eq_refl) as [B3 F3]. split; [lia|]. eapply fails_trans; eassumption.
    + destruct e; try lia. exfalso. eapply N3. reflexivity.
    + lia.
Qed.

Definition holds (b : Z) (w : writer) : Prop := w_blockCount w = b.
Lemma holds_file b : forall w f, holds b w -> holds b (set_file w f).
Proof. intros w f H. exact H. Qed.
Lemma c_footer b o s st : costs (holds b) (writeBlockFooter o s st) 10 10.
Proof.
  unfold writeBlockFooter. eapply (c_weaken _ _ (1 + (8 + (1 + 0))) (1 + (8 + (1 + 0)))); [|lia|lia].
  eapply c_bind; [apply c_seek; apply holds_file|intros]. eapply c_bind; [apply (c_writeAll _ (holds_file b) [_; _; _; _; _; _; _; _])|intros].
  eapply c_bind; [apply c_seek; apply holds_file|intros]. apply c_if; [apply c_ret|apply c_fail; congruence].
Qed.
Lemma c_entries b : forall idx, costs (holds b) (writeFooterEntries idx) (10 * length idx) (10 * length idx).
Proof.
  induction idx as [|i idx IH]; cbn [writeFooterEntries]; [apply c_ret|]. apply c_get. intros v _.
  assert (forall l, costs (holds b) (mpanic : M unit) l (10 * length (i :: idx))) as P by (intros l; eapply c_weaken; [apply (c_panic _ l)| |]; lia).
  destruct (nth_error (w_positions v) _); [|apply P]. destruct (nth_error (w_sizes v) _); [|apply P]. destruct (nth_error (w_stats v) _); [|apply P].
  eapply (c_weaken _ _ (10 + 10 * length idx) (10 + 10 * length idx)); [|cbn [length]; lia|cbn [length]; lia].
  eapply c_bind; [apply c_footer|intros; exact IH].
Qed.
Lemma c_Finalize now b : costs (holds b) (Finalize now) (25 + 10 * Z.to_nat b) (26 + 10 * Z.to_nat b).
Proof.
  unfold Finalize, writeGlobalIDBitmap.
  assert (forall {A} (e : err) l h, (forall k, e <> ErrBlockFull k) -> costs (holds b) (mfail e : M A) l h) as FL
    by (intros A e l h N; eapply c_weaken; [apply (c_fail (holds b) e l N)| |]; lia).
  set (n := Z.to_nat b).
  eapply (c_weaken _ _ (4 + (1 + (10 + (1 + (1 + (0 + (1 + (1 + (10 * n + (1 + (1 + (1 + (1 + (1 + 1))))))))))))))
                       (4 + (1 + (10 + (1 + (1 + (1 + (1 + (1 + (10 * n + (1 + (1 + (1 + (1 + (1 + 1))))))))))))))); [|lia|lia].
  eapply c_bind.
  { eapply (c_weaken _ _ (1 + (1 + (1 + (1 + 0)))) (1 + (1 + (1 + (1 + 0))))); [|lia|lia].
    eapply c_bind; [apply c_seek; apply holds_file|intros]. apply c_get. intros v _. cbv zeta.
    do 2 (eapply c_bind; [apply c_write; apply holds_file|intros]). eapply c_bind; [apply c_seek; apply holds_file|intros]. apply c_ret. }
  intros [off size]. eapply c_bind; [apply c_seek; apply holds_file|intros]. apply c_get. intros v Hv.
  eapply c_bind; [apply (c_writeAll _ (holds_file b) (headerFields _ _ _ _ _ _))|intros].
  eapply c_bind; [apply c_seek; apply holds_file|intros]. eapply c_bind; [apply c_seek; apply holds_file|intros]. cbv zeta.
  eapply c_bind; [apply c_if; [eapply c_weaken; [apply c_write; apply holds_file| |]; lia|eapply c_weaken; [apply c_ret| |]; lia]|intros].
  eapply c_bind; [apply c_seek; apply holds_file|intros]. eapply c_bind; [apply c_write; apply holds_file|intros].
  eapply c_bind.
  { destruct (w_blockCount v >? 0)%Z eqn:Eg.
    - apply c_if; [apply FL; congruence|]. eapply c_weaken; [apply c_entries| |]; unfold zseq; rewrite map_length, seq_length; unfold holds in Hv; rewrite Hv; subst n; lia.
    - unfold holds in Hv. eapply c_weaken; [apply c_ret| |]; lia. }
  intros. eapply c_bind; [apply c_seek; apply holds_file|intros].
  do 3 (eapply c_bind; [apply c_write; apply holds_file|intros]). eapply c_bind; [apply c_seek; apply holds_file|intros].
  apply c_if; [apply FL; congruence|]. apply c_if; [apply FL; congruence|]. apply c_sync. apply holds_file.
Qed.

(** NewWriter. *)
Lemma c_NewWriter now options faults : 
  match NewWriter now options faults with
  | (Ok w, _) => f_faults (w_file w) = skipn 13 faults /\ Forall (eq NoFault) (firstn 13 faults)
  | (_, f) => exists k, k <= 14 /\ f_faults f = skipn k faults
  end.
Proof.
  unfold NewWriter. cbv zeta.
  set (w := fold_left applyOption options _).
  assert (f_faults (w_file w) = faults) as F.
  { unfold w. change faults with (f_faults (w_file (mkWriter (mkFile [] 0 true faults) 0 EncodingRaw defaultBlockSize [] [] [] bm_new))) at 2.
    generalize (mkWriter (mkFile [] 0 true faults) 0 EncodingRaw defaultBlockSize [] [] [] bm_new). clear w.
    induction options as [|o l IH]; intros w; [reflexivity|]. cbn [fold_left]. rewrite IH. destruct o; reflexivity. }
  destruct (writeHeader now w) as [r w'] eqn:E. destruct (c_header any any_file now w r w' Logic.I E) as (_ & _ & k & K & T & O).
  unfold made in T. unfold none_fails in O. rewrite F in T, O. destruct r as [u|e|].
  - destruct (O u eq_refl) as [L N]. replace k with 13 in * by lia. split; assumption.
  - assert (forall g, exists j, j <= 1 /\ f_faults (snd (file_close g)) = skipn j (f_faults g)) as C.
    { intros g. unfold file_close. destruct (f_open g); [|exists 0; split; [lia|reflexivity]]. exists 1. split; [lia|].
      destruct (f_faults g) as [|[|x] fs] eqn:Ef; cbv zeta; cbn [snd f_faults]; rewrite ?Ef; reflexivity. }
    destruct (C (w_file w')) as (j & J & Ej). exists (k + j). split; [lia|]. rewrite Ej, T. apply skipn_plus.
  - exists k. split; [lia|exact T].
Qed.

(** The number of blocks. *)
Definition upto {A} (d : Z) (m : M A) : Prop := forall w, (w_blockCount (snd (m w)) <= w_blockCount w + d)%Z.
Lemma u_bind {A B} (m : M A) (k : A -> M B) d e : upto d m -> (forall a, upto e (k a)) -> (0 <= e)%Z -> upto (d + e) (mbind m k).
Proof.
  intros U V P w. unfold mbind. specialize (U w). destruct (m w) as [[a|x|] w1]; cbn [snd] in *; [specialize (V a w1); lia|lia|lia].
Qed.
Lemma u_from {A} (m : M A) : (forall b, exists l h, costs (holds b) m l h) -> upto 0 m.
Proof.
  intros C w. destruct (C (w_blockCount w)) as (l & h & D). destruct (m w) as [r w'] eqn:E. destruct (D w r w' eq_refl E) as [H _].
  unfold holds in H. cbn [snd]. lia.
Qed.
Lemma u_mono {A} (m : M A) d e : upto d m -> (d <= e)%Z -> upto e m.
Proof. intros U L w. specialize (U w). lia. Qed.
Lemma u_internal ids values : upto 1 (writeBlockInternal ids values).
Proof.
  unfold writeBlockInternal. replace 1%Z with (0 + 1)%Z by lia.
  assert (forall B (m : M B), (forall b, exists l h, costs (holds b) m l h) -> upto 0 m) as U0 by (intros; apply u_from; assumption).
  assert (forall A (e : err), upto 1 (mfail e : M A)) as UF by (intros A e w; cbn; lia).
  assert (forall A B (m : M A) (k : A -> M B), upto 0 m -> (forall a, upto 1 (k a)) -> upto 1 (mbind m k)) as UB
    by (intros A B m k U V; replace 1%Z with (0 + 1)%Z by lia; apply u_bind; [exact U|exact V|lia]).
  assert (forall A (op : file -> res A * file), upto 0 (mfile op)) as UO by (intros A op w; unfold mfile; destruct (op (w_file w)); cbn [snd w_blockCount set_file]; lia).
  assert (forall A (b : bool) (m n : M A) d, upto d m -> upto d n -> upto d (if b then m else n)) as UI by (intros A [] m n d; auto).
  assert (forall A (q : res A), upto 0 (mlift q)) as UL by (intros A q w; cbn; lia).
  assert (forall A (a : A), upto 0 (mret a)) as UR by (intros A a w; cbn; lia).
  assert (forall f, (forall w, w_blockCount (f w) = w_blockCount w) -> upto 0 (mmodify f)) as UM by (intros f Hf w; cbn [mmodify snd]; rewrite Hf; lia).
  cbn [Z.add].
  apply UB; [apply UM; reflexivity|intros _]. apply UB; [intros w; cbn; lia|intros v]. cbv zeta.
  apply UB; [apply UL|]. intros [[ei bi] si]. apply UB; [apply UL|]. intros [[ev bv] sv].
  destruct (calculateMinMax ids), (calculateMinMax values).
  apply UB; [apply UO|intros]. apply UB; [apply UM; reflexivity|intros].
  apply UB; [apply U0; intros b; do 2 eexists; apply c_blockHeader; apply holds_file|intros].
  do 5 (apply UB; [apply UO|intros]).
  do 3 (apply UI; [apply UF|]). apply UB; [apply UO|intros]. apply UI; [apply UF|]. apply UB; [apply UO|intros].
  assert (forall u l b, upto 0 (writeSection u l b)) as US.
  { intros u l b. apply U0. intros c. unfold writeSection. destruct u; do 2 eexists; apply c_writeAll; apply holds_file. }
  do 2 (apply UB; [apply US|intros]; apply UI; [apply UF|]). apply UB; [apply UO|intros]. apply UB; [apply UI; [apply UO|apply UR]|intros].
  apply UI; [apply UF|]. intros w. unfold mbind, mmodify, sync, mfile. destruct (file_sync _) as [r f]. cbn [snd w_blockCount set_file push_block]. lia.
Qed.
Lemma u_find ids values : forall idx o, upto 0 (findOptimal ids values idx o).
Proof.
  induction idx as [|i idx IH]; intros o w; cbn [findOptimal]; [cbn; lia|].
  pose proof (u_from (EstimateBlockSize (ztake i ids) (ztake i values)) (fun b => ex_intro _ 1 (ex_intro _ 1 (c_estimate (holds b) (holds_file b) _ _))) w) as U.
  destruct (EstimateBlockSize (ztake i ids) (ztake i values) w) as [[s|e|] w']; cbn [snd] in *; [|lia|lia].
  destruct (s <=? w_target w')%Z; cbn [snd]; [|lia]. specialize (IH i w'). lia.
Qed.
Lemma u_WriteBlock ids values : upto 1 (WriteBlock ids values).
Proof.
  unfold WriteBlock. destruct (negb _); [intros w; cbn; lia|]. destruct (_ =? 0)%Z; [intros w; cbn; lia|].
  apply (u_bind _ _ 0 1); [apply u_from; intros b; do 2 eexists; apply c_estimate; apply holds_file|intros s|lia].
  apply (u_bind _ _ 0 1); [intros w; cbn; lia|intros v|lia]. destruct (_ && _); [|apply u_internal].
  apply (u_bind _ _ 0 1); [apply u_find|intros o|lia]. apply (u_bind _ _ 1 0); [apply u_internal|intros u w; cbn; lia|lia].
Qed.
Lemma c_close_after now b : costs (holds b) (FinalizeAndClose now) (26 + 10 * Z.to_nat b) (27 + 10 * Z.to_nat b).
Proof. unfold FinalizeAndClose. eapply c_weaken; [eapply c_bind; [apply c_Finalize|intros; apply c_close; apply holds_file]| |]; lia. Qed.

Lemma new_count now options faults : match NewWriter now options faults with (Ok w, _) => w_blockCount w = 0%Z | _ => True end.
Proof.
  unfold NewWriter. cbv zeta. set (w := fold_left applyOption options _).
  assert (w_blockCount w = 0%Z) as F.
  { unfold w. transitivity (w_blockCount (mkWriter (mkFile [] 0 true faults) 0 EncodingRaw defaultBlockSize [] [] [] bm_new)); [|reflexivity].
    generalize (mkWriter (mkFile [] 0 true faults) 0 EncodingRaw defaultBlockSize [] [] [] bm_new). clear w.
    induction options as [|o l IH]; intros w; [reflexivity|]. cbn [fold_left]. rewrite IH. destruct o; reflexivity. }
  clearbody w. destruct (writeHeader now w) as [r w'] eqn:E. destruct (c_header _ (holds_file 0) now w r w' F E) as (H & _). destruct r; exact H || exact I.
Qed.

(** One call. *)
Lemma c_ret0 b {A} (m : M A) l h : costs (holds b) m l h -> costs (holds b) (mbind m (fun _ => mret 0%Z)) l h.
Proof. intros C. eapply c_weaken; [eapply c_bind; [exact C|intros; apply c_ret]| |]; lia. Qed.
Lemma each_call c w r w' : run_call c w = (r, w') ->
  exists k, k <= most_calls (Z.to_nat (w_blockCount w)) c r /\ made k w w'.
Proof.
  destruct c as [ids values|ids values|now|now|]; cbn [run_call most_calls]; intros E.
  - unfold mbind in E. destruct (WriteBlock ids values w) as [q w1] eqn:Ew. destruct (c_WriteBlock ids values w q w1 Ew) as (k & T & B).
    destruct q as [u|e|]; [injection E as <- <-; exists k; split; [lia|exact T]| |injection E as <- <-; exists k; split; [lia|exact T]].
    injection E as <- <-. exists k. split; [|exact T]. destruct e; lia.
  - destruct (c_estimate any any_file ids values w r w' Logic.I E) as (_ & _ & k & K & T & _). exists k. split; assumption.
  - destruct (c_ret0 _ _ _ _ (c_Finalize now (w_blockCount w)) w r w' eq_refl E) as (_ & _ & k & K & T & _). exists k. split; assumption.
  - destruct (c_ret0 _ _ _ _ (c_close_after now (w_blockCount w)) w r w' eq_refl E) as (_ & _ & k & K & T & _). exists k. split; assumption.
  - destruct (c_ret0 _ _ _ _ (c_close (holds (w_blockCount w)) (holds_file _)) w r w' eq_refl E) as (_ & _ & k & K & T & _). exists k. split; assumption.
Qed.
Lemma count_call c w : (w_blockCount (snd (run_call c w)) <= w_blockCount w + match c with CWriteBlock _ _ => 1 | _ => 0 end)%Z.
Proof.
  destruct c as [ids values|ids values|now|now|]; cbn [run_call].
  - apply (u_bind _ _ 1 0); [apply u_WriteBlock|intros u v; cbn; lia|lia].
  - apply u_from. intros b. do 2 eexists. apply c_estimate, holds_file.
  - apply u_from. intros b. do 2 eexists. apply c_ret0, c_Finalize.
  - apply u_from. intros b. do 2 eexists. apply c_ret0, c_close_after.
  - apply u_from. intros b. do 2 eexists. apply c_ret0, c_close, holds_file.
Qed.

Lemma most_mono b b' c r : b <= b' -> most_calls b c r <= most_calls b' c r.
Proof. intros L. destruct c; cbn [most_calls]; lia. Qed.
Lemma session cs : forall B w outs w', run_calls cs w = (outs, w') -> Z.to_nat (w_blockCount w) + total (map writes cs) <= B ->
  exists k, k <= total (map (fun '(c, r) => most_calls B c r) (combine cs outs)) /\ made k w w'.
Proof.
  induction cs as [|c cs IH]; intros B w outs w' E L; cbn [run_calls] in E; [injection E as <- <-; exists 0; split; [cbn; lia|apply made_0]|].
  destruct (run_call c w) as [r w1] eqn:Ec. destruct (run_calls cs w1) as [rs w2] eqn:Er. injection E as <- <-. cbn [map total fold_right] in L. fold (total (map writes cs)) in L.
  destruct (each_call c w r w1 Ec) as (k & K & T).
  pose proof (count_call c w) as U. rewrite Ec in U. cbn [snd] in U.
  destruct (IH B w1 rs w2 Er ltac:(destruct c; cbn [writes] in L; lia)) as (j & J & T').
  exists (k + j). split; [|eapply made_trans; eassumption]. cbn [combine map total fold_right]. fold (total (map (fun '(c, r) => most_calls B c r) (combine cs rs))).
  pose proof (most_mono (Z.to_nat (w_blockCount w)) B c r ltac:(lia)). lia.
Qed.
Lemma linear cs : forall B outs, length outs = length cs ->
  total (map (fun '(c, r) => most_calls B c r) (combine cs outs)) <= 27 * length cs + 3 * total (map (fun '(c, r) => items_of c r) (combine cs outs)) + 10 * B * total (map finalizes cs).
Proof.
  induction cs as [|c cs IH]; intros B [|r outs] L; try discriminate; [cbn; lia|]. injection L as L. specialize (IH B outs L).
  cbn [combine map total fold_right length]. fold (total (map (fun '(c, r) => most_calls B c r) (combine cs outs))).
  fold (total (map (fun '(c, r) => items_of c r) (combine cs outs))). fold (total (map finalizes cs)).
  assert (most_calls B c r <= 27 + 3 * items_of c r + 10 * B * finalizes c) as H.
  { destruct c as [ids values|ids values|now|now|]; cbn [most_calls items_of finalizes]; try lia. destruct r as [u|e|]; try lia. destruct e; lia. }
  nia.
Qed.

(** SimpleWriter. *)
Lemma flush_cost force : forall fuel sw r sw', flushIfNeeded fuel force sw = (r, sw') ->
  let p := length (sw_pendingIDs sw) in let p' := length (sw_pendingIDs sw') in
  exists k, made k (sw_writer sw) (sw_writer sw') /\ p' <= p
    /\ k <= 26 * (p - p') + (if went_well r then 0 else 21 + 3 * p')
    /\ (w_blockCount (sw_writer sw') <= w_blockCount (sw_writer sw) + Z.of_nat (p - p' + (if went_well r then 0 else 1)))%Z
    /\ sw_closed sw' = sw_closed sw /\ (r = Ok tt -> force = true -> p' = 0).
Proof.
  induction fuel as [|fuel IH]; intros sw r sw' E; cbv zeta; cbn [flushIfNeeded] in E.
  { injection E as <- <-. exists 0. split; [apply made_0|]. cbn [went_well]. split; [lia|]. split; [lia|]. split; [lia|]. split; [reflexivity|discriminate]. }
  destruct (zlen (sw_pendingIDs sw) =? 0)%Z eqn:E0.
  { injection E as <- <-. exists 0. split; [apply made_0|]. cbn [went_well]. split; [lia|]. split; [lia|]. split; [lia|]. split; [reflexivity|]. intros _ _. unfold zlen in E0. lia. }
  assert (1 <= length (sw_pendingIDs sw)) as LP by (unfold zlen in E0; lia). cbv zeta in E.
  destruct (if force then true else zlen (sw_pendingIDs sw) >=? 1000)%Z eqn:Es.
  2:{ injection E as <- <-. exists 0. split; [apply made_0|]. cbn [went_well]. split; [lia|]. split; [lia|]. split; [lia|]. split; [reflexivity|]. intros _ ->. discriminate Es. }
  destruct (WriteBlock (sw_pendingIDs sw) (sw_pendingValues sw) (sw_writer sw)) as [q w1] eqn:Ew.
  destruct (c_WriteBlock _ _ _ _ _ Ew) as (k & T & B). pose proof (u_WriteBlock (sw_pendingIDs sw) (sw_pendingValues sw) (sw_writer sw)) as U. rewrite Ew in U. cbn [snd] in U.
  assert (forall (e : res unit), went_well e = false -> k <= 21 + 3 * length (sw_pendingIDs sw) ->
    (r, sw') = (e, mkSW w1 (sw_pendingIDs sw) (sw_pendingValues sw) (sw_targetBlockSize sw) (sw_closed sw) (sw_totalItems sw)) ->
    exists k0, made k0 (sw_writer sw) (sw_writer sw') /\ length (sw_pendingIDs sw') <= length (sw_pendingIDs sw)
    /\ k0 <= 26 * (length (sw_pendingIDs sw) - length (sw_pendingIDs sw')) + (if went_well r then 0 else 21 + 3 * length (sw_pendingIDs sw'))
    /\ (w_blockCount (sw_writer sw') <= w_blockCount (sw_writer sw) + Z.of_nat (length (sw_pendingIDs sw) - length (sw_pendingIDs sw') + (if went_well r then 0 else 1)))%Z
    /\ sw_closed sw' = sw_closed sw /\ (r = Ok tt -> force = true -> length (sw_pendingIDs sw') = 0)) as FAIL.
  { intros e He Hk H. injection H as -> ->. rewrite He. cbn [sw_writer sw_pendingIDs sw_closed]. exists k. split; [exact T|]. split; [lia|]. split; [lia|]. split; [lia|].
    split; [reflexivity|]. intros ->. discriminate He. }
  destruct q as [u|e|].
  - injection E as <- <-. cbn [sw_writer sw_pendingIDs sw_closed length went_well]. exists k. split; [exact T|]. split; [lia|]. split; [lia|]. split; [lia|]. split; [reflexivity|]. reflexivity.
  - destruct e as [| | | | | | | | |m| | | | | | |]; try solve [eapply (FAIL (Err _)); [reflexivity|exact B|symmetry; exact E]].
    destruct B as [Hm Hk].
    set (sw1 := mkSW w1 _ _ _ _ _) in E. destruct (IH sw1 r sw' E) as (k2 & T2 & P2 & K2 & B2 & C2 & F2).
    assert (length (sw_pendingIDs sw1) = length (sw_pendingIDs sw) - Z.to_nat m) as L1 by (unfold sw1; cbn [sw_pendingIDs]; unfold zdrop; rewrite skipn_length; reflexivity).
    rewrite L1 in *. change (sw_writer sw1) with w1 in *. change (sw_closed sw1) with (sw_closed sw) in C2.
    exists (k + k2). split; [eapply made_trans; eassumption|]. split; [lia|].
    destruct (went_well r); (split; [lia|]; split; [lia|]; split; [exact C2|exact F2]).
  - apply (FAIL Panic); [reflexivity|exact B|symmetry; exact E].
Qed.

Lemma swrite_cost srt ids values sw r sw' : (forall l, length (srt l) = length l) -> SWrite srt ids values sw = (r, sw') ->
  exists k, made k (sw_writer sw) (sw_writer sw') /\ waiting sw' <= waiting sw + length ids
    /\ k <= 26 * (waiting sw + length ids - waiting sw') + (if went_well r then 0 else 21 + 3 * waiting sw')
    /\ (w_blockCount (sw_writer sw') <= w_blockCount (sw_writer sw) + Z.of_nat (waiting sw + length ids - waiting sw' + (if went_well r then 0 else 1)))%Z
    /\ sw_closed sw' = sw_closed sw.
Proof.
  intros LS. unfold SWrite, waiting. destruct (sw_closed sw) eqn:Ec;
    [intros E; injection E as <- <-; exists 0; split; [apply made_0|]; cbn [went_well]; split; [lia|]; split; [lia|]; split; [lia|exact Ec]|].
  destruct (zlen ids =? zlen values)%Z eqn:EL; cbn [negb];
    [|intros E; injection E as <- <-; exists 0; split; [apply made_0|]; cbn [went_well]; split; [lia|]; split; [lia|]; split; [lia|exact Ec]].
  assert (length values = length ids) as LV by (unfold zlen in EL; lia).
  destruct (zlen ids =? 0)%Z eqn:E0;
    [intros E; injection E as <- <-; exists 0; split; [apply made_0|]; cbn [went_well]; split; [lia|]; split; [lia|]; split; [lia|exact Ec]|].
  assert (length (fst (if negb (isSorted ids) then sortByID srt ids values else (ids, values))) = length ids) as LN.
  { destruct (negb (isSorted ids)); [|reflexivity]. unfold sortByID. rewrite split_length_l, LS, combine_length. lia. }
  destruct (if negb (isSorted ids) then sortByID srt ids values else (ids, values)) as [ni nv]. cbn [fst] in LN.
  unfold flush. intros E. destruct (flush_cost false _ _ _ _ E) as (k & T & P & K & B & C & _). cbn [sw_pendingIDs sw_writer sw_closed] in *.
  rewrite app_length, LN in *. exists k. split; [exact T|]. split; [exact P|]. split; [exact K|]. split; [exact B|congruence].
Qed.
Lemma sclose_cost now sw r sw' : SClose now sw = (r, sw') ->
  exists k, made k (sw_writer sw) (sw_writer sw') /\ waiting sw' <= waiting sw
    /\ (sw_closed sw = true -> k = 0 /\ sw' = sw)
    /\ k <= 26 * (waiting sw - waiting sw') + 21 + 3 * waiting sw' + 6 + 10 * (Z.to_nat (w_blockCount (sw_writer sw)) + (waiting sw - waiting sw'))
    /\ (r = Ok tt -> sw_closed sw = false -> waiting sw' = 0 /\ sw_closed sw' = true).
Proof.
  unfold SClose, waiting. destruct (sw_closed sw) eqn:Ec.
  { intros E. injection E as <- <-. exists 0. split; [apply made_0|]. split; [lia|]. split; [tauto|]. split; [lia|discriminate]. }
  unfold flush. destruct (flushIfNeeded _ true sw) as [q sw1] eqn:Ef. destruct (flush_cost true _ _ _ _ Ef) as (k & T & P & K & B & C & F).
  destruct q as [u|e|].
  - destruct (FinalizeAndClose now (sw_writer sw1)) as [p w'] eqn:Ez.
    destruct (c_close_after now (w_blockCount (sw_writer sw1)) _ p w' eq_refl Ez) as (Hb & _ & k2 & K2 & T2 & _).
    intros E. cbn [went_well] in *. exists (k + k2). destruct u. rewrite (F eq_refl eq_refl) in *.
    destruct p as [u|e|]; injection E as <- <-; cbn [sw_writer sw_pendingIDs sw_closed]; rewrite (F eq_refl eq_refl);
    (split; [eapply made_trans; eassumption|]; split; [lia|]; split; [discriminate|]; split; [lia|]); [tauto|discriminate|discriminate].
  - intros E. injection E as <- <-. cbn [went_well] in *. exists k. split; [exact T|]. split; [lia|]. split; [discriminate|]. split; [lia|discriminate].
  - intros E. injection E as <- <-. cbn [went_well] in *. exists k. split; [exact T|]. split; [lia|]. split; [discriminate|]. split; [lia|discriminate].
Qed.
Lemma closed_session srt cs : forall sw outs sw', run_scalls srt cs sw = (outs, sw') -> sw_closed sw = true ->
  made 0 (sw_writer sw) (sw_writer sw').
Proof.
  induction cs as [|c cs IH]; intros sw outs sw' E C; cbn [run_scalls] in E; [injection E as _ <-; apply made_0|].
  destruct (run_scall srt c sw) as [r sw1] eqn:Ec. destruct (run_scalls srt cs sw1) as [rs sw2] eqn:Er. injection E as _ <-.
  assert (sw1 = sw) as ->; [|eapply IH; eassumption].
  destruct c; cbn [run_scall] in Ec; unfold SWrite, SetTargetBlockSize, SClose in Ec; rewrite C in Ec; congruence.
Qed.
Lemma simple_session srt : (forall l, length (srt l) = length l) -> forall cs sw outs sw',
  run_scalls srt cs sw = (outs, sw') -> Forall (fun r => r = Ok tt) outs ->
  let n := waiting sw + total (map given cs) in
  exists k, made k (sw_writer sw) (sw_writer sw') /\ k <= 36 * n + 27 + 10 * Z.to_nat (w_blockCount (sw_writer sw)).
Proof.
  intros LS. induction cs as [|c cs IH]; intros sw outs sw' E G n; subst n; cbn [run_scalls] in E; [injection E as <- <-; exists 0; split; [apply made_0|lia]|].
  destruct (run_scall srt c sw) as [r sw1] eqn:Ec. destruct (run_scalls srt cs sw1) as [rs sw2] eqn:Er. injection E as <- <-. inversion G as [|? ? Gr Gs]; subst r. 
  cbn [map total fold_right]. fold (total (map given cs)). pose proof (IH _ _ _ Er Gs) as HI. cbv zeta in HI.
  destruct c as [ids values|size|now]; cbn [run_scall given] in *.
  - destruct (swrite_cost _ _ _ _ _ _ LS Ec) as (k & T & P & K & B & C). cbn [went_well] in *. destruct HI as (k2 & T2 & K2).
    exists (k + k2). split; [eapply made_trans; eassumption|]. lia.
  - unfold SetTargetBlockSize in Ec. destruct (sw_closed sw); [discriminate|]. injection Ec as <-. exact HI.
  - destruct (sclose_cost _ _ _ _ Ec) as (k & T & P & Z0 & K & F). destruct (sw_closed sw) eqn:Ecl.
    + destruct (Z0 eq_refl) as [-> ->]. exact HI.
    + destruct (F eq_refl eq_refl) as [W C]. pose proof (closed_session _ _ _ _ _ Er C) as T2. exists (k + 0). split; [eapply made_trans; eassumption|]. lia.
Qed.
End Facts.
