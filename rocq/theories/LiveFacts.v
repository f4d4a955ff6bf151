(** Opening a file while it is being written. *)
From Verif Require Import Machine MachineFacts Encoding EncodingFacts Sroar FileIO FileFacts Writer Spec WriterFacts BlockFacts FinalFacts RunFacts
  Reader ArbFacts SimpleWriter SimpleSpec SimpleFacts StopSpec StopFacts StopCalls StopBytes StopSimple Live LiveSpec.
From Coq Require Import Lia ZifyBool.
Local Open Scope Z_scope.
Ltac Zify.zify_post_hook ::= Z.div_mod_to_equations.

Lemma nth_zdrop (l : list Z) i p : 0 <= i -> nth_error (zdrop i l) p = nth_error l (Z.to_nat i + p).
Proof.
  intros _. unfold zdrop. revert l. induction (Z.to_nat i) as [|m IH]; intros l; [reflexivity|]. destruct l as [|x l]; [destruct p; reflexivity|]. cbn. apply IH.
Qed.
Lemma nth_ztake (l : list Z) i p : (p < Z.to_nat i)%nat -> nth_error (ztake i l) p = nth_error l p.
Proof.
  unfold ztake. revert l p. induction (Z.to_nat i) as [|m IH]; intros l p H; [lia|]. destruct l as [|x l]; [reflexivity|]. destruct p as [|p]; [reflexivity|]. cbn [firstn nth_error]. apply IH. lia.
Qed.
Lemma nth_slice (l : list Z) off n p : 0 <= off -> (p < Z.to_nat n)%nat -> nth_error (slice l off n) p = nth_error l (Z.to_nat off + p).
Proof. intros H1 H2. unfold slice. rewrite nth_ztake by exact H2. apply nth_zdrop. exact H1. Qed.
Lemma list_ext (a b : list Z) : (forall p, nth_error a p = nth_error b p) -> a = b.
Proof.
  revert b. induction a as [|x a IH]; intros b H; destruct b as [|y b]; [reflexivity|specialize (H 0%nat); discriminate H|specialize (H 0%nat); discriminate H|].
  pose proof (H 0%nat) as H0. injection H0 as ->. f_equal. apply IH. intros p. apply (H (S p)).
Qed.
Lemma slice_ext (a b : list Z) off n : 0 <= off -> 0 <= n -> (forall p, (p < Z.to_nat n)%nat -> nth_error a (Z.to_nat off + p) = nth_error b (Z.to_nat off + p)) -> slice a off n = slice b off n.
Proof.
  intros Ho Hn H. apply list_ext. intros p. destruct (Nat.ltb_spec p (Z.to_nat n)) as [G|G].
  - rewrite !nth_slice by assumption. apply H. exact G.
  - unfold slice, ztake. rewrite !(proj2 (nth_error_None _ _)); [reflexivity| |]; rewrite firstn_length; lia.
Qed.
Lemma tail_nth s F p : tail_prefix s F -> (60 <= p < length s)%nat -> nth_error F p = nth_error s p.
Proof.
  intros [_ [x H]] Hp. pose proof (nth_zdrop F 60 (p - 60) ltac:(lia)) as E1. pose proof (nth_zdrop s 60 (p - 60) ltac:(lia)) as E2.
  replace (Z.to_nat 60 + (p - 60))%nat with p in E1, E2 by lia. rewrite <- E1, <- E2, H. apply nth_error_app1.
  unfold zdrop. rewrite skipn_length. lia.
Qed.

Section Core.
Variable moments : nat -> Z -> list Z -> Prop.
Variable F : list Z.
Hypothesis HF : zlen F < two63.
Hypothesis Hpart : forall n k s, moments n k s -> Forall is_byte s /\ part s F /\ prefix (zeros 4) (zdrop 60 s).
Hypothesis Hlater : forall n k s n' k' s', moments n k s -> moments n' k' s' -> earlier n k n' k' -> tail_prefix s s'.

Lemma seen_bytes n k d : seen moments n k d -> Forall is_byte d.
Proof using Hpart.
  intros [_ H]. apply Forall_forall. intros b Hb. apply In_nth_error in Hb. destruct Hb as [p Hp]. destruct (H p b Hp) as (n' & k' & s & _ & M & E).
  destruct (Hpart _ _ _ M) as [B _]. rewrite Forall_forall in B. apply B. eapply nth_error_In. exact E.
Qed.
Lemma seen_long n k s d : moments n k s -> seen moments n k d -> zlen s <= zlen d.
Proof using Hlater. intros M [(n' & k' & s' & E & M' & <-) _]. destruct (Hlater _ _ _ _ _ _ M M' E) as [L _]. exact L. Qed.
Lemma long64 n k s : moments n k s -> 64 <= zlen s.
Proof using Hpart.
  intros M. destruct (Hpart _ _ _ M) as (_ & _ & [y H]). clear - H. apply (f_equal zlen) in H. rewrite zlen_zdrop, zlen_app, zlen_zeros in H. pose proof (zlen_nonneg y). lia.
Qed.
(** Once the file has its full length it is complete. *)
Lemma seen_full n k s d : moments n k s -> zlen s = zlen F -> seen moments n k d -> d = F.
Proof using Hpart Hlater.
  intros M L [(n0 & k0 & s0 & E0 & M0 & L0) H].
  assert (A : forall n' k' s', earlier n k n' k' -> moments n' k' s' -> s' = F).
  { intros n' k' s' E M'. destruct (Hlater _ _ _ _ _ _ M M' E) as [L' _]. destruct (Hpart _ _ _ M') as (_ & [[L'' _] P] & _). apply P. lia. }
  rewrite (A _ _ _ E0 M0) in L0. apply list_ext. intros p. destruct (nth_error d p) as [b|] eqn:Eb.
  - destruct (H p b Eb) as (n' & k' & s' & E' & M' & <-). rewrite (A _ _ _ E' M'). reflexivity.
  - symmetry. apply nth_error_None. apply nth_error_None in Eb. unfold zlen in L0. lia.
Qed.
(** Behind the header only what is complete is seen. *)
Lemma seen_tail n k s d p : moments n k s -> seen moments n k d -> (60 <= p < length s)%nat -> nth_error d p = nth_error F p.
Proof using Hpart Hlater.
  intros M S Hp. pose proof (seen_long _ _ _ _ M S) as L. destruct (nth_error d p) as [b|] eqn:Eb.
  - destruct S as [_ H]. destruct (H p b Eb) as (n' & k' & s' & E' & M' & <-). destruct (Hlater _ _ _ _ _ _ M M' E') as [L' _].
    destruct (Hpart _ _ _ M') as (_ & [T _] & _). symmetry. apply tail_nth; [exact T|]. unfold zlen in L'. lia.
  - apply nth_error_None in Eb. unfold zlen in L. lia.
Qed.
Lemma seen_zero n k s d : moments n k s -> seen moments n k d -> nth_error d 60 = Some 0.
Proof using Hpart Hlater.
  intros M S. pose proof (seen_long _ _ _ _ M S) as L. pose proof (long64 _ _ _ M) as L4. destruct (nth_error d 60) as [b|] eqn:Eb; [|apply nth_error_None in Eb; unfold zlen in *; lia].
  destruct S as [_ H]. destruct (H 60%nat b Eb) as (n' & k' & s' & _ & M' & <-). destruct (Hpart _ _ _ M') as (_ & _ & [y Hy]).
  pose proof (nth_zdrop s' 60 0 ltac:(lia)) as E. rewrite Hy in E. symmetry. exact E.
Qed.

Lemma live_footer size d2 d3 d4 h x : 24 <= zlen d2 -> size <= zlen d2 -> size < two63 -> Forall is_byte d2 -> readFooterLive size d2 d3 d4 h = Ok x ->
  24 <= size /\ slice d2 (size - 8) 8 = le_bytes 8 MagicNumber.
Proof.
  intros L2 Ls HS HB H. unfold readFooterLive in H. destruct (Z.ltb_spec size 24) as [|HD]; [discriminate|]. split; [exact HD|].
  unfold readBytesAt at 1 in H. change (24 <? 0) with false in H. destruct (Z.ltb_spec (size - 24) 0); [lia|].
  change (24 =? 0) with false in H. cbn [negb] in H. destruct (Z.gtb_spec (size - 24 + 24) max_int64) as [Hbig|_]; [unfold max_int64, two63 in *; lia|].
  assert (HL2 : zlen (slice d2 (size - 24) 24) = 24) by (rewrite zlen_slice; lia). cbn [rbind] in H.
  rewrite HL2 in H. change (24 - 24) with 0 in H. change (zeros 0) with (@nil Z) in H. rewrite app_nil_r in H.
  unfold readBufferedUint64, readBufferedUint32 in H. do 3 (rewrite readBuffered_some in H by lia; cbn [rbind] in H).
  rewrite !slice_slice in H by lia.
  destruct (Z.eqb_spec (le_val (slice d2 (size - 24 + 16) 8)) MagicNumber) as [M3|]; [|discriminate].
  replace (size - 24 + 16) with (size - 8) in M3 by lia. apply (le_val_eq 8); [apply Forall_slice; exact HB|rewrite zlen_slice; lia|exact M3].
Qed.
Lemma live_no_panic size d1 d2 d3 d4 d5 : Forall is_byte d3 -> NewReaderLive size d1 d2 d3 d4 d5 <> Panic.
Proof.
  intros HB. unfold NewReaderLive. pose proof (readHeader_no_panic d1). destruct (readHeader d1) as [h| |]; cbn [rbind]; try congruence.
  assert (G : readFooterLive size d2 d3 d4 h <> Panic); [|destruct (readFooterLive size d2 d3 d4 h) as [[[h' m] ix]| |]; cbn [rbind]; congruence].
  unfold readFooterLive. destruct (Z.ltb_spec size 24); [discriminate|].
  destruct (readBytesAt d2 true (size - 24) 24) as [buf|e|] eqn:E; cbn [rbind];
    [|discriminate|apply readBytesAt_no_panic in E; [destruct E|lia]].
  apply readBytesAt_len in E; [|lia]. unfold readBufferedUint64, readBufferedUint32. repeat (rewrite readBuffered_some by lia; cbn [rbind]).
  destruct (negb _); [discriminate|]. destruct (_ <? 64); [discriminate|].
  match goal with |- context [readBytesAt d3 true ?o 4] => destruct (readBytesAt d3 true o 4) as [cbuf|e|] eqn:E2 end; cbn [rbind];
    [|discriminate|apply readBytesAt_no_panic in E2; [destruct E2|lia]].
  pose proof (readBytesAt_bytes _ _ _ _ _ HB E2) as B2. apply readBytesAt_len in E2; [|lia]. rewrite readBuffered_some by lia; cbn [rbind].
  set (c := le_val (slice cbuf 0 4)). assert (0 <= c) by (apply le_val_range, Forall_slice; exact B2).
  match goal with |- context [readBytesAt d4 true ?o (c * 56)] => destruct (readBytesAt d4 true o (c * 56)) as [ibuf|e|] eqn:E3 end; cbn [rbind];
    [|discriminate|apply readBytesAt_no_panic in E3; [destruct E3|lia]].
  apply readBytesAt_len in E3; [|lia].
  assert (G : readEntries ibuf (zseq c) <> Panic).
  { apply readEntries_no_panic with (n := c); [|exact E3]. intros i Hi. apply in_zseq in Hi. exact Hi. }
  destruct (readEntries ibuf (zseq c)); cbn [rbind]; congruence.
Qed.

Theorem live_open n k s d1 d2 d3 d4 d5 : moments n k s ->
  seen moments n k d1 -> seen moments n k d2 -> seen moments n k d3 -> seen moments n k d4 -> seen moments n k d5 ->
  (exists e, NewReaderLive (zlen s) d1 d2 d3 d4 d5 = Err e)
  \/ (s = F /\ d1 = F /\ d2 = F /\ d3 = F /\ d4 = F /\ d5 = F)
  \/ exists i, 0 < i /\ i + 8 < zlen F /\ slice F i 8 = le_bytes 8 MagicNumber /\ zlen s = i + 8.
Proof using HF Hpart Hlater.
  intros M S1 S2 S3 S4 S5. destruct (NewReaderLive (zlen s) d1 d2 d3 d4 d5) as [r|e|] eqn:E; [right|left; eauto|destruct (live_no_panic _ _ _ _ _ _ (seen_bytes _ _ _ S3) E)].
  destruct (Hpart _ _ _ M) as (HB & [[LF _] PE] & _). pose proof (long64 _ _ _ M) as L64.
  destruct (Z.eq_dec (zlen s) (zlen F)) as [L|L]; [left; split; [apply PE; exact L|]; repeat split; eapply seen_full; eassumption|right].
  unfold NewReaderLive in E. destruct (readHeader d1) as [h|?|]; [|discriminate E..]. cbn [rbind] in E.
  destruct (readFooterLive (zlen s) d2 d3 d4 h) as [x|?|] eqn:EF; [|discriminate E..]. clear E.
  pose proof (seen_long _ _ _ _ M S2) as L2. destruct (live_footer (zlen s) d2 d3 d4 h x ltac:(lia) L2 ltac:(lia) (seen_bytes _ _ _ S2) EF) as [_ HM].
  exists (zlen s - 8). split; [lia|]. split; [lia|]. split; [|lia]. destruct (Z.le_gt_cases 68 (zlen s)) as [G|G].
  - rewrite <- HM. symmetry. apply slice_ext; [lia|lia|]. intros p Hp. eapply seen_tail; [exact M|exact S2|]. unfold zlen in *. lia.
  - exfalso. pose proof (seen_zero _ _ _ _ M S2) as Z0. assert (Q : nth_error (slice d2 (zlen s - 8) 8) (60 - Z.to_nat (zlen s - 8)) = Some 0).
    { rewrite nth_slice by lia. rewrite <- Z0. f_equal. lia. }
    rewrite HM in Q. assert (K : exists i, (i < 4)%nat /\ (60 - Z.to_nat (zlen s - 8) = S i)%nat) by (exists (59 - Z.to_nat (zlen s - 8))%nat; lia).
    destruct K as (i & Hi & K). rewrite K in Q. clear - Hi Q. destruct i as [|[|[|[|i]]]]; [discriminate Q..|lia].
Qed.
End Core.

Section Live.
Context {Srr : Sroar} {Laws : SroarLaws Srr}.
Theorem writer_live now0 options w0 f0 cs : NewWriter now0 options [] = (Ok w0, f0) -> Forall typed_call cs ->
  let F := bytes_of (snd (run_calls cs w0)) in zlen F < two63 ->
  (forall n k s, writer_moments w0 cs n k s -> Forall is_byte s /\ part s F /\ prefix (zeros 4) (zdrop 60 s))
  /\ (forall n k s n' k' s', writer_moments w0 cs n k s -> writer_moments w0 cs n' k' s' -> earlier n k n' k' -> tail_prefix s s').
Proof.
  intros HN HT F HS. destruct (new_faultless _ _ _ _ HN) as (F0 & B0 & HE & H64). split.
  - intros n k s (j & u & -> & HF & Ed). destruct (stop_anywhere now0 options w0 f0 cs n k j s HN HT HS HF Ed) as (K1 & K2 & K3 & _). auto.
  - intros n k s n' k' s' (j & u & -> & HF & ->) (j' & u' & -> & HF' & ->) E.
    exact (crash_later cs w0 n k j n' k' j' HT ltac:(left; split; assumption) F0 E HF HF').
Qed.
Theorem simple_live srt now0 options sw0 cs outs sw : sorts srt ->
  NewSimpleWriter now0 options [] = Ok sw0 -> Forall typed_option options -> Forall typed_scall cs -> run_scalls srt cs sw0 = (outs, sw) -> undisturbed (combine cs outs) ->
  let F := file_of sw in zlen F < two63 ->
  (forall n k s, simple_moments srt sw0 cs n k s -> Forall is_byte s /\ part s F /\ prefix (zeros 4) (zdrop 60 s))
  /\ (forall n k s n' k' s', simple_moments srt sw0 cs n k s -> simple_moments srt sw0 cs n' k' s' -> earlier n k n' k' -> tail_prefix s s').
Proof.
  intros Hs HN HO HT HR HU F HS. pose proof (new_state False now0 options [] sw0 ltac:(tauto) HO HN) as H0. split.
  - intros n k s (j & u & -> & HF & Ed). destruct (simple_stop_anywhere srt now0 options sw0 cs outs sw n k j s Hs HN HO HT HR HU HS HF Ed) as (K1 & K2 & K3 & _). auto.
  - intros n k s n' k' s' (j & u & -> & HF & ->) (j' & u' & -> & HF' & ->) E.
    destruct (NewSimple_fresh _ _ _ _ HN) as (w0 & f & Hw & ->). destruct (new_faultless _ _ _ _ Hw) as (F0 & B0 & HE & H64).
    exact (later_scalls srt _ cs Hs HT _ _ _ _ n k j n' k' j' H0 ltac:(right; split; [reflexivity|split; assumption]) F0 HR HU E HF HF').
Qed.
End Live.
