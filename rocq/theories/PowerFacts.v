(** The header of a file that has not been finalized, and files whose header was not
    rewritten as Finalize meant to. *)
From Verif Require Import Machine MachineFacts Encoding Sroar FileIO FileFacts Writer Spec WriterFacts BlockFacts FinalFacts
  Reader ReaderFacts DecodeFacts Aggregate HistoryFacts RunFacts ReachFacts.
From Coq Require Import Lia ZifyBool.
Local Open Scope Z_scope.
Ltac Zify.zify_post_hook ::= Z.div_mod_to_equations.

(** ** Calls other than Finalize leave the first 64 bytes alone *)
Section Head.
Context {Srr : Sroar}.
Variable H : list Z.
Hypothesis H64 : zlen H = 64.

Definition Hd (p : Z) (w : writer) : Prop := ztake 64 (bytes_of w) = H /\ p <= f_pos (w_file w).
Definition keeps {A} (P : writer -> Prop) (m : M A) (Q : A -> writer -> Prop) : Prop :=
  forall w, P w -> match m w with (Ok a, w') => Q a w' | (_, w') => Hd 64 w' end.

Lemma Hd_weak p q w : q <= p -> Hd p w -> Hd q w.
Proof. unfold Hd. intuition lia. Qed.
Lemma keeps_ret {A} (a : A) (P : writer -> Prop) (Q : A -> writer -> Prop) : (forall w, P w -> Q a w) -> keeps P (mret a) Q.
Proof. intros HP w Hw. cbn. auto. Qed.
Lemma keeps_fail {A} e p (Q : A -> writer -> Prop) : 64 <= p -> keeps (Hd p) (mfail e) Q.
Proof. intros HP w Hw. cbn. eapply Hd_weak; [|exact Hw]. lia. Qed.
Lemma keeps_bind {A B} (m : M A) (k : A -> M B) P R Q : keeps P m R -> (forall a, keeps (R a) (k a) Q) -> keeps P (mbind m k) Q.
Proof.
  intros Hm Hk w Hw. unfold mbind. specialize (Hm w Hw). destruct (m w) as [[a|e|] w']; [|exact Hm|exact Hm]. apply Hk. exact Hm.
Qed.
Lemma keeps_get p : 64 <= p -> keeps (Hd p) mget (fun _ => Hd p).
Proof. intros Hp w Hw. exact Hw. Qed.
Lemma keeps_modify f p : (forall w, w_file (f w) = w_file w) -> keeps (Hd p) (mmodify f) (fun _ => Hd p).
Proof. intros Hf w Hw. cbn. unfold Hd, bytes_of in *. rewrite Hf. exact Hw. Qed.
Lemma keeps_lift {A} (r : res A) p : 64 <= p -> keeps (Hd p) (mlift r) (fun _ => Hd p).
Proof. intros Hp w Hw. cbn. destruct r; [exact Hw| |]; eapply Hd_weak; try exact Hw; lia. Qed.
Lemma keeps_seek off p : 64 <= p -> 64 <= p + off -> keeps (Hd p) (seek off SeekCurrent) (fun _ => Hd (p + off)).
Proof.
  intros Hp Ho w [H1 H2]. unfold seek, mfile, file_seek. destruct (f_open (w_file w)); [|split; cbn; [exact H1|lia]].
  destruct (f_faults (w_file w)) as [|[|k] fs]; try (split; cbn; [exact H1|lia]);
  destruct (_ <? 0); split; cbn; try exact H1; lia.
Qed.
Lemma keeps_seek0 p : 64 <= p -> keeps (Hd p) (seek 0 SeekCurrent) (fun _ => Hd p).
Proof. intros Hp. pose proof (keeps_seek 0 p Hp ltac:(lia)) as K. rewrite Z.add_0_r in K. exact K. Qed.
Lemma keeps_sync p : 64 <= p -> keeps (Hd p) sync (fun _ => Hd p).
Proof.
  intros Hp w [H1 H2]. unfold sync, mfile, file_sync. destruct (f_open (w_file w)); [|split; cbn; [exact H1|lia]].
  destruct (f_faults (w_file w)) as [|[|k] fs]; split; cbn; try exact H1; lia.
Qed.
Lemma head_overwrite D p bs : ztake 64 D = H -> 64 <= p -> ztake 64 (overwrite D p bs) = H.
Proof using H64.
  intros HD Hp. rewrite overwrite_prefix; [exact HD|lia|lia|]. rewrite <- HD, zlen_ztake in H64. lia.
Qed.
Lemma keeps_write bs p : 64 <= p -> keeps (Hd p) (write bs) (fun _ => Hd (p + zlen bs)).
Proof using H64.
  intros Hp w [H1 H2]. unfold write, mfile, file_write. destruct (f_open (w_file w)); [|split; cbn; [exact H1|lia]].
  pose proof (zlen_nonneg bs) as Hb.
  assert (K : forall b, Hd (p + zlen b) (set_file w (write_at (w_file w) b))).
  { intros b. split; cbn; [apply head_overwrite; [exact H1|lia]|lia]. }
  destruct (f_faults (w_file w)) as [|[|k] fs]; try apply K.
  eapply Hd_weak; [|apply K]. pose proof (zlen_nonneg (ztake k bs)). lia.
Qed.
Lemma keeps_writeAll l : forall acc p, 64 <= p -> keeps (Hd p) (writeAll l acc) (fun _ => Hd (p + zlen (concat l))).
Proof using H64.
  induction l as [|b l IH]; intros acc p Hp; cbn [writeAll concat].
  - apply keeps_ret. intros w Hw. rewrite Z.add_0_r. exact Hw.
  - eapply keeps_bind; [apply keeps_write; exact Hp|]. intros n. cbv beta. rewrite zlen_app, Z.add_assoc.
    apply IH. pose proof (zlen_nonneg b). lia.
Qed.
Lemma keeps_if {A} (b : bool) (m n : M A) P Q : keeps P m Q -> keeps P n Q -> keeps P (if b then m else n) Q.
Proof. destruct b; auto. Qed.
Lemma keeps_post {A} (m : M A) P (Q Q' : A -> writer -> Prop) : keeps P m Q -> (forall a w, Q a w -> Q' a w) -> keeps P m Q'.
Proof. intros Hm HQ w Hw. specialize (Hm w Hw). destruct (m w) as [[a|e|] w']; auto. Qed.
Lemma keeps_64 {A} (m : M A) p q : 64 <= p -> (keeps (Hd p) m (fun _ => Hd q)) -> 64 <= q -> keeps (Hd p) m (fun _ => Hd 64).
Proof. intros Hp Hm Hq. eapply keeps_post; [exact Hm|]. intros a w. apply Hd_weak. lia. Qed.

Lemma keeps_pure {A} (phi : Prop) P (m : M A) Q : (phi -> keeps P m Q) -> keeps (fun w => phi /\ P w) m Q.
Proof. intros K w [H1 H2]. apply (K H1 w H2). Qed.
Lemma keeps_pre {A} (P P' : writer -> Prop) (m : M A) Q : (forall w, P w -> P' w) -> keeps P' m Q -> keeps P m Q.
Proof. intros K Hm w Hw. apply (Hm w). auto. Qed.

(** Anything that writes and seeks forward only. *)
Definition fine {A} (m : M A) : Prop := keeps (Hd 64) m (fun _ => Hd 64).
Lemma fine_bind {A B} (m : M A) (k : A -> M B) : fine m -> (forall a, fine (k a)) -> fine (mbind m k).
Proof. intros Hm Hk. eapply keeps_bind; [exact Hm|exact Hk]. Qed.
Lemma fine_write bs : fine (write bs).
Proof using H64. eapply keeps_64; [lia|apply keeps_write; lia|]. pose proof (zlen_nonneg bs). lia. Qed.
Lemma fine_if {A} (b : bool) (m n : M A) : fine m -> fine n -> fine (if b then m else n).
Proof. destruct b; auto. Qed.
Ltac fine := repeat first
  [ (apply keeps_ret; intros ? ?; assumption) | (apply keeps_fail; lia) | (apply keeps_lift; lia) | (apply keeps_get; lia)
  | (apply keeps_seek0; lia) | (apply keeps_sync; lia) | apply fine_write | apply fine_if
  | (apply fine_bind; [|intros ?]) ].
Lemma fine_writeAll l acc : fine (writeAll l acc).
Proof using H64. eapply keeps_64; [lia|apply keeps_writeAll; lia|]. pose proof (zlen_nonneg (concat l)). lia. Qed.

Lemma keeps_blockHeader a b c d e f :
  keeps (Hd 64) (writeBlockHeader a b c d e f) (fun n w => n = 52 /\ Hd 116 w).
Proof using H64.
  unfold writeBlockHeader. eapply keeps_bind; [apply keeps_seek0; lia|]. intros hs. cbv beta.
  eapply keeps_bind; [apply keeps_get; lia|]. intros w. cbv beta.
  eapply keeps_bind; [apply keeps_writeAll; lia|]. intros n. cbv beta.
  match goal with |- keeps (Hd ?x) _ _ => replace x with 116 by (cbn [concat]; rewrite !zlen_app, !zlen_le_bytes; reflexivity) end.
  eapply keeps_bind; [apply keeps_seek0; lia|]. intros cp. cbv beta zeta.
  destruct (Z.eqb_spec (cp - hs) 52) as [->|Hne]; [|apply keeps_fail; lia]. apply keeps_ret. auto.
Qed.

Lemma fine_internal ids vals : fine (writeBlockInternal ids vals).
Proof using H64.
  unfold writeBlockInternal.
  apply fine_bind; [apply keeps_modify; reflexivity|intros _]. apply fine_bind; [apply keeps_get; lia|intros w]. cbv zeta.
  apply fine_bind; [apply keeps_lift; lia|intros [[ei bi] si]]. apply fine_bind; [apply keeps_lift; lia|intros [[ev bv] sv]].
  destruct (calculateMinMax ids) as [mi xi]. destruct (calculateMinMax vals) as [mv xv].
  apply fine_bind; [apply keeps_seek0; lia|intros bs]. apply fine_bind; [apply keeps_modify; reflexivity|intros _].
  eapply keeps_bind; [apply keeps_blockHeader|]. intros hw. cbv beta.
  apply keeps_pure. intros ->.
  unfold writeInt.
  eapply keeps_bind; [apply keeps_write; lia|]. intros ?. cbv beta. rewrite zlen_le_bytes.
  eapply keeps_bind; [apply keeps_write; lia|]. intros ?. cbv beta. rewrite zlen_le_bytes.
  eapply keeps_bind; [apply keeps_seek0; lia|]. intros ?. cbv beta.
  eapply keeps_bind; [apply keeps_write; lia|]. intros ?. cbv beta. rewrite zlen_le_bytes.
  eapply keeps_bind; [apply keeps_seek; unfold blockHeaderSize; lia|]. intros ?. cbv beta.
  apply (keeps_pre _ (Hd 64)); [intros w1; apply Hd_weak; unfold blockHeaderSize; lia|].
  unfold writeSection. fine; apply fine_writeAll || (apply keeps_modify; reflexivity).
Qed.

Lemma fine_estimate ids vals : fine (EstimateBlockSize ids vals).
Proof.
  unfold EstimateBlockSize. fine. destruct a0 as [[? ?] ?]. fine. destruct a0 as [[? ?] ?]. fine.
Qed.
Lemma fine_optimal ids vals idx : forall o, fine (findOptimal ids vals idx o).
Proof.
  induction idx as [|i idx IH]; intros o; cbn [findOptimal]; [fine|]. intros w Hw.
  pose proof (fine_estimate (ztake i ids) (ztake i vals) w Hw) as E. destruct (EstimateBlockSize _ _ w) as [[s|e|] w']; [|exact E|exact E].
  destruct (s <=? w_target w'); [|exact E]. apply IH. exact E.
Qed.
Lemma fine_writeBlock ids vals : fine (WriteBlock ids vals).
Proof using H64.
  unfold WriteBlock. destruct (negb _); [fine|]. destruct (_ =? 0); [fine|].
  apply fine_bind; [apply fine_estimate|intros s]. apply fine_bind; [apply keeps_get; lia|intros w].
  destruct (_ && _); [|apply fine_internal]. apply fine_bind; [apply fine_optimal|intros o].
  apply fine_bind; [apply fine_internal|intros _; fine].
Qed.
Lemma fine_close : fine Close.
Proof.
  intros w [H1 H2]. unfold Close, closeFile, mfile, file_close. destruct (f_open (w_file w)); [|split; assumption].
  destruct (f_faults (w_file w)) as [|[|k] fs]; split; assumption.
Qed.
Lemma call_head c w : is_finalize c = false -> Hd 64 w -> Hd 64 (snd (run_call c w)).
Proof using H64.
  assert (K : forall m : M Z, fine m -> Hd 64 w -> Hd 64 (snd (m w))).
  { intros m Hm Hw. specialize (Hm w Hw). destruct (m w) as [[a|e|] w']; exact Hm. }
  intros Hc. apply K. destruct c as [ids vals|ids vals|now|now|]; try discriminate; cbn [run_call].
  - apply fine_bind; [apply fine_writeBlock|intros _; fine].
  - apply fine_estimate.
  - apply fine_bind; [apply fine_close|intros _; fine].
Qed.
Lemma calls_head cs : forall w outs w', Forall (fun c => is_finalize c = false) cs -> run_calls cs w = (outs, w') -> Hd 64 w -> Hd 64 w'.
Proof using H64.
  induction cs as [|c cs IH]; intros w outs w' Hcs E Hw; cbn [run_calls] in E; [injection E as _ <-; exact Hw|].
  inversion Hcs as [|? ? Hc Hcs']; subst. pose proof (call_head c w Hc Hw) as K. destruct (run_call c w) as [r w1]. cbn [snd] in K.
  destruct (run_calls cs w1) as [rs w2] eqn:E2. injection E as _ <-. eapply IH; eassumption.
Qed.
End Head.

Section Power.
Context {Srr : Sroar}.

Lemma unfinalized_head now0 options faults w0 f0 cs outs w1 :
  NewWriter now0 options faults = (Ok w0, f0) -> Forall (fun c => is_finalize c = false) cs ->
  run_calls cs w0 = (outs, w1) -> ztake 64 (bytes_of w1) = initial_data now0 options.
Proof.
  intros Hn Hcs Hr. pose proof (NewWriter_rule False now0 options faults ltac:(tauto)) as R. cbv zeta in R. rewrite Hn in R.
  destruct R as [(fs & -> & _) _].
  assert (K : Hd (initial_data now0 options) 64 (set_file (new_writer options (mkFile [] 0 true [])) (mkFile (initial_data now0 options) (zlen (initial_data now0 options)) true fs))).
  { split; [|rewrite zlen_initial; cbn; lia]. unfold bytes_of. cbn [set_file w_file f_data]. apply ztake_all. rewrite zlen_initial. lia. }
  eapply calls_head in K; [|apply zlen_initial|exact Hcs|exact Hr]. apply K.
Qed.

(** ** Reading a file whose first 64 bytes differ *)
Lemma slice_zdrop {A} (l : list A) off n : 64 <= off -> slice l off n = slice (zdrop 64 l) (off - 64) n.
Proof. intros. unfold slice. rewrite zdrop_zdrop by lia. f_equal. f_equal. lia. Qed.
Lemma readBytesAt_tail d F o off n : zdrop 64 d = zdrop 64 F -> 64 <= off \/ off < 0 -> readBytesAt d o off n = readBytesAt F o off n.
Proof.
  intros E Ho. unfold readBytesAt. destruct (_ <? 0); [reflexivity|]. destruct (Z.ltb_spec off 0); [reflexivity|].
  rewrite !(slice_zdrop _ off) by lia. rewrite E. reflexivity.
Qed.
Lemma zlen_tail {A} (d F : list A) : zdrop 64 d = zdrop 64 F -> 64 <= zlen d -> 64 <= zlen F -> zlen d = zlen F.
Proof. intros E H1 H2. apply (f_equal zlen) in E. rewrite !zlen_zdrop in E. lia. Qed.

Lemma readEntries_len buf idx : forall ix, readEntries buf idx = Ok ix -> zlen ix = zlen idx.
Proof.
  induction idx as [|i idx IH]; intros ix E; cbn [readEntries] in E; [injection E as <-; reflexivity|].
  destruct (readEntry buf i) as [x|e|]; cbn [rbind] in E; try discriminate.
  destruct (readEntries buf idx) as [xs|e|]; cbn [rbind] in E; try discriminate. injection E as <-.
  rewrite !zlen_cons. rewrite (IH xs eq_refl). reflexivity.
Qed.
Lemma readFooter_tail d F h h' hF m ix : zdrop 64 d = zdrop 64 F -> 88 <= zlen d -> 88 <= zlen F -> zlen F < two63 ->
  h_blockCount h <= zlen ix -> h_blockCount h' <= zlen ix ->
  readFooter F h = Ok (hF, m, ix) -> readFooter d h' = Ok (set_blockCount h' (zlen ix), m, ix) /\ h_blockCount hF = zlen ix.
Proof.
  intros E L1 L2 L3 B B' R. pose proof (zlen_tail d F E ltac:(lia) ltac:(lia)) as LL. unfold readFooter in *. rewrite LL.
  destruct (Z.ltb_spec (zlen F) 24); [lia|]. rewrite (readBytesAt_tail d F) by (auto; lia).
  destruct (readBytesAt F true (zlen F - 24) 24) as [buf|e|]; cbn [rbind] in *; try discriminate.
  destruct (readBufferedUint64 buf 0) as [fs|e|]; cbn [rbind] in *; try discriminate.
  destruct (readBufferedUint64 buf 8) as [ck|e|]; cbn [rbind] in *; try discriminate.
  destruct (readBufferedUint64 buf 16) as [mg|e|]; cbn [rbind] in *; try discriminate.
  destruct (negb (mg =? MagicNumber)); [discriminate|].
  set (start := i64 (zlen F - 24 - i64 fs)) in *. destruct (Z.ltb_spec start 64); [discriminate|].
  rewrite (readBytesAt_tail d F) by (auto; lia).
  destruct (readBytesAt F true start 4) as [cb|e|] eqn:Ecb; cbn [rbind] in *; try discriminate.
  destruct (readBufferedUint32 cb 0) as [cnt|e|] eqn:Ec; cbn [rbind] in *; try discriminate.
  assert (S4 : 64 <= i64 (start + 4) \/ i64 (start + 4) < 0).
  { assert (is_i64 start) by apply i64_range. unfold is_i64, i64, two63, two64 in *. clearbody start. lia. }
  rewrite (readBytesAt_tail d F) by auto.
  assert (Hc : 0 <= cnt).
  { unfold readBytesAt in R. destruct (Z.ltb_spec (cnt * 56) 0); [discriminate|lia]. }
  destruct (readBytesAt F true (i64 (start + 4)) (cnt * 56)) as [ib|e|]; cbn [rbind] in *; try discriminate.
  destruct (readEntries ib (zseq cnt)) as [es|e|] eqn:Ee; cbn [rbind] in *; try discriminate.
  apply readEntries_len in Ee. rewrite zlen_zseq in Ee. injection R as <- <- ->.
  assert (K : zlen ix = cnt) by lia. clear Ee. 
  assert (G : forall h0, h_blockCount h0 <= cnt -> (if cnt >? h_blockCount h0 then set_blockCount h0 cnt else h0) = set_blockCount h0 cnt).
  { intros h0 Hle. destruct (Z.gtb_spec cnt (h_blockCount h0)); [reflexivity|]. replace cnt with (h_blockCount h0) by lia. destruct h0; reflexivity. }
  rewrite K in *. rewrite !G by assumption. split; reflexivity.
Qed.

(** Readers that differ only in what they know of the bitmap. *)
Record alike (r r' : reader) : Prop := {
  al_index : r_index r' = r_index r;
  al_count : h_blockCount (r_header r') = h_blockCount (r_header r);
  al_enc : h_encodingType (r_header r') = h_encodingType (r_header r);
  al_open : r_open r' = r_open r;
  al_tail : zdrop 64 (r_data r') = zdrop 64 (r_data r);
  al_offsets : Forall (fun e => 0 <= i64 (e_offset e)) (r_index r)
}.
Lemma alike_block r r' i : alike r r' -> readBlock r' i = readBlock r i.
Proof.
  intros [A1 A2 A3 A4 A5 A6]. unfold readBlock. rewrite A1, A3, A4. destruct (_ || _); [reflexivity|].
  destruct (nth_error (r_index r) (Z.to_nat i)) as [e|] eqn:E; [|reflexivity]. cbv zeta.
  rewrite (readBytesAt_tail (r_data r') (r_data r)); [reflexivity|exact A5|].
  rewrite Forall_forall in A6. specialize (A6 e (nth_error_In _ _ E)). pose proof (i64_range (e_offset e)).
  unfold blockHeaderSize. set (x := i64 (e_offset e)) in *. clearbody x. unfold is_i64, i64, two63, two64 in *. lia.
Qed.
Lemma scan_ext g g' idx : (forall i, g' i = g i) -> forall a, scan g' idx a = scan g idx a.
Proof.
  intros Hg. induction idx as [|i idx IH]; intros a; cbn [scan]; [reflexivity|]. rewrite Hg. destruct (add_block a (g i)); cbn [rbind]; auto.
Qed.
Lemma alike_aggregate r r' opts : alike r r' -> aggregateSequential r' opts = aggregateSequential r opts.
Proof.
  intros HA. destruct (HA) as [A1 A2 A3 A4 A5 A6].
  assert (EI : FilteredBlockIterator r' (o_filter opts) (o_deny opts) = FilteredBlockIterator r (o_filter opts) (o_deny opts))
    by (unfold FilteredBlockIterator, matchingBlocks, BlockCount; rewrite A1, A2; reflexivity).
  unfold aggregateSequential, aggregateWithFilter, BlockCount. rewrite A1, A2, EI.
  unfold rbind. destruct (FilteredBlockIterator r _ _) as [l|e|].
  2,3: rewrite (scan_ext (GetPairs r) (GetPairs r')) by (intros i; unfold GetPairs; apply alike_block; assumption); reflexivity.
  rewrite (scan_ext (fun i => readBlockFiltered r (i64 i) (o_filter opts) (o_deny opts)) (fun i => readBlockFiltered r' (i64 i) (o_filter opts) (o_deny opts)))
    by (intros i; unfold readBlockFiltered; rewrite (alike_block r r') by assumption; reflexivity).
  rewrite (scan_ext (GetPairs r) (GetPairs r')) by (intros i; unfold GetPairs; apply alike_block; assumption).
  reflexivity.
Qed.
Lemma alike_pairs r r' i : alike r r' -> GetPairs r' i = GetPairs r i.
Proof. intros. unfold GetPairs. apply alike_block. assumption. Qed.


(** ** Bytes mixed from two lists *)
Inductive mixed : list Z -> list Z -> list Z -> Prop :=
| mixed_nil : mixed [] [] []
| mixed_cons a b c la lb lc : c = a \/ c = b -> mixed la lb lc -> mixed (a :: la) (b :: lb) (c :: lc).
Lemma mixed_nth la : forall lb lc, length la = length lb -> length lc = length lb ->
  (forall i, nth_error lc i = nth_error lb i \/ nth_error lc i = nth_error la i) -> mixed la lb lc.
Proof.
  induction la as [|a la IH]; intros [|b lb] [|c lc] L1 L2 K; try discriminate; [constructor|].
  constructor.
  - specialize (K 0%nat). cbn in K. destruct K as [K|K]; injection K as K; auto.
  - apply IH; [cbn in *; lia|cbn in *; lia|]. intros i. exact (K (S i)).
Qed.
Lemma mixed_app a1 : forall b1 a2 b2 d, length a1 = length b1 -> mixed (a1 ++ a2) (b1 ++ b2) d ->
  exists d1 d2, d = d1 ++ d2 /\ mixed a1 b1 d1 /\ mixed a2 b2 d2.
Proof.
  induction a1 as [|a a1 IH]; intros [|b b1] a2 b2 d L M; try discriminate.
  - exists [], d. split; [reflexivity|]. split; [constructor|exact M].
  - cbn [app] in M. inversion M as [|? ? c ? ? lc Hc M']; subst.
    destruct (IH b1 a2 b2 lc ltac:(cbn in L; lia) M') as (d1 & d2 & -> & M1 & M2).
    exists (c :: d1), d2. split; [reflexivity|]. split; [constructor; assumption|exact M2].
Qed.
Lemma mixed_same a d : mixed a a d -> d = a.
Proof. intros M. remember a as b in M at 2. induction M as [|x y z la lb lc Hc M IH]; [reflexivity|]. injection Heqb as -> ->. rewrite IH by reflexivity. destruct Hc; subst; reflexivity. Qed.
Lemma mixed_bytes a b d : Forall is_byte a -> Forall is_byte b -> mixed a b d -> Forall is_byte d.
Proof.
  intros Ha Hb M. induction M as [|x y z la lb lc Hc M IH]; [constructor|]. inversion Ha; inversion Hb; subst.
  constructor; [destruct Hc; subst; assumption|auto].
Qed.
Lemma mixed_length a b d : mixed a b d -> length d = length b /\ length a = length b.
Proof. induction 1; cbn; lia. Qed.
Lemma mixed_le a b d : Forall (eq 0) a -> Forall is_byte b -> mixed a b d -> le_val d <= le_val b.
Proof.
  intros Ha Hb M. induction M as [|x y z la lb lc Hc M IH]; [cbn; lia|]. inversion Ha; inversion Hb; subst.
  specialize (IH ltac:(assumption) ltac:(assumption)). cbn [le_val]. unfold is_byte in *. destruct Hc; subst; lia.
Qed.

(** The header after a torn rewrite. *)
Lemma mixed_header now0 now count target enc off size d : is_u64 count ->
  mixed (header_bytes now0 0 target enc 0 0) (header_bytes now count target enc off size) d ->
  exists now' count' off' size', d = header_bytes now' count' target enc off' size' /\ 0 <= count' <= count
    /\ is_u64 off' /\ is_u64 size'.
Proof.
  intros Hc M. unfold header_bytes, headerFields in M. cbn [concat] in M. rewrite !app_nil_r in M.
  repeat (match type of M with mixed (le_bytes ?k _ ++ _) _ _ => apply mixed_app in M; [|apply Nat2Z.inj; pose proof (zlen_le_bytes k) as ZL; unfold zlen in ZL; rewrite !ZL; reflexivity];
    let d1 := fresh "d" in let M1 := fresh "M" in let dr := fresh "rest" in let Q := fresh "Q" in
    destruct M as (d1 & dr & Q & M1 & M); subst d; rename dr into d end).
  apply mixed_same in M0, M1, M2, M4, M5, M6. subst d0 d1 d2 d4 d5 d6.
  assert (V : forall x y dd, mixed (le_bytes 8 x) (le_bytes 8 y) dd -> dd = le_bytes 8 (le_val dd) /\ is_u64 (le_val dd)).
  { intros x y dd K. pose proof (mixed_bytes _ _ _ (le_bytes_bytes 8 x) (le_bytes_bytes 8 y) K) as KB.
    pose proof (proj1 (mixed_length _ _ _ K)) as KL. pose proof (zlen_le_bytes 8 y) as Z8. unfold zlen in Z8. assert (length dd = 8%nat) as KL' by lia.
    split; [symmetry; apply le_bytes_le_val; assumption|]. pose proof (le_val_range dd KB) as R. unfold zlen in R. rewrite KL' in R. exact R. }
  exists (le_val d7), (le_val d3), (le_val d8), (le_val d).
  pose proof (V _ _ _ M3) as [V3 W3]. pose proof (V _ _ _ M7) as [V7 W7]. pose proof (V _ _ _ M8) as [V8 W8]. pose proof (V _ _ _ M) as [V9 W9].
  split; [|split; [|split; assumption]].
  - unfold header_bytes, headerFields. cbn [concat]. rewrite !app_nil_r. rewrite (u64_id (le_val d7)) by assumption.
    rewrite <- V3, <- V7, <- V8, <- V9. reflexivity.
  - split; [apply W3|]. assert (R : le_val d3 <= le_val (le_bytes 8 count)).
    { eapply mixed_le; [|apply le_bytes_bytes|exact M3]. change (le_bytes 8 0) with [0;0;0;0;0;0;0;0]. repeat constructor. }
    rewrite le_val_8, u64_id in R by assumption. exact R.
Qed.

Lemma slice_60_4 {A} (l : list A) : ztake 64 l = ztake 60 l ++ slice l 60 4.
Proof. unfold slice. rewrite <- (ztake_zdrop 60 (ztake 64 l)). rewrite ztake_ztake. f_equal. unfold ztake, zdrop. rewrite skipn_firstn_comm. reflexivity. Qed.

Lemma ok_inj {A} (a b : A) : Ok a = Ok b -> a = b. Proof. intros K. injection K as K. exact K. Qed.
(** The file [d] equals the finalized file [F] from byte 64 on; each of its first 60
    bytes is that of [F] or that of the initial header. *)
Lemma torn_reader F X now e target L b off now0 d r :
  finalized F X now e target L b off -> within_limits F e target L b ->
  NewReader F = Ok r -> zdrop 64 d = zdrop 64 F -> 64 <= zlen d ->
  mixed (header_bytes now0 0 target e 0 0) (ztake 60 F) (ztake 60 d) ->
  exists r', NewReader d = Ok r' /\ alike r r'
    /\ (ztake 60 d = header_bytes now0 0 target e 0 0 -> h_bitmapOffset (r_header r') = 0 /\ r_globalIDs r' = None).
Proof.
  intros Hf Hl Hr E Ld M. pose proof (NewReader_finalized _ _ _ _ _ _ _ _ Hf Hl) as N. rewrite N in Hr.
  destruct Hf as [HF HH HB HO HM]. destruct Hl as [LF LI LE LT LB].
  pose proof (zlen_nonneg L) as HL0. pose proof (zlen_nonneg (bitmap_bytes b)) as Hbb.
  assert (LenF : zlen F = zlen X + 28 + 56 * zlen L) by (rewrite HF, zlen_app, zlen_footer; lia).
  pose proof (zlen_tail d F E Ld ltac:(lia)) as LL.
  assert (T60 : ztake 60 F = header_bytes now (zlen L) target e off (4 + zlen (bm_ser b))).
  { rewrite HF, ztake_app_l by lia. exact HH. }
  rewrite T60 in M. apply mixed_header in M; [|unfold is_u64, two64, two32 in *; lia].
  destruct M as (now' & count' & off' & size' & Md & Mc & Mo & Ms).
  unfold NewReader in N.
  destruct (readHeader F) as [h|er|] eqn:EH; cbn [rbind] in N; try discriminate.
  pose proof (zlen_nonneg (bm_ser b)) as Hs0.
  rewrite (readHeader_ok F now (zlen L) target e off (4 + zlen (bm_ser b))) in EH;
    [|lia|assumption|exact T60|unfold is_u64, two64, two32 in *; lia|assumption|assumption
     |unfold is_u64, two64, two63 in *; lia|unfold is_u64, two64, two32 in *; lia].
  injection EH as <-.
  destruct (readFooter F _) as [[[hF m] ix]|er|] eqn:EF; cbn [rbind] in N; try discriminate.
  apply ok_inj in N. pose proof (f_equal r_index N) as Hix. cbn in Hix. subst ix.
  pose proof (readHeader_ok d now' count' target e off' size' ltac:(lia) ltac:(lia) Md
     ltac:(unfold is_u64, two64, two32 in *; lia) LT LE Mo Ms) as EHd.
  eapply (readFooter_tail d F _ (mkHeader MagicNumber 1 0 count' target 0 e (u64 now') off' size')) in EF;
    [|exact E|lia|lia|exact LF|rewrite zlen_map; cbn; lia|rewrite zlen_map; cbn; lia].
  destruct EF as [EFd _].
  eexists. split; [unfold NewReader; rewrite EHd; cbn [rbind]; rewrite EFd; cbn [rbind]; reflexivity|].
  assert (Hr' : r = the_reader F now e target L b off) by (injection Hr as <-; reflexivity).
  split.
  - subst r. constructor; cbn; try reflexivity.
    + rewrite zlen_map. reflexivity.
    + exact E.
    + apply Forall_map. eapply Forall_impl; [|exact HB]. intros x (G1 & _ & G3 & G4 & _).
      pose proof (zlen_nonneg (image_of e x)). cbn. rewrite i64_id; [lia|unfold is_i64, two63 in *; lia].
  - intros Hd. cbn. split; [|reflexivity]. rewrite Hd in Md. 
    pose proof (readHeader_ok d now0 0 target e 0 0 ltac:(lia) ltac:(lia) Hd
     ltac:(unfold is_u64, two64; lia) LT LE ltac:(unfold is_u64, two64; lia) ltac:(unfold is_u64, two64; lia)) as EHd'.
    rewrite EHd' in EHd. injection EHd as _ _ Q _. symmetry. exact Q.
Qed.
End Power.
