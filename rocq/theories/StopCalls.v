(** Stopping in the middle of the writer's methods. *)
From Verif Require Import Machine MachineFacts Encoding EncodingFacts Sroar FileIO FileFacts Writer Spec WriterFacts BlockFacts FinalFacts RunFacts StopSpec StopFacts.
From Coq Require Import Lia ZifyBool.
Local Open Scope Z_scope.
Ltac Zify.zify_post_hook ::= Z.div_mod_to_equations.

Section Calls.
Context {Srr : Sroar}.

(** ** Nothing happens after the stop *)
Lemma still_writeHeader now : still (writeHeader now).
Proof.
  unfold writeHeader. apply still_bind; [apply still_seek|intros ?]. apply still_get_bind. intros ?. apply still_bind; [apply still_writeAll|intros ?].
  apply still_bind; [apply still_write|intros ?]. apply still_bind; [apply still_seek|intros ?]. apply still_if; [apply still_ret|apply still_fail].
Qed.
Lemma still_estimate ids vals : still (EstimateBlockSize ids vals).
Proof.
  unfold EstimateBlockSize. repeat first [apply still_if; [apply still_fail|]]. apply still_get_bind. intros ?.
  apply still_bind; [apply still_lift|]. intros [[? ?] ?]. apply still_bind; [apply still_lift|]. intros [[? ?] ?].
  apply still_bind; [apply still_seek|intros ?]. apply still_if; apply still_ret.
Qed.
Lemma still_blockHeader a b c d e f : still (writeBlockHeader a b c d e f).
Proof.
  unfold writeBlockHeader. apply still_bind; [apply still_seek|intros ?]. apply still_get_bind. intros ?. apply still_bind; [apply still_writeAll|intros ?].
  apply still_bind; [apply still_seek|intros ?]. apply still_if; [apply still_ret|apply still_fail].
Qed.
Lemma still_section u l bs : still (writeSection u l bs).
Proof. unfold writeSection. apply still_if; apply still_writeAll. Qed.
Lemma still_tail size st : still (mbind (mmodify (fun w => push_block w size st)) (fun _ => sync)).
Proof. apply still_bind; [apply still_modify; reflexivity|intros ?; apply still_sync]. Qed.
Ltac st := intros; cbv beta zeta; first
  [ apply still_ret | apply still_fail | apply still_panic | apply still_lift | apply still_get | apply still_seek | apply still_sync | apply still_write
  | apply still_writeAll | apply still_section | apply still_blockHeader | apply still_estimate | (apply still_modify; reflexivity) | apply still_close
  | match goal with |- still (let '(_, _) := ?x in _) => destruct x; st end
  | match goal with H : forall _, still _ |- _ => apply H end
  | apply still_if; st | apply still_bind; [st|st] ].
Lemma still_internal ids vals : still (writeBlockInternal ids vals).
Proof. unfold writeBlockInternal, writeInt. st. Qed.
Lemma still_optimal ids vals idx : forall o, still (findOptimal ids vals idx o).
Proof.
  induction idx as [|i idx IH]; intros o; cbn [findOptimal]; [apply still_ret|]. intros w D.
  pose proof (still_estimate (ztake i ids) (ztake i vals) w D) as K. destruct (EstimateBlockSize _ _ w) as [[s|e|] v]; [|exact K|exact K].
  cbn [snd] in K. destruct K as [K1 K2]. destruct (s <=? w_target v); [|auto]. destruct (IH i v K1) as [I1 I2]. split; [exact I1|].
  intros N. destruct (I2 N) as [N1 N2]. destruct (K2 N1) as [N3 N4]. split; [exact N3|congruence].
Qed.
Lemma still_writeBlock ids vals : still (WriteBlock ids vals).
Proof.
  unfold WriteBlock. repeat (apply still_if; [apply still_fail|]). apply still_bind; [apply still_estimate|intros ?]. apply still_get_bind. intros ?.
  apply still_if; [|apply still_internal]. apply still_bind; [apply still_optimal|intros ?]. apply still_bind; [apply still_internal|intros ?; apply still_fail].
Qed.
Lemma still_blockFooter p s x : still (writeBlockFooter p s x).
Proof. unfold writeBlockFooter. st. Qed.
Lemma still_entries idx : still (writeFooterEntries idx).
Proof.
  induction idx as [|i idx IH]; cbn [writeFooterEntries]; [apply still_ret|]. apply still_get_bind. intros w.
  destruct (nth_error (w_positions w) _); [|apply still_panic]. destruct (nth_error (w_sizes w) _); [|apply still_panic].
  destruct (nth_error (w_stats w) _); [|apply still_panic]. apply still_bind; [apply still_blockFooter|intros ?; exact IH].
Qed.
(** The part of Finalize behind the header. *)
Definition finish (blockCount : Z) (positions : list Z) : M unit :=
  mbind (seek 0 SeekCurrent) (fun currentPos =>
  mbind (if calculatePadding currentPos PageSize >? 0 then write (zeros (calculatePadding currentPos PageSize)) else mret 0) (fun _ =>
  mbind (seek 0 SeekCurrent) (fun footerStart =>
  mbind (writeInt 4 (u32 blockCount)) (fun _ =>
  mbind (if blockCount >? 0 then if negb (zlen positions =? blockCount) then mfail ErrPositions else writeFooterEntries (zseq blockCount) else mret tt) (fun _ =>
  mbind (seek 0 SeekCurrent) (fun footerEnd =>
  mbind (writeInt 8 (u64 (footerEnd - footerStart))) (fun _ =>
  mbind (writeInt 8 0) (fun _ =>
  mbind (writeInt 8 MagicNumber) (fun _ =>
  mbind (seek 0 SeekCurrent) (fun footerMetaEnd =>
  if negb (footerMetaEnd - footerEnd =? 24) then mfail ErrMismatch
  else if negb (footerMetaEnd - footerStart =? (footerEnd - footerStart) + 24) then mfail ErrMismatch
  else sync)))))))))).
Definition header_part (now blockCount target enc bitmapOffset bitmapSize : Z) : M Z :=
  mbind (writeAll (headerFields now blockCount target enc bitmapOffset bitmapSize) 0) (fun _ => seek 0 SeekEnd).
Lemma Finalize_split now w : Finalize now w =
  mbind writeGlobalIDBitmap (fun '(off, size) => mbind (seek 0 SeekStart) (fun _ => mbind mget (fun u =>
    mbind (header_part now (w_blockCount u) (w_target u) (w_enc u) off size) (fun _ => finish (w_blockCount u) (w_positions u))))) w.
Proof.
  unfold Finalize, header_part, mbind. destruct (writeGlobalIDBitmap w) as [[[off size]|e|] w1]; [|reflexivity|reflexivity].
  destruct (seek 0 SeekStart w1) as [[a|e|] w2]; [|reflexivity|reflexivity]. unfold mget.
  destruct (writeAll _ 0 w2) as [[b|e|] w3]; [|reflexivity|reflexivity].
  destruct (seek 0 SeekEnd w3) as [[c|e|] w4]; reflexivity.
Qed.
Lemma still_bitmap : still writeGlobalIDBitmap.
Proof. unfold writeGlobalIDBitmap, writeInt. st. Qed.
Lemma still_finish c p : still (finish c p).
Proof.
  pose proof still_entries as K. unfold finish, writeInt. st.
Qed.
Lemma still_header a b c d e f : still (header_part a b c d e f).
Proof. unfold header_part. st. Qed.
Lemma still_ext {A} (m m' : M A) : (forall w, m w = m' w) -> still m' -> still m.
Proof. intros H K w D. rewrite H. apply K. exact D. Qed.
Lemma still_finalize now : still (Finalize now).
Proof.
  eapply still_ext; [apply Finalize_split|]. apply still_bind; [apply still_bitmap|]. intros [o s]. apply still_bind; [apply still_seek|intros ?].
  apply still_get_bind. intros u. apply still_bind; [apply still_header|intros ?]. apply still_finish.
Qed.
Lemma still_call c : still (run_call c).
Proof.
  destruct c; cbn [run_call]; try (apply still_bind; [|intros ?; apply still_ret]).
  - apply still_writeBlock.
  - apply still_estimate.
  - apply still_finalize.
  - unfold FinalizeAndClose. apply still_bind; [apply still_finalize|intros ?; apply still_close].
  - apply still_close.
Qed.
Lemma snd_calls c cs w : snd (run_calls (c :: cs) w) = snd (run_calls cs (snd (run_call c w))).
Proof. cbn [run_calls]. destruct (run_call c w) as [r v]. cbn [snd]. destruct (run_calls cs v). reflexivity. Qed.
Lemma dead_calls cs : forall w, dead w -> dead (snd (run_calls cs w))
  /\ (f_faults (w_file (snd (run_calls cs w))) <> [] -> f_faults (w_file w) <> [] /\ bytes_of (snd (run_calls cs w)) = bytes_of w).
Proof.
  induction cs as [|c cs IH]; intros w D; [auto|]. rewrite snd_calls. destruct (still_call c w D) as [K1 K2]. destruct (IH _ K1) as [I1 I2]. split; [exact I1|].
  intros N. destruct (I2 N) as [N1 N2]. destruct (K2 N1) as [N3 N4]. split; [exact N3|congruence].
Qed.

(** ** Single system calls *)
Definition at_end (w : writer) : Prop := f_open (w_file w) = true /\ f_pos (w_file w) = zlen (bytes_of w).
Lemma stop_cases n k j : (exists n', stop n k j = NoFault :: stop n' k j) \/ stop n k j = Fault k :: repeat (Fault 0) j.
Proof. destruct n as [|n]; [right; reflexivity|left; exists n; reflexivity]. Qed.
Lemma at_end_withf w fs : at_end w -> at_end (withf w fs). Proof. exact (fun H => H). Qed.

Ltac rf := solve [reflexivity | unfold withf, set_file, set_pos, write_at; cbn; repeat match goal with H : f_open _ = true |- _ => rewrite ?H; clear H end; reflexivity].
Lemma crash_seek (R : list Z -> list Z -> Prop) o wh w (Q : res Z -> writer -> Prop) : order R -> f_open (w_file w) = true ->
  let p := o + match wh with SeekStart => 0 | SeekCurrent => f_pos (w_file w) | SeekEnd => zlen (bytes_of w) end in
  0 <= p -> Q (Ok p) (withf (set_file w (set_pos (w_file w) p)) []) -> crash_at R (seek o wh) w Q.
Proof.
  intros Hr Ho p Hp HQ. exists (Ok p), (withf (set_file w (set_pos (w_file w) p)) []). unfold seek, mfile, file_seek. cbn [w_file withf set_file f_open f_faults f_pos f_data].
  rewrite Ho. fold (bytes_of w) in *. fold p. destruct (Z.ltb_spec p 0); [lia|]. cbn [fst snd].
  split; [rf|]. split; [rf|]. split; [exact HQ|].
  apply stops_call0; [exact Hr|intros fs; rf|]. intros k j. split; reflexivity.
Qed.
Lemma crash_seek0 (R : list Z -> list Z -> Prop) w (Q : res Z -> writer -> Prop) : order R -> at_end w -> Q (Ok (zlen (bytes_of w))) (withf w []) -> crash_at R (seek 0 SeekCurrent) w Q.
Proof.
  intros Hr [Ho Hp] HQ. apply crash_seek; [exact Hr|exact Ho| |]; rewrite Hp; cbn; [apply zlen_nonneg|].
  replace (withf (set_file w (set_pos (w_file w) (zlen (bytes_of w)))) []) with (withf w []); [exact HQ|].
  unfold withf, set_file, set_pos. cbn. rewrite Hp. reflexivity.
Qed.
Lemma crash_sync (R : list Z -> list Z -> Prop) w (Q : res unit -> writer -> Prop) : order R -> f_open (w_file w) = true -> Q (Ok tt) (withf w []) -> crash_at R sync w Q.
Proof.
  intros Hr Ho HQ. exists (Ok tt), (withf w []). unfold sync, mfile, file_sync. cbn [w_file withf set_file f_open f_faults f_pos f_data].
  rewrite Ho. split; [rf|]. split; [rf|]. split; [exact HQ|].
  apply stops_call0; [exact Hr|intros fs; rf|]. intros k j. split; reflexivity.
Qed.
Lemma crash_close (R : list Z -> list Z -> Prop) w (Q : res unit -> writer -> Prop) : order R -> f_open (w_file w) = true ->
  (forall v, f_open (w_file v) = false -> Q (Ok tt) v) -> crash_at R closeFile w Q.
Proof.
  intros Hr Ho HQ. unfold closeFile, mfile, file_close. cbn [w_file withf set_file f_open f_faults f_pos f_data].
  exists (Ok tt), (set_file w (mkFile (bytes_of w) (f_pos (w_file w)) false [])). cbn [w_file withf set_file f_open f_faults f_pos f_data tl]. rewrite Ho.
  split; [rf|]. split; [rf|]. split; [apply HQ; reflexivity|].
  apply stops_call0; [exact Hr|intros fs; rf|]. intros k j. split; reflexivity.
Qed.
Lemma crash_write (R : list Z -> list Z -> Prop) bs w (Q : res Z -> writer -> Prop) : order R -> f_open (w_file w) = true ->
  let ow k := overwrite (bytes_of w) (f_pos (w_file w)) (ztake k bs) in
  (forall k, R (bytes_of w) (ow k) /\ R (ow k) (overwrite (bytes_of w) (f_pos (w_file w)) bs)) -> (forall k k', k <= k' -> tail_prefix (ow k) (ow k')) ->
  Q (Ok (zlen bs)) (withf (set_file w (write_at (w_file w) bs)) []) -> crash_at R (write bs) w Q.
Proof.
  intros Hr Ho ow HR HM HQ. exists (Ok (zlen bs)), (withf (set_file w (write_at (w_file w) bs)) []). unfold write, mfile, file_write. cbn [w_file withf set_file f_open f_faults f_pos f_data].
  rewrite Ho. split; [rf|]. split; [rf|]. split; [exact HQ|].
  apply (stops_call R Hr _ _ _ _ _ ow); [intros fs; rf| |exact HR|exact HM]. intros k j. split; reflexivity.
Qed.
Lemma ztake_mono (bs : list Z) k k' : k <= k' -> exists x, ztake k' bs = ztake k bs ++ x.
Proof.
  intros H. exists (zdrop k (ztake k' bs)). rewrite <- (ztake_zdrop k (ztake k' bs)) at 1. f_equal. unfold ztake. rewrite firstn_firstn. f_equal. lia.
Qed.
Lemma prefix_ztake bs k d : prefix d (d ++ ztake k bs) /\ prefix (d ++ ztake k bs) (d ++ bs).
Proof.
  split; [exists (ztake k bs); reflexivity|]. exists (zdrop k bs). rewrite <- app_assoc, ztake_zdrop. reflexivity.
Qed.
Lemma crash_append bs w (Q : res Z -> writer -> Prop) : at_end w ->
  (forall v, at_end v -> bytes_of v = bytes_of w ++ bs -> Q (Ok (zlen bs)) v) -> crash_at prefix (write bs) w Q.
Proof.
  intros [Ho Hp] HQ. apply crash_write; [apply prefix_order|exact Ho| | |].
  - intros k. rewrite !overwrite_end by exact Hp. apply prefix_ztake.
  - intros k k' L. rewrite !overwrite_end by exact Hp. destruct (ztake_mono bs k k' L) as [x ->]. apply prefix_tail. exists x. rewrite app_assoc. reflexivity.
  - apply HQ; [split; [exact Ho|]|]; unfold bytes_of in *; cbn; rewrite overwrite_end by exact Hp; [rewrite zlen_app; lia|reflexivity].
Qed.
Lemma crash_appendAll l : forall acc w (Q : res Z -> writer -> Prop), at_end w ->
  (forall v, at_end v -> bytes_of v = bytes_of w ++ concat l -> Q (Ok (acc + zlen (concat l))) v) -> crash_at prefix (writeAll l acc) w Q.
Proof.
  induction l as [|bs l IH]; intros acc w Q HA HQ; cbn [writeAll concat] in *.
  - apply crash_pure; [apply prefix_order|]. replace acc with (acc + zlen (@nil Z)) by (cbn; lia). apply HQ; [apply at_end_withf; exact HA|].
    unfold bytes_of; cbn. rewrite app_nil_r. reflexivity.
  - eapply crash_bind with (Q1 := fun r v => r = Ok (zlen bs) /\ at_end v /\ bytes_of v = bytes_of w ++ bs); [apply prefix_order| | | | |].
    + apply crash_append; [exact HA|]. auto.
    + intros ?. apply still_writeAll.
    + intros a v (E & HA' & Hb) _. injection E as ->. apply IH; [exact HA'|]. intros u Hu Hbu. rewrite <- Z.add_assoc, <- zlen_app. apply HQ; [exact Hu|].
      rewrite Hbu, Hb, app_assoc. reflexivity.
    + intros e v (E & _); discriminate E.
    + intros v (E & _); discriminate E.
Qed.

(** ** Methods that only append *)
Definition ends {A} : res A -> writer -> Prop := fun _ v => at_end v.
Ltac cb Q := eapply crash_bind with (Q1 := Q); [apply prefix_order| | | |..].
Lemma appends_pure {A} (r : res A) w : at_end w -> crash_at prefix (fun w => (r, w)) w ends.
Proof. intros H. apply crash_pure; [apply prefix_order|]. exact H. Qed.
Lemma appends_seek w : at_end w -> crash_at prefix (seek 0 SeekCurrent) w ends.
Proof. intros H. apply crash_seek0; [apply prefix_order|exact H|]. exact H. Qed.
Lemma appends_sync w : at_end w -> crash_at prefix sync w ends.
Proof. intros H. apply crash_sync; [apply prefix_order|apply H|]. exact H. Qed.
Lemma appends_write bs w : at_end w -> crash_at prefix (write bs) w ends.
Proof. intros H. apply crash_append; [exact H|]. intros v K _. exact K. Qed.
Lemma appends_writeAll l acc w : at_end w -> crash_at prefix (writeAll l acc) w ends.
Proof. intros H. apply crash_appendAll; [exact H|]. intros v K _. exact K. Qed.
Lemma appends_modify f w : (forall u fs, f (withf u fs) = withf (f u) fs) -> (forall u, w_file (f u) = w_file u) -> at_end w -> crash_at prefix (mmodify f) w ends.
Proof.
  intros H1 H2 H. apply crash_modify; [apply prefix_order|exact H1|exact H2|]. unfold ends, at_end, bytes_of. rewrite H2. exact H.
Qed.
Lemma appends_bind {A B} (m : M A) (k : A -> M B) w : crash_at prefix m w ends -> (forall a, still (k a)) ->
  (forall a v, at_end v -> crash_at prefix (k a) v ends) -> crash_at prefix (mbind m k) w ends.
Proof. intros Hm Hs Hk. cb (@ends A); [exact Hm|exact Hs| | |]; auto. Qed.
Lemma appends_if {A} (b : bool) (m n : M A) w : crash_at prefix m w ends -> crash_at prefix n w ends -> crash_at prefix (if b then m else n) w ends.
Proof. destruct b; auto. Qed.
Lemma appends_section u l bs w : at_end w -> crash_at prefix (writeSection u l bs) w ends.
Proof. intros H. unfold writeSection. apply appends_if; apply appends_writeAll; exact H. Qed.

Lemma appends_estimate ids vals w : at_end w -> crash_at prefix (EstimateBlockSize ids vals) w ends.
Proof.
  intros H. unfold EstimateBlockSize. apply appends_if; [apply appends_pure; exact H|]. apply appends_if; [apply appends_pure; exact H|].
  apply crash_get; [reflexivity|]. apply appends_bind; [apply appends_pure; exact H|st|]. intros [[? ?] ?] v Hv.
  apply appends_bind; [apply appends_pure; exact Hv|st|]. intros [[? ?] ?] v' Hv'. apply appends_bind; [apply appends_seek; exact Hv'|st|].
  intros a u Hu. apply appends_if; apply appends_pure; exact Hu.
Qed.
Lemma appends_blockHeader a b c d e f w : at_end w -> crash_at prefix (writeBlockHeader a b c d e f) w (fun r v => at_end v /\ (forall x, r = Ok x -> x = 52)).
Proof.
  intros H. unfold writeBlockHeader. cb (@ends Z); [apply appends_seek; exact H|st| |intros ? ? K; split; [exact K|discriminate]|intros ? K; split; [exact K|discriminate]].
  intros s v Hv _. apply crash_get; [reflexivity|].
  cb (@ends Z); [apply appends_writeAll; exact Hv|st| |intros ? ? K; split; [exact K|discriminate]|intros ? K; split; [exact K|discriminate]].
  intros s1 v1 Hv1 _.
  cb (@ends Z); [apply appends_seek; exact Hv1|st| |intros ? ? K; split; [exact K|discriminate]|intros ? K; split; [exact K|discriminate]].
  intros s2 v2 Hv2 _. destruct (Z.eqb_spec (s2 - s) 52) as [E|E].
  - apply crash_pure; [apply prefix_order|]. split; [exact Hv2|]. intros x K. injection K as <-. exact E.
  - apply crash_pure; [apply prefix_order|]. split; [exact Hv2|]. discriminate.
Qed.

Definition sizes_positive (enc : Z) (ids vals : list Z) : Prop :=
  (forall a b s, encodeIDs enc ids = Ok (a, b, s) -> s <> 0) /\ (forall a b s, encodeValues enc vals = Ok (a, b, s) -> s <> 0).

(** The four bytes written twice. *)
Lemma overwrite_same d x k bs : zlen x = 4 -> prefix (d ++ x) (overwrite (d ++ x) (zlen d) (ztake k (x ++ bs))).
Proof.
  intros Hx. pose proof (zlen_nonneg bs) as Hb. destruct (Z.le_gt_cases k 4) as [Hk|Hk].
  - rewrite ztake_app_l by lia. exists []. rewrite app_nil_r. unfold overwrite. destruct (ztake k x) as [|y l] eqn:E; [reflexivity|]. rewrite <- E.
    rewrite ztake_app_exact by reflexivity. rewrite zeros_nil by (rewrite zlen_app; lia). cbn [app]. f_equal.
    assert (0 < k) by (destruct (Z.le_gt_cases k 0); [rewrite ztake_0 in E by lia; discriminate|lia]).
    rewrite zdrop_app_r by (pose proof (zlen_nonneg (ztake k x)); lia). rewrite zlen_ztake. 
    match goal with |- context [zdrop ?z x] => replace z with k by lia end. apply ztake_zdrop.
  - rewrite ztake_app_r by lia. rewrite overwrite_tail by (try reflexivity; rewrite zlen_app; pose proof (zlen_nonneg (ztake (k - zlen x) bs)); lia).
    exists (ztake (k - zlen x) bs). rewrite app_assoc. reflexivity.
Qed.

Lemma crash_overlap x bs w d : f_open (w_file w) = true -> bytes_of w = d ++ x -> zlen x = 4 -> f_pos (w_file w) = zlen d ->
  crash_at prefix (write (x ++ bs)) w ends.
Proof.
  intros Ho Hd Hx Hp.
  assert (T : overwrite (bytes_of w) (f_pos (w_file w)) (x ++ bs) = (d ++ x) ++ bs).
  { rewrite Hd, Hp, overwrite_tail by (try reflexivity; rewrite zlen_app; pose proof (zlen_nonneg bs); lia). rewrite app_assoc. reflexivity. }
  assert (W : forall k, overwrite (d ++ x) (zlen d) (ztake k (x ++ bs)) = (d ++ x) ++ ztake (k - 4) bs).
  { intros k. destruct (Z.le_gt_cases k 4) as [Hk|Hk].
    - rewrite ztake_app_l by lia. rewrite (ztake_0 (k - 4)) by lia. destruct (overwrite_same d x k [] Hx) as [y E]. rewrite app_nil_r in E. rewrite E.
      assert (Hl : zlen (overwrite (d ++ x) (zlen d) (ztake k x)) = zlen (d ++ x)).
      { rewrite zlen_overwrite by (pose proof (zlen_nonneg d); pose proof (zlen_nonneg x); try (right; rewrite zlen_app); lia).
        rewrite zlen_app, zlen_ztake. destruct (ztake k x); lia. }
      rewrite E, zlen_app in Hl. assert (y = []) as -> by (destruct y; [reflexivity|rewrite zlen_cons in Hl; pose proof (zlen_nonneg y); lia]). reflexivity.
    - rewrite ztake_app_r by lia. rewrite overwrite_tail by (try reflexivity; rewrite zlen_app; pose proof (zlen_nonneg (ztake (k - zlen x) bs)); lia).
      rewrite Hx, app_assoc. reflexivity. }
  apply crash_write; [apply prefix_order|exact Ho| | |].
  - intros k. rewrite T, Hd, Hp, W. apply prefix_ztake.
  - intros k k' L. rewrite Hd, Hp, !W. destruct (ztake_mono bs (k - 4) (k' - 4) ltac:(lia)) as [z ->]. apply prefix_tail. exists z. rewrite app_assoc. reflexivity.
  - split; [exact Ho|]. unfold bytes_of in *. cbn [withf set_file w_file write_at f_pos f_data]. rewrite T, Hp, !zlen_app. lia.
Qed.

Lemma appends_internal ids vals w : at_end w -> sizes_positive (w_enc w) ids vals -> crash_at prefix (writeBlockInternal ids vals) w ends.
Proof.
  intros H [HI HV]. unfold writeBlockInternal, writeInt.
  cb (fun (r : res unit) v => at_end v /\ w_enc v = w_enc w); [|st| |intros e v [K _]; exact K|intros v [K _]; exact K].
  { apply crash_modify; [apply prefix_order|reflexivity|reflexivity|]. split; [exact H|reflexivity]. }
  intros _ v0 [H0 E0] _. apply crash_get; [reflexivity|]. cbv zeta. change (w_enc (withf v0 [])) with (w_enc v0). rewrite E0.
  cb (fun (r : res (list Z * list (list Z) * Z)) v => at_end v /\ r = encodeIDs (w_enc w) ids); [apply crash_pure; [apply prefix_order|split; [exact H0|reflexivity]]|st| |intros e v [K _]; exact K|intros v [K _]; exact K].
  intros [[ei eb] is_] v1 [H1 EI] _. apply eq_sym in EI. apply HI in EI.
  cb (fun (r : res (list Z * list (list Z) * Z)) v => at_end v /\ r = encodeValues (w_enc w) vals); [apply crash_pure; [apply prefix_order|split; [exact H1|reflexivity]]|st| |intros e v [K _]; exact K|intros v [K _]; exact K].
  intros [[ev evb] vs_] v2 [H2 EV] _. apply eq_sym in EV. apply HV in EV.
  destruct (calculateMinMax ids) as [minID maxID]. destruct (calculateMinMax vals) as [minV maxV].
  apply appends_bind; [apply appends_seek; exact H2|st|]. intros start v3 H3.
  apply appends_bind; [apply appends_modify; [reflexivity|reflexivity|exact H3]|st|]. intros _ v4 H4.
  cb (fun (r : res Z) v => at_end v /\ (forall x, r = Ok x -> x = 52)); [apply appends_blockHeader; exact H4|st| |intros e v [K _]; exact K|intros v [K _]; exact K].
  intros hw v5 [H5 Ehw] _. specialize (Ehw hw eq_refl). subst hw.
  apply appends_bind; [apply appends_write; exact H5|st|]. intros _ v6 H6.
  apply appends_bind; [apply appends_write; exact H6|st|]. intros _ v7 H7.
  apply appends_bind; [apply appends_seek; exact H7|st|]. intros _ v8 H8.
  cb (fun (r : res Z) v => at_end v /\ bytes_of v = (bytes_of v8 ++ le_bytes 4 0) ++ le_bytes 4 0); [|st| |intros e v [K _]; exact K|intros v [K _]; exact K].
  { apply crash_append; [exact H8|]. intros v Hv Ev. split; [exact Hv|]. rewrite Ev, <- app_assoc. reflexivity. }
  intros _ v9 [[O9 P9] B9] _. change (52 + 4 + 4 + 8) with 68. change (blockHeaderSize - 68) with (-4). change (68 + -4) with 64. change (negb (64 =? blockHeaderSize)) with false. cbv iota.
  destruct (Z.eqb_spec is_ 0) as [E|_]; [contradiction|]. destruct (Z.eqb_spec vs_ 0) as [E|_]; [contradiction|]. cbv iota.
  cb (fun (r : res Z) v => (exists a, r = Ok a) /\ f_open (w_file v) = true /\ bytes_of v = (bytes_of v8 ++ le_bytes 4 0) ++ le_bytes 4 0 /\ f_pos (w_file v) = zlen (bytes_of v8 ++ le_bytes 4 0));
    [|st| |intros e v [[a K] _]; discriminate K|intros v [[a K] _]; discriminate K].
  { assert (L : f_pos (w_file v9) = zlen (bytes_of v8) + 8) by (rewrite P9, B9, !zlen_app; change (zlen (le_bytes 4 0)) with 4; lia).
    pose proof (zlen_nonneg (bytes_of v8)). apply crash_seek; [apply prefix_order|exact O9|cbv iota; lia|]. split; [eauto|]. split; [exact O9|]. split; [exact B9|].
    cbn [withf set_file w_file set_pos f_pos]. rewrite L, zlen_app. change (zlen (le_bytes 4 0)) with 4. lia. }
  intros _ v10 (_ & O10 & B10 & P10) _.
  apply appends_bind; [apply (crash_overlap (le_bytes 4 0) _ v10 (bytes_of v8 ++ le_bytes 4 0)); [exact O10|exact B10|reflexivity|exact P10]|st|].
  intros bw v11 H11. apply appends_if; [apply appends_pure; exact H11|].
  apply appends_bind; [apply appends_seek; exact H11|st|]. intros _ v12 H12.
  apply appends_bind; [apply appends_section; exact H12|st|]. intros ai v13 H13. apply appends_if; [apply appends_pure; exact H13|].
  apply appends_bind; [apply appends_section; exact H13|st|]. intros av v14 H14. apply appends_if; [apply appends_pure; exact H14|].
  apply appends_bind; [apply appends_seek; exact H14|st|]. intros fin v15 H15.
  apply appends_bind; [apply appends_if; [apply appends_write|apply appends_pure]; exact H15|st|]. intros _ v16 H16.
  apply appends_if; [apply appends_pure; exact H16|].
  apply appends_bind; [apply appends_modify; [reflexivity|reflexivity|exact H16]|st|]. intros _ v17 H17. apply appends_sync. exact H17.
Qed.

Lemma undeclared_delta e : ~ declared e -> usesDelta e = None.
Proof.
  unfold declared, usesDelta. intros H. change EncodingRaw with 0. change EncodingVarInt with 4. change EncodingVarIntID with 5. change EncodingDeltaID with 1.
  change EncodingDeltaValue with 2. change EncodingDeltaBoth with 3. change EncodingVarIntValue with 6. change EncodingVarIntBoth with 7.
  replace (e =? 0) with false by lia. replace (e =? 1) with false by lia. replace (e =? 2) with false by lia. replace (e =? 3) with false by lia.
  replace (e =? 4) with false by lia. replace (e =? 5) with false by lia. replace (e =? 6) with false by lia. replace (e =? 7) with false by lia. reflexivity.
Qed.
Lemma positive_sizes e ids vals : Forall is_u64 ids -> Forall is_i64 vals -> 1 <= zlen ids <= max_items -> 1 <= zlen vals <= max_items -> sizes_positive e ids vals.
Proof.
  intros Hi Hv Li Lv. destruct (Z.le_gt_cases 0 e) as [L|L]; [destruct (Z.le_gt_cases e 7) as [U|U]|].
  2,3: split; intros a b s K; unfold encodeIDs, encodeValues, encodeData in K; rewrite undeclared_delta in K by (unfold declared; lia); discriminate K.
  assert (D : declared e) by (unfold declared; lia). split; intros a b s K.
  - rewrite (encodeIDs_ok e ids D Hi Li) in K. injection K as _ _ <-. pose proof (id_claim_bounds e ids Hi). lia.
  - rewrite (encodeValues_ok e vals D Hv Lv) in K. injection K as _ _ <-. pose proof (val_claim_bounds e vals Hv). lia.
Qed.

Lemma appends_optimal ids vals idx : Forall (fun i => 1 <= i) idx -> forall o w, 1 <= o -> at_end w ->
  crash_at prefix (findOptimal ids vals idx o) w (fun r v => at_end v /\ (forall x, r = Ok x -> 1 <= x)).
Proof.
  induction 1 as [|i idx Hi Hx IH]; intros o w Ho H; cbn [findOptimal].
  - apply crash_pure; [apply prefix_order|]. split; [exact H|]. intros x K. injection K as <-. exact Ho.
  - eapply (crash_next prefix prefix_order _ (fun '(r, v) => match r with
        | Ok size => if size <=? w_target v then findOptimal ids vals idx i v else (Ok o, v)
        | Err _ => (Ok o, v) | Panic => (Panic, v) end)); [apply appends_estimate; exact H| |].
    + intros [[a|e|] u] D; [|auto|auto]. destruct (a <=? w_target u); [|auto]. apply (still_optimal ids vals idx i u D).
    + intros [a|e|] v HA F.
      * eapply crash_ext with (m' := if a <=? w_target v then findOptimal ids vals idx i else mret o); [intros fs; change (w_target (withf v fs)) with (w_target v); destruct (a <=? w_target v); reflexivity|].
        destruct (a <=? w_target v); [apply IH; assumption|]. apply (crash_pure _ prefix_order (Ok o)). split; [exact HA|]. intros x Q. injection Q as <-. exact Ho.
      * apply (crash_pure _ prefix_order (Ok o)). split; [exact HA|]. intros x Q. injection Q as <-. exact Ho.
      * apply (crash_pure _ prefix_order Panic). split; [exact HA|]. discriminate.
Qed.

Lemma appends_writeBlock ids vals w : typed_block ids vals -> at_end w -> crash_at prefix (WriteBlock ids vals) w ends.
Proof.
  intros (Ti & Tv & Li & Lv) H. unfold WriteBlock. destruct (Z.eqb_spec (zlen ids) (zlen vals)) as [E|E]; cbn [negb]; [|apply appends_pure; exact H].
  destruct (Z.eqb_spec (zlen ids) 0) as [Z0|Z0]; [apply appends_pure; exact H|]. pose proof (zlen_nonneg ids) as P.
  apply appends_bind; [apply appends_estimate; exact H|intros ?; apply still_get_bind; intros ?; apply still_if; [|apply still_internal]|].
  { apply still_bind; [apply still_optimal|intros ?]. apply still_bind; [apply still_internal|intros ?; apply still_fail]. }
  intros est v Hv. apply crash_get; [reflexivity|].
  apply appends_if; [|apply appends_internal; [exact Hv|apply positive_sizes; lia || assumption]].
  cb (fun (r : res Z) v => at_end v /\ (forall x, r = Ok x -> 1 <= x)).
  - apply appends_optimal; [|lia|exact Hv]. destruct (zseq (zlen ids)) as [|a l] eqn:Es; [constructor|]. cbn [tl].
    apply Forall_forall. intros i Hin.
    assert (Hs : zseq (zlen ids) = 0 :: map Z.of_nat (seq 1 (Z.to_nat (zlen ids) - 1))).
    { unfold zseq. destruct (Z.to_nat (zlen ids)) as [|n] eqn:En; [lia|]. cbn [seq map]. rewrite Nat.sub_succ, Nat.sub_0_r. reflexivity. }
    rewrite Hs in Es. injection Es as _ <-. apply in_map_iff in Hin. destruct Hin as (n & <- & Hn). apply in_seq in Hn. lia.
  - intros ?. apply still_bind; [apply still_internal|intros ?; apply still_fail].
  - intros o u [Hu Ho] _. specialize (Ho o eq_refl). apply appends_bind; [|st|intros ? ? Hx; apply appends_pure; exact Hx].
    apply appends_internal; [exact Hu|]. apply positive_sizes; try (apply Forall_ztake; assumption); rewrite zlen_ztake; lia.
  - intros e u [K _]. exact K.
  - intros u [K _]. exact K.
Qed.

(** ** Finalize *)
Lemma appends_bitmap w : at_end w -> crash_at prefix writeGlobalIDBitmap w (fun r v => at_end v /\ zlen (bytes_of w) < zlen (bytes_of v) /\ exists a, r = Ok a).
Proof.
  intros H. unfold writeGlobalIDBitmap, writeInt.
  cb (fun (r : res Z) v => at_end v /\ bytes_of v = bytes_of w /\ exists a, r = Ok a); [apply crash_seek0; [apply prefix_order|exact H|]; repeat split; try apply H; eauto|st| |intros e v (_ & _ & [a K]); discriminate K|intros v (_ & _ & [a K]); discriminate K].
  intros off v0 (H0 & B0 & _) _. apply crash_get; [reflexivity|]. cbv zeta.
  cb (fun (r : res Z) v => at_end v /\ bytes_of v = bytes_of w ++ le_bytes 4 (u32 (zlen (bm_ser (w_ids (withf v0 []))))) /\ exists a, r = Ok a);
    [|st| |intros e v (_ & _ & [a K]); discriminate K|intros v (_ & _ & [a K]); discriminate K].
  { apply crash_append; [exact H0|]. intros v Hv Bv. rewrite B0 in Bv. eauto. }
  intros n1 v1 (H1 & B1 & _) _.
  cb (fun (r : res Z) v => at_end v /\ bytes_of v = bytes_of v1 ++ bm_ser (w_ids (withf v0 [])) /\ exists a, r = Ok a);
    [|st| |intros e v (_ & _ & [a K]); discriminate K|intros v (_ & _ & [a K]); discriminate K].
  { apply crash_append; [exact H1|]. intros v Hv Bv. eauto. }
  intros n2 v2 (H2 & B2 & _) _.
  cb (fun (r : res Z) v => at_end v /\ bytes_of v = bytes_of v2 /\ exists a, r = Ok a); [apply crash_seek0; [apply prefix_order|exact H2|]; repeat split; try apply H2; eauto|st| |intros e v (_ & _ & [a K]); discriminate K|intros v (_ & _ & [a K]); discriminate K].
  intros cur v3 (H3 & B3 & _) _. apply crash_pure; [apply prefix_order|]. split; [exact H3|]. split; [|eauto]. change (bytes_of (withf v3 [])) with (bytes_of v3). rewrite B3, B2, B1, !zlen_app, zlen_le_bytes.
  pose proof (zlen_nonneg (bm_ser (w_ids (withf v0 [])))). lia.
Qed.

Definition low (p : Z) (w : writer) : Prop := f_open (w_file w) = true /\ 64 <= zlen (bytes_of w) /\ 0 <= f_pos (w_file w) <= p.
Lemma low_overwrite d p bs : 0 <= p -> p + zlen bs <= 60 -> 64 <= zlen d ->
  zlen (overwrite d p bs) = zlen d /\ zdrop 60 (overwrite d p bs) = zdrop 60 d.
Proof.
  intros Hp Hb Hd. pose proof (zlen_nonneg bs). split; [rewrite zlen_overwrite by (try right; lia); destruct bs; lia|].
  unfold overwrite. destruct bs as [|b bs]; [reflexivity|]. set (l := b :: bs) in *. rewrite zeros_nil by lia. cbn [app].
  rewrite zdrop_app_r by (rewrite zlen_ztake; lia). rewrite zlen_ztake. rewrite zdrop_app_r by lia. rewrite zdrop_zdrop by lia. f_equal. lia.
Qed.
Lemma low_tail d p bs : 0 <= p -> p + zlen bs <= 60 -> 64 <= zlen d -> tail_prefix d (overwrite d p bs).
Proof. intros Hp Hb Hd. destruct (low_overwrite d p bs Hp Hb Hd) as [L T]. split; [lia|]. exists []. rewrite T, app_nil_r. reflexivity. Qed.
Lemma low_back d p bs k : 0 <= p -> p + zlen bs <= 60 -> 64 <= zlen d -> tail_prefix (overwrite d p (ztake k bs)) (overwrite d p bs).
Proof.
  intros Hp Hb Hd. assert (Hk : zlen (ztake k bs) <= zlen bs) by (rewrite zlen_ztake; lia).
  destruct (low_overwrite d p bs Hp Hb Hd) as [L T]. destruct (low_overwrite d p (ztake k bs) Hp ltac:(lia) Hd) as [L' T'].
  split; [lia|]. exists []. rewrite T, T', app_nil_r. reflexivity.
Qed.
Lemma crash_low l : forall acc w p, low p w -> p + zlen (concat l) <= 60 ->
  crash_at tail_prefix (writeAll l acc) w (fun r v => low 60 v /\ zlen (bytes_of v) = zlen (bytes_of w) /\ exists a, r = Ok a).
Proof.
  induction l as [|bs l IH]; intros acc w p (Ho & Hl & Hp) Hc; cbn [writeAll concat] in *.
  - apply crash_pure; [apply tp_order|]. change (zlen (@nil Z)) with 0 in Hc. split; [split; [exact Ho|split; [exact Hl|cbn; lia]]|]. split; [reflexivity|eauto].
  - rewrite zlen_app in Hc. pose proof (zlen_nonneg bs) as Pb. pose proof (zlen_nonneg (concat l)) as Pl.
    eapply crash_bind with (Q1 := fun r v => low (p + zlen bs) v /\ zlen (bytes_of v) = zlen (bytes_of w) /\ exists a, r = Ok a);
      [apply tp_order| |intros ?; apply still_writeAll| |intros e v (_ & _ & [a K]); discriminate K|intros v (_ & _ & [a K]); discriminate K].
    + apply crash_write; [apply tp_order|exact Ho| | |].
      * intros k. split; [apply low_tail|apply low_back]; try rewrite zlen_ztake; lia.
      * intros k k' _. destruct (low_overwrite (bytes_of w) (f_pos (w_file w)) (ztake k bs) ltac:(lia) ltac:(rewrite zlen_ztake; lia) Hl) as [L1 T1].
        destruct (low_overwrite (bytes_of w) (f_pos (w_file w)) (ztake k' bs) ltac:(lia) ltac:(rewrite zlen_ztake; lia) Hl) as [L2 T2].
        split; [lia|]. exists []. rewrite T1, T2, app_nil_r. reflexivity.
      * destruct (low_overwrite (bytes_of w) (f_pos (w_file w)) bs ltac:(lia) ltac:(lia) Hl) as [L _]. unfold bytes_of in *.
        split; [split; [exact Ho|]|split; [exact L|eauto]]. unfold bytes_of. cbn. split; [lia|lia].
    + intros a v (Hv & Hb & _) _. eapply crash_post; [apply (IH (acc + a) v (p + zlen bs) Hv); lia|]. cbv beta. intros r u (K1 & K2 & K3). split; [exact K1|]. split; [lia|exact K3].
Qed.
Lemma crash_header now c t e o s w : low 0 w ->
  crash_at tail_prefix (header_part now c t e o s) w (fun r v => at_end v /\ zlen (bytes_of v) = zlen (bytes_of w) /\ exists a, r = Ok a).
Proof.
  intros H. unfold header_part.
  eapply crash_bind with (Q1 := fun r v => low 60 v /\ zlen (bytes_of v) = zlen (bytes_of w) /\ exists a, r = Ok a);
    [apply tp_order|apply (crash_low _ _ w 0 H); cbn; lia|intros ?; apply still_seek| |intros e' v (_ & _ & [a K]); discriminate K|intros v (_ & _ & [a K]); discriminate K].
  intros a v ((Ho & Hl & Hp) & Hb & _) _. apply crash_seek; [apply tp_order|exact Ho|cbv iota; lia|].
  split; [split; [exact Ho|cbn; reflexivity]|]. split; [exact Hb|eauto].
Qed.

Lemma crash_longer {A} (R : list Z -> list Z -> Prop) (m : M A) w Q : order R -> crash_at R m w Q -> crash_at R m w (fun r v => Q r v /\ zlen (bytes_of w) <= zlen (bytes_of v)).
Proof.
  intros HR C. eapply crash_post; [apply (crash_from R HR); exact C|]. cbv beta. intros r v [HQ K]. split; [exact HQ|]. apply (proj2 (proj2 HR)) in K. apply K.
Qed.
Lemma appends_blockFooter p s x w : at_end w -> crash_at prefix (writeBlockFooter p s x) w ends.
Proof.
  intros H. unfold writeBlockFooter. apply appends_bind; [apply appends_seek; exact H|st|]. intros ? v0 H0.
  apply appends_bind; [apply appends_writeAll; exact H0|st|]. intros ? v1 H1. apply appends_bind; [apply appends_seek; exact H1|st|]. intros ? v2 H2.
  apply appends_if; apply appends_pure; exact H2.
Qed.
Lemma appends_entries idx : forall w, at_end w -> crash_at prefix (writeFooterEntries idx) w ends.
Proof.
  induction idx as [|i idx IH]; intros w H; cbn [writeFooterEntries]; [apply appends_pure; exact H|]. apply crash_get; [reflexivity|].
  cbn [w_positions w_sizes w_stats withf set_file].
  destruct (nth_error (w_positions w) _); [|apply appends_pure; exact H]. destruct (nth_error (w_sizes w) _); [|apply appends_pure; exact H].
  destruct (nth_error (w_stats w) _); [|apply appends_pure; exact H]. apply appends_bind; [apply appends_blockFooter; exact H|intros ?; apply still_entries|].
  intros _ v Hv. apply IH. exact Hv.
Qed.
Lemma appends_meta s w : at_end w -> crash_at prefix (
  mbind (seek 0 SeekCurrent) (fun footerEnd =>
  mbind (writeInt 8 (u64 (footerEnd - s))) (fun _ =>
  mbind (writeInt 8 0) (fun _ =>
  mbind (writeInt 8 MagicNumber) (fun _ =>
  mbind (seek 0 SeekCurrent) (fun footerMetaEnd =>
  if negb (footerMetaEnd - footerEnd =? 24) then mfail ErrMismatch
  else if negb (footerMetaEnd - s =? (footerEnd - s) + 24) then mfail ErrMismatch
  else sync)))))) w ends.
Proof.
  intros H. unfold writeInt. apply appends_bind; [apply appends_seek; exact H|st|]. intros fe v0 H0.
  apply appends_bind; [apply appends_write; exact H0|st|]. intros ? v1 H1. apply appends_bind; [apply appends_write; exact H1|st|]. intros ? v2 H2.
  apply appends_bind; [apply appends_write; exact H2|st|]. intros ? v3 H3. apply appends_bind; [apply appends_seek; exact H3|st|]. intros ? v4 H4.
  apply appends_if; [apply appends_pure; exact H4|]. apply appends_if; [apply appends_pure; exact H4|apply appends_sync; exact H4].
Qed.
Lemma crash_finish c ps w : at_end w -> crash_at prefix (finish c ps) w (fun _ v => at_end v /\ zlen (bytes_of w) < zlen (bytes_of v)).
Proof.
  intros H. unfold finish.
  pose (K := fun (A : Type) (r : res A) v => (ends r v /\ zlen (bytes_of w) <= zlen (bytes_of v)) /\ exists a, r = Ok a).
  assert (HE : forall A e v, K A (Err e) v -> at_end v /\ zlen (bytes_of w) < zlen (bytes_of v)) by (intros A e v (_ & [a Q]); discriminate Q).
  assert (HP : forall A v, K A Panic v -> at_end v /\ zlen (bytes_of w) < zlen (bytes_of v)) by (intros A v (_ & [a Q]); discriminate Q).
  pose proof still_entries as SE.
  assert (still_rest : forall s u, still (mbind (if c >? 0 then if negb (zlen ps =? c) then mfail ErrPositions else writeFooterEntries (zseq c) else mret u) (fun _ : unit =>
      mbind (seek 0 SeekCurrent) (fun footerEnd =>
      mbind (writeInt 8 (u64 (footerEnd - s))) (fun _ =>
      mbind (writeInt 8 0) (fun _ =>
      mbind (writeInt 8 MagicNumber) (fun _ =>
      mbind (seek 0 SeekCurrent) (fun footerMetaEnd =>
      if negb (footerMetaEnd - footerEnd =? 24) then mfail ErrMismatch
      else if negb (footerMetaEnd - s =? (footerEnd - s) + 24) then mfail ErrMismatch
      else sync)))))))).
  { intros s u. unfold writeInt. st. }
  cb (K Z); [| |  |apply HE|apply HP].
  { apply crash_seek0; [apply prefix_order|exact H|]. split; [split; [exact H|unfold bytes_of; cbn; lia]|eauto]. }
  { intros ?. unfold writeInt. st. }
  intros cur v0 [[H0 L0] _] _.
  cb (K Z); [| |  |apply HE|apply HP].
  { destruct (calculatePadding cur PageSize >? 0).
    - apply crash_append; [exact H0|]. intros v Hv Bv. split; [split; [exact Hv|rewrite Bv, zlen_app; pose proof (zlen_nonneg (zeros (calculatePadding cur PageSize))); lia]|eauto].
    - apply crash_pure; [apply prefix_order|]. split; [split; [exact H0|exact L0]|eauto]. }
  { intros ?. unfold writeInt. st. }
  intros n1 v1 [[H1 L1] _] _.
  cb (K Z); [| |  |apply HE|apply HP].
  { apply crash_seek0; [apply prefix_order|exact H1|]. split; [split; [exact H1|exact L1]|eauto]. }
  { intros ?. unfold writeInt. st. }
  intros s v2 [[H2 L2] _] _.
  cb (fun (r : res Z) v => (at_end v /\ zlen (bytes_of w) < zlen (bytes_of v)) /\ exists a, r = Ok a); [| | |intros ? ? [_ [a Q]]; discriminate Q|intros ? [_ [a Q]]; discriminate Q].
  { apply crash_append; [exact H2|]. intros v Hv Bv. split; [split; [exact Hv|rewrite Bv, zlen_app, zlen_le_bytes; lia]|eauto]. }
  { intros ?. apply still_rest. }
  intros n3 v3 [[H3 L3] _] _.
  eapply crash_post; [apply crash_longer; [apply prefix_order|]|intros r v [Q1 Q2]; split; [exact Q1|lia]].
  apply appends_bind; [|intros ?; unfold writeInt; st|intros ? v Hv; apply appends_meta; exact Hv].
  clear still_rest. destruct (c >? 0); [|apply appends_pure; exact H3]. destruct (negb _); [apply appends_pure; exact H3|apply appends_entries; exact H3].
Qed.

(** A run under a finer relation: what matters is where it starts and ends. *)
Lemma crash_within {A} (R R' : list Z -> list Z -> Prop) (m : M A) w (Q : res A -> writer -> Prop) : order R ->
  (forall r v a, Q r v -> R (bytes_of w) a -> R a (bytes_of v) -> R' (bytes_of w) a /\ R' a (bytes_of v)) -> crash_at R m w Q -> crash_at R' m w Q.
Proof.
  intros HR H (r & v & E & F & HQ & (c & B & S1 & S2 & S3 & S4)). exists r, v. split; [exact E|]. split; [exact F|]. split; [exact HQ|].
  exists c, B. split; [exact S1|]. split; [exact S2|]. split; [|exact S4]. intros n k. destruct (S3 n k) as [K1 K2]. eapply H; eassumption.
Qed.
Lemma crash_mono {A} (R R' : list Z -> list Z -> Prop) (m : M A) w Q : (forall a b, R a b -> R' a b) -> crash_at R m w Q -> crash_at R' m w Q.
Proof.
  intros H (r & v & E & F & HQ & (c & B & S1 & S2 & S3 & S4)). exists r, v. split; [exact E|]. split; [exact F|]. split; [exact HQ|].
  exists c, B. split; [exact S1|]. split; [exact S2|]. split; [|exact S4]. intros n k. destruct (S3 n k) as [K1 K2]. auto.
Qed.
Lemma crash_exact {A} (R : list Z -> list Z -> Prop) (m : M A) w Q : crash_at R m w Q -> exists r v, Q r v /\ crash_at R m w (fun r' v' => r' = r /\ v' = v).
Proof.
  intros (r & v & E & F & HQ & K). exists r, v. split; [exact HQ|]. exists r, v. split; [exact E|]. split; [exact F|]. split; [auto|exact K].
Qed.

Lemma crash_finalize now w : at_end w -> 64 <= zlen (bytes_of w) -> crash_at part (Finalize now) w ends.
Proof.
  intros H H64. destruct (crash_exact _ _ _ _ (appends_bitmap w H)) as (r1 & v1 & (H1 & G1 & [[off size] ->]) & C1).
  set (L := zlen (bytes_of v1)) in *.
  pose (R := fun d d' => tail_prefix d d' /\ (zlen d = zlen d' -> zlen d <> L -> d = d')).
  assert (Rrefl : forall d, R d d) by (intros d; split; [apply tp_refl|auto]).
  assert (Rtrans : forall a b c, R a b -> R b c -> R a c).
  { intros a b c [P1 P2] [Q1 Q2]. split; [eapply tp_trans; eassumption|]. intros E N. destruct P1 as [P1 _]. destruct Q1 as [Q1 _].
    rewrite P2 by lia. apply Q2; lia. }
  assert (Rord : order R) by (split; [exact Rrefl|split; [exact Rtrans|intros a b [K _]; exact K]]).
  assert (Rpre : forall a b, prefix a b -> R a b) by (intros a b P; split; [apply prefix_tail; exact P|intros E _; apply prefix_part; assumption]).
  assert (C : crash_at R (Finalize now) w (fun _ v => at_end v /\ L < zlen (bytes_of v))).
  { assert (C : crash_at R (mbind writeGlobalIDBitmap (fun '(off, size) => mbind (seek 0 SeekStart) (fun _ => mbind mget (fun u =>
      mbind (header_part now (w_blockCount u) (w_target u) (w_enc u) off size) (fun _ => finish (w_blockCount u) (w_positions u)))))) w (fun _ v => at_end v /\ L < zlen (bytes_of v))).
    { eapply crash_bind; [exact Rord|apply (crash_mono prefix R); [exact Rpre|exact C1]| | | |].
      - intros [o s]. apply still_bind; [apply still_seek|intros ?]. apply still_get_bind. intros u. apply still_bind; [apply still_header|intros ?]. apply still_finish.
      - intros [o s] v [_ ->] _.
        eapply crash_bind with (Q1 := fun r u => (exists a, r = Ok a) /\ low 0 u /\ zlen (bytes_of u) = L); [exact Rord| | | |intros e u [[a K] _]; discriminate K|intros u [[a K] _]; discriminate K].
        + apply crash_seek; [exact Rord|apply H1|cbv iota; lia|]. split; [eauto|]. split; [split; [apply H1|]|reflexivity]. unfold bytes_of. cbn. split; [fold (bytes_of v1); fold L; lia|lia].
        + intros ?. apply still_get_bind. intros u. apply still_bind; [apply still_header|intros ?]. apply still_finish.
        + intros _ v2 (_ & Hl & Ll) _. apply crash_get; [reflexivity|].
          eapply crash_bind with (Q1 := fun r u => at_end u /\ zlen (bytes_of u) = L /\ exists a, r = Ok a); [exact Rord| | | |intros e u (_ & _ & [a K]); discriminate K|intros u (_ & _ & [a K]); discriminate K].
          * eapply crash_post; [eapply (crash_within tail_prefix R); [apply tp_order| |apply (crash_header now _ _ _ o s v2 Hl)]|].
            { cbv beta. intros r u a (_ & Q2 & _) [A1 A2] [B1 B2]. split; (split; [split; assumption|]); intros _ K; exfalso; apply K; lia. }
            cbv beta. intros r u (Q1 & Q2 & Q3). split; [exact Q1|]. split; [lia|exact Q3].
          * intros ?. apply still_finish.
          * intros _ v3 (H3 & L3 & _) _. rewrite <- L3. apply (crash_mono prefix R); [exact Rpre|]. apply crash_finish. exact H3.
      - intros e v [K _]. discriminate K.
      - intros v [K _]. discriminate K. }
    eapply crash_ext; [|exact C]. intros fs. apply Finalize_split. }
  eapply crash_post; [eapply (crash_within R part); [exact Rord| |exact C]|]; [|intros r v [K _]; exact K]. cbv beta.
  intros r v a [_ HL] [A1 A2] [B1 B2]. split; (split; [assumption|]); [intros Q; apply A2; lia|intros Q; apply B2; lia].
Qed.

(** ** Calls and histories *)
Definition ready (w : writer) : Prop := (at_end w /\ 64 <= zlen (bytes_of w)) \/ f_open (w_file w) = false.
Lemma crash_call c w : typed_call c -> at_end w -> 64 <= zlen (bytes_of w) -> crash_at part (run_call c) w (fun _ v => ready v).
Proof.
  assert (HL : forall A (m : M A) (P : res A -> writer -> Prop), 64 <= zlen (bytes_of w) -> crash_at part m w P -> crash_at part m w (fun r v => P r v /\ 64 <= zlen (bytes_of v))).
  { intros A m P L C. eapply crash_post; [apply (crash_longer part); [apply part_order|exact C]|]. cbv beta. intros r v [K1 K2]. split; [exact K1|lia]. }
  assert (HT : forall A (m : M A), 64 <= zlen (bytes_of w) -> crash_at part m w ends -> crash_at part (mbind m (fun _ => mret 0)) w (fun _ v => ready v)).
  { intros A m L C. apply (HL _ _ _ L) in C. eapply crash_bind; [apply part_order|exact C|st| | |].
    - intros a v [K1 K2] _. apply crash_pure; [apply part_order|]. left. split; assumption.
    - intros e v [K1 K2]. left. split; assumption.
    - intros v [K1 K2]. left. split; assumption. }
  intros HT' H H64.
  destruct c as [ids vals|ids vals|now|now|]; cbn [run_call].
  - apply HT; [exact H64|]. apply (crash_mono prefix part); [apply prefix_part|]. apply appends_writeBlock; assumption.
  - eapply crash_post; [apply (HL _ _ (@ends Z) H64); apply (crash_mono prefix part); [apply prefix_part|apply appends_estimate; exact H]|]. intros r v [K1 K2]. left. split; assumption.
  - apply HT; [exact H64|]. apply crash_finalize; assumption.
  - unfold FinalizeAndClose. eapply crash_bind with (Q1 := fun _ v => ready v); [apply part_order| |st| |auto|auto].
    + eapply crash_bind; [apply part_order|apply (HL _ _ (@ends unit) H64); apply crash_finalize; assumption|intros ?; apply still_close| | |].
      * intros a v [K1 K2] _. apply crash_close; [apply part_order|apply K1|]. intros u Hu. right. exact Hu.
      * intros e v [K1 K2]. left. split; assumption.
      * intros v [K1 K2]. left. split; assumption.
    + intros a v Hv _. apply crash_pure; [apply part_order|]. exact Hv.
  - unfold Close. eapply crash_bind with (Q1 := fun _ v => ready v); [apply part_order| |st| |auto|auto].
    + apply crash_close; [apply part_order|apply H|]. intros v Hv. right. exact Hv.
    + intros a v Hv _. apply crash_pure; [apply part_order|]. exact Hv.
Qed.
Lemma closed_bytes cs w : f_open (w_file w) = false -> bytes_of (snd (run_calls cs w)) = bytes_of w.
Proof. intros H. destruct (run_calls_closed cs w H) as [K _]. rewrite K. reflexivity. Qed.
Lemma inert_calls cs : inert wfile w_file (fun x : res Z * writer => snd (run_calls cs (snd x))).
Proof.
  intros [r0 u] D. unfold wfile in *. cbn [snd] in *. apply (dead_calls cs u D).
Qed.
(** Every moment of a run of calls. *)
Theorem stops_calls cs : Forall typed_call cs -> forall w, ready w -> f_faults (w_file w) = [] ->
  let v := snd (run_calls cs w) in
  f_faults (w_file v) = [] /\ stops part w_file (fun fs => snd (run_calls cs (withf w fs))) (fun fs => withf v fs) (bytes_of w) (bytes_of v).
Proof.
  induction 1 as [|c cs Hc Hcs IH]; intros w Hw F0.
  { split; [exact F0|]. apply stops_none; [apply part_order|]. reflexivity. }
  destruct Hw as [[H H64]|Hcl].
  2:{ cbv zeta. destruct (run_calls_closed (c :: cs) w Hcl) as [-> _]. split; [exact F0|]. apply stops_none; [apply part_order|]. intros fs. apply (run_calls_closed (c :: cs) (withf w fs) Hcl). }
  destruct (crash_call c w Hc H H64) as (r & v & E & F & HQ & K). rewrite <- F0, withf_id in E.
  specialize (IH v HQ F). cbv zeta in *. rewrite snd_calls, E. cbn [snd]. destruct IH as [F1 IH]. split; [exact F1|].
  eapply stops_ext; [intros fs; symmetry; apply snd_calls|intros fs; reflexivity|].
  eapply (stops_seq part part_order wfile w_file _ _ (fun x => snd (run_calls cs (snd x)))); [exact K|apply inert_calls|exact IH].
Qed.
(** What the file holds when the first [n] calls and [k] bytes of the next are done. *)
Theorem crash_calls cs w n k j : Forall typed_call cs -> ready w -> f_faults (w_file w) = [] ->
  let u := snd (run_calls cs (withf w (stop n k j))) in f_faults (w_file u) <> [] ->
  part (bytes_of w) (bytes_of u) /\ part (bytes_of u) (bytes_of (snd (run_calls cs w))).
Proof. intros Hcs Hw F0 u HN. destruct (stops_calls cs Hcs w Hw F0) as [_ K]. exact (stops_part part part_order _ _ _ _ _ n k j K (fun _ => eq_refl) HN). Qed.
Theorem crash_later cs w n k j n' k' j' : Forall typed_call cs -> ready w -> f_faults (w_file w) = [] -> earlier n k n' k' ->
  let u := snd (run_calls cs (withf w (stop n k j))) in let u' := snd (run_calls cs (withf w (stop n' k' j'))) in
  f_faults (w_file u) <> [] -> f_faults (w_file u') <> [] -> tail_prefix (bytes_of u) (bytes_of u').
Proof. intros Hcs Hw F0 HE u u' HN HN'. destruct (stops_calls cs Hcs w Hw F0) as [_ K]. exact (stops_later part part_order _ _ _ _ _ n k j n' k' j' K (fun _ => eq_refl) HE HN HN'). Qed.
End Calls.
