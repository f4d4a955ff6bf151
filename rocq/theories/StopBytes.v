(** Every file content is made of bytes; the crash theorem. *)
From Verif Require Import Machine MachineFacts Encoding EncodingFacts Sroar FileIO FileFacts Writer Spec WriterFacts BlockFacts FinalFacts RunFacts
  Reader ArbFacts StopSpec StopFacts StopCalls.
From Coq Require Import Lia ZifyBool.
Local Open Scope Z_scope.
Ltac Zify.zify_post_hook ::= Z.div_mod_to_equations.

Section Bytes.
Context {Srr : Sroar} {Laws : SroarLaws Srr}.
Definition bytely {A} (m : M A) : Prop := forall w, Forall is_byte (bytes_of w) -> Forall is_byte (bytes_of (snd (m w))).
Lemma by_pure {A} (r : res A) : bytely (fun w => (r, w)). Proof. intros w H. exact H. Qed.
Lemma by_get : bytely mget. Proof. intros w H. exact H. Qed.
Lemma by_modify f : (forall w, w_file (f w) = w_file w) -> bytely (mmodify f).
Proof. intros Hf w H. cbn. unfold bytes_of in *. rewrite Hf. exact H. Qed.
Lemma by_bind {A B} (m : M A) (k : A -> M B) : bytely m -> (forall a, bytely (k a)) -> bytely (mbind m k).
Proof. intros Hm Hk w H. unfold mbind. specialize (Hm w H). destruct (m w) as [[a|e|] v]; [apply Hk; exact Hm|exact Hm|exact Hm]. Qed.
Lemma by_if {A} (b : bool) (m n : M A) : bytely m -> bytely n -> bytely (if b then m else n). Proof. destruct b; auto. Qed.
Lemma by_seek o wh : bytely (seek o wh).
Proof.
  intros w H. unfold seek, mfile, file_seek. destruct (f_open (w_file w)); [|exact H]. destruct (f_faults (w_file w)) as [|[|k] fs]; [destruct (_ <? 0); exact H|destruct (_ <? 0); exact H|exact H].
Qed.
Lemma by_sync : bytely sync.
Proof. intros w H. unfold sync, mfile, file_sync. destruct (f_open (w_file w)); [|exact H]. destruct (f_faults (w_file w)) as [|[|k] fs]; exact H. Qed.
Lemma by_close : bytely closeFile.
Proof. intros w H. unfold closeFile, mfile, file_close. destruct (f_open (w_file w)); [|exact H]. destruct (f_faults (w_file w)) as [|[|k] fs]; exact H. Qed.
Lemma overwrite_bytes d p bs : Forall is_byte d -> Forall is_byte bs -> Forall is_byte (overwrite d p bs).
Proof.
  intros Hd Hb. unfold overwrite. destruct bs as [|b bs]; [exact Hd|]. apply Forall_app. split; [apply Forall_ztake; exact Hd|].
  apply Forall_app. split; [apply zeros_bytes|]. apply Forall_app. split; [exact Hb|apply Forall_zdrop; exact Hd].
Qed.
Lemma by_write bs : Forall is_byte bs -> bytely (write bs).
Proof.
  intros Hb w H. unfold write, mfile, file_write. destruct (f_open (w_file w)); [|exact H].
  destruct (f_faults (w_file w)) as [|[|k] fs]; unfold bytes_of; cbn; apply overwrite_bytes; try exact H; try exact Hb. apply Forall_ztake. exact Hb.
Qed.
Lemma by_writeAll l : Forall (Forall is_byte) l -> forall acc, bytely (writeAll l acc).
Proof. induction 1 as [|b l Hb Hl IH]; intros acc; cbn [writeAll]; [apply by_pure|apply by_bind; [apply by_write; exact Hb|intros; apply IH]]. Qed.
Lemma by_int n x : bytely (writeInt n x). Proof. apply by_write. apply le_bytes_bytes. Qed.
Lemma by_ints l acc : bytely (writeAll (map (le_bytes 8) l) acc).
Proof. apply by_writeAll. apply Forall_forall. intros x Hx. apply in_map_iff in Hx. destruct Hx as (y & <- & _). apply le_bytes_bytes. Qed.
Ltac lb := repeat (constructor; [apply le_bytes_bytes|]); constructor.
Ltac by_ := intros; cbv beta zeta; first
  [ apply by_pure | apply by_get | apply by_seek | apply by_sync | apply by_close | apply by_int | (apply by_modify; reflexivity) | (apply by_write; apply zeros_bytes)
  | (apply by_writeAll; lb) | match goal with H : forall _, bytely _ |- _ => apply H end
  | match goal with |- bytely (let '(_, _) := ?x in _) => destruct x; by_ end
  | apply by_if; by_ | apply by_bind; [by_|by_] ].
Lemma by_estimate ids vals : bytely (EstimateBlockSize ids vals).
Proof. unfold EstimateBlockSize. by_. Qed.
Lemma by_blockHeader a b c d e f : bytely (writeBlockHeader a b c d e f).
Proof. unfold writeBlockHeader. by_. Qed.
Lemma by_section u l bs : Forall (Forall is_byte) bs -> bytely (writeSection u l bs).
Proof. intros H. unfold writeSection. apply by_if; [apply by_writeAll; exact H|apply by_ints]. Qed.
Lemma varint_bytes_ok e enc1 items : Forall (fun x => Forall is_byte (enc1 x)) items -> Forall (Forall is_byte) (varint_bytes e enc1 items).
Proof. intros H. unfold varint_bytes. destruct (usesFixedWidth e); [constructor|]. apply Forall_map. exact H. Qed.
Lemma by_lift_bind {A B} (r : res A) (k : A -> M B) : (forall a, r = Ok a -> bytely (k a)) -> bytely (mbind (mlift r) k).
Proof. intros H w Hw. unfold mbind, mlift. destruct r as [a|e|]; [apply (H a eq_refl); exact Hw|exact Hw|exact Hw]. Qed.
Lemma encode_items_bytes enc1 l : Forall (fun x => Forall is_byte (enc1 x)) l -> forall n bs s, encode_items enc1 l n = Ok (bs, s) -> Forall (Forall is_byte) bs.
Proof.
  induction 1 as [|x l Hx Hl IH]; intros n bs s E; cbn [encode_items] in E; [injection E as <- _; constructor|].
  destruct (_ =? 0); [discriminate E|]. unfold rbind in E. destruct (encode_items enc1 l _) as [[b2 s2]|e|] eqn:E2; [|discriminate E..]. injection E as <- _. constructor; [exact Hx|eapply IH; exact E2].
Qed.
Lemma encodeData_bytes e data delta enc1 a b s : Forall (fun x => Forall is_byte (enc1 x)) data -> Forall (fun x => Forall is_byte (enc1 x)) (delta data) ->
  encodeData e data delta enc1 = Ok (a, b, s) -> Forall (Forall is_byte) b.
Proof.
  intros H1 H2. unfold encodeData. destruct (usesDelta e) as [d|]; [|discriminate]. cbv zeta. destruct (usesFixedWidth e); [intros E; injection E as _ <- _; constructor|].
  unfold rbind. destruct (encode_items enc1 (if d then delta data else data) 0) as [[b2 s2]|x|] eqn:E; [|discriminate..]. destruct (_ && _); [discriminate|]. intros K. injection K as _ <- _.
  destruct d; eapply encode_items_bytes; [|exact E| |exact E]; assumption.
Qed.
Lemma ids_bytes e ids a b s : Forall is_u64 ids -> encodeIDs e ids = Ok (a, b, s) -> Forall (Forall is_byte) b.
Proof.
  intros Hi. apply encodeData_bytes; [|pose proof (deltaEncode_range ids Hi) as Hd]; eapply Forall_impl; try eassumption; intros x Hx; apply encodeVarInt_bytes; exact Hx.
Qed.
Lemma vals_bytes e vals a b s : encodeValues e vals = Ok (a, b, s) -> Forall (Forall is_byte) b.
Proof.
  apply encodeData_bytes; apply Forall_forall; intros x _; unfold encodeSignedVarInt; apply encodeVarInt_bytes; apply u64_range.
Qed.
Lemma by_internal ids vals : Forall is_u64 ids -> bytely (writeBlockInternal ids vals).
Proof.
  intros Hi. unfold writeBlockInternal. apply by_bind; [apply by_modify; reflexivity|intros _]. apply by_bind; [apply by_get|intros w]. cbv zeta.
  apply by_lift_bind. intros [[ei eb] is_] EI. apply ids_bytes in EI; [|exact Hi]. apply by_lift_bind. intros [[ev evb] vs_] EV. apply vals_bytes in EV.
  pose proof (fun u l => by_section u l eb EI) as S1. pose proof (fun u l => by_section u l evb EV) as S2.
  pose proof (by_blockHeader) as BH. specialize (S1 (useVarIntForIDs (w_enc w)) ei). specialize (S2 (useVarIntForValues (w_enc w)) ev).
  destruct (calculateMinMax ids) as [minID maxID]. destruct (calculateMinMax vals) as [minV maxV].
  apply by_bind; [apply by_seek|intros st]. apply by_bind; [apply by_modify; reflexivity|intros _]. apply by_bind; [apply by_blockHeader|intros hw].
  apply by_bind; [apply by_int|intros _]. apply by_bind; [apply by_int|intros _]. apply by_bind; [apply by_seek|intros _]. apply by_bind; [apply by_int|intros _].
  apply by_bind; [apply by_seek|intros _]. apply by_if; [apply by_pure|]. apply by_if; [apply by_pure|]. apply by_if; [apply by_pure|].
  apply by_bind; [apply by_write; repeat (apply Forall_app; split; [apply le_bytes_bytes|]); apply le_bytes_bytes|intros bw]. apply by_if; [apply by_pure|].
  apply by_bind; [apply by_seek|intros _]. apply by_bind; [exact S1|intros ai]. apply by_if; [apply by_pure|]. apply by_bind; [exact S2|intros av]. apply by_if; [apply by_pure|].
  by_.
Qed.
Lemma by_optimal ids vals idx : forall o, bytely (findOptimal ids vals idx o).
Proof.
  induction idx as [|i idx IH]; intros o; cbn [findOptimal]; [apply by_pure|]. intros w H. pose proof (by_estimate (ztake i ids) (ztake i vals) w H) as K.
  destruct (EstimateBlockSize _ _ w) as [[s|e|] v]; [|exact K|exact K]. destruct (s <=? w_target v); [apply IH|]; exact K.
Qed.

Lemma by_writeBlock ids vals : Forall is_u64 ids -> bytely (WriteBlock ids vals).
Proof.
  intros Ti. unfold WriteBlock. apply by_if; [apply by_pure|]. apply by_if; [apply by_pure|].
  apply by_bind; [apply by_estimate|intros est]. apply by_bind; [apply by_get|intros w]. apply by_if; [|apply by_internal; assumption].
  apply by_bind; [apply by_optimal|intros o]. apply by_bind; [apply by_internal; apply Forall_ztake; exact Ti|intros ?; apply by_pure].
Qed.
Lemma by_blockFooter p s x : bytely (writeBlockFooter p s x).
Proof. unfold writeBlockFooter. by_. Qed.
Lemma by_entries idx : bytely (writeFooterEntries idx).
Proof.
  induction idx as [|i idx IH]; cbn [writeFooterEntries]; [apply by_pure|]. apply by_bind; [apply by_get|intros w].
  destruct (nth_error (w_positions w) _); [|apply by_pure]. destruct (nth_error (w_sizes w) _); [|apply by_pure]. destruct (nth_error (w_stats w) _); [|apply by_pure].
  apply by_bind; [apply by_blockFooter|intros _; exact IH].
Qed.
Lemma by_finalize now : bytely (Finalize now).
Proof.
  pose proof by_entries as BE. unfold Finalize, writeGlobalIDBitmap, headerFields. apply by_bind.
  - apply by_bind; [apply by_seek|intros off]. apply by_bind; [apply by_get|intros w]. apply by_bind; [apply by_int|intros _].
    apply by_bind; [apply by_write; apply law_ser_bytes|intros _]. by_.
  - intros [off size]. by_.
Qed.
Lemma by_call c : typed_call c -> bytely (run_call c).
Proof.
  destruct c; cbn [run_call typed_call]; intros T.
  - apply by_bind; [apply by_writeBlock; apply T|intros; apply by_pure].
  - apply by_estimate.
  - apply by_bind; [apply by_finalize|intros; apply by_pure].
  - apply by_bind; [|intros; apply by_pure]. apply by_bind; [apply by_finalize|intros; apply by_close].
  - apply by_bind; [apply by_close|intros; apply by_pure].
Qed.
Lemma by_calls cs : Forall typed_call cs -> forall w, Forall is_byte (bytes_of w) -> Forall is_byte (bytes_of (snd (run_calls cs w))).
Proof.
  induction 1 as [|c cs Hc Hcs IH]; intros w H; [exact H|]. cbn [run_calls]. pose proof (by_call c Hc w H) as K. destruct (run_call c w) as [r w1].
  specialize (IH w1 K). destruct (run_calls cs w1). exact IH.
Qed.

(** ** The crash theorem *)
Lemma crash_writeHeader now x : at_end x -> crash_at prefix (writeHeader now) x ends.
Proof.
  intros H. unfold writeHeader. apply appends_bind; [apply appends_seek; assumption| |].
  - intros ?. apply still_get_bind. intros ?. apply still_bind; [apply still_writeAll|intros ?]. apply still_bind; [apply still_write|intros ?]. apply still_bind; [apply still_seek|intros ?]. apply still_if; [apply still_ret|apply still_fail].
  - intros s v Hv. apply crash_get; [reflexivity|]. apply appends_bind; [apply appends_writeAll; exact Hv| |].
    { intros ?. apply still_bind; [apply still_write|intros ?]. apply still_bind; [apply still_seek|intros ?]. apply still_if; [apply still_ret|apply still_fail]. }
    intros ? v1 H1. apply appends_bind; [apply appends_write; exact H1| |].
    { intros ?. apply still_bind; [apply still_seek|intros ?]. apply still_if; [apply still_ret|apply still_fail]. }
    intros ? v2 H2. apply appends_bind; [apply appends_seek; exact H2| |].
    { intros ?. apply still_if; [apply still_ret|apply still_fail]. }
    intros ? v3 H3. apply appends_if; apply appends_pure; exact H3.
Qed.
Lemma new_faultless now0 options w0 f0 : NewWriter now0 options [] = (Ok w0, f0) ->
  f_faults (w_file w0) = [] /\ bytes_of w0 = initial_data now0 options /\ at_end w0 /\ 64 <= zlen (bytes_of w0).
Proof.
  intros HN. pose proof (NewWriter_rule True now0 options [] ltac:(intros _; constructor)) as R. cbv zeta in R. rewrite HN in R. destruct R as [(fs & E0 & Hfs) _].
  assert (F0 : f_faults (w_file w0) = []).
  { unfold NewWriter in HN. rewrite applyOptions in HN. set (x := new_writer options (mkFile [] 0 true [])) in HN.
    assert (C : crash_at prefix (writeHeader now0) x ends).
    { apply crash_writeHeader. split; reflexivity. }
    destruct C as (r & v & E & F & _). change (withf x []) with x in E. rewrite E in HN. destruct r; [|discriminate HN|discriminate HN]. injection HN as <- _. exact F. }
  assert (B0 : bytes_of w0 = initial_data now0 options) by (rewrite E0; reflexivity).
  split; [exact F0|]. split; [exact B0|]. split; [split; rewrite E0; reflexivity|]. rewrite B0, zlen_initial. lia.
Qed.
Lemma part_zeros now0 options d : part (initial_data now0 options) d -> prefix (zeros 4) (zdrop 60 d).
Proof.
  intros [[_ [x Hx]] _]. exists x. rewrite Hx. unfold initial_data. rewrite zdrop_app_exact by (rewrite zlen_header_bytes; reflexivity). reflexivity.
Qed.
Lemma part_accepted d F r : Forall is_byte d -> zlen F < two63 -> part d F -> prefix (zeros 4) (zdrop 60 d) -> NewReader d = Ok r -> d = F
  \/ exists i, 0 < i /\ i + 8 < zlen F /\ slice F i 8 = le_bytes 8 MagicNumber /\ zlen d = i + 8.
Proof.
  intros HB HS [[PL [x PT]] PE] HZ Hr. destruct (NewReader_accepts _ r HB ltac:(lia) Hr) as (_ & _ & _ & HM & _).
  clear - HM PL PT PE HZ. destruct HZ as [y HZ].
  destruct (Z.eq_dec (zlen d) (zlen F)) as [E|E]; [left; apply PE; exact E|right].
  pose proof (zlen_nonneg y) as Py. assert (Ld : zlen d = 64 + zlen y).
  { apply (f_equal zlen) in HZ. rewrite zlen_zdrop, zlen_app, zlen_zeros in HZ. lia. }
  exists (zlen d - 8). split; [lia|]. split; [lia|]. split; [|lia].
  destruct (Z.le_gt_cases 68 (zlen d)) as [G|G].
  - assert (T : forall l : list Z, slice l (zlen d - 8) 8 = slice (zdrop 60 l) (zlen d - 68) 8).
    { intros l. unfold slice. rewrite zdrop_zdrop by lia. do 2 f_equal. lia. }
    rewrite <- HM, !T, PT. apply slice_app_l; [lia|]. rewrite zlen_zdrop. lia.
  - exfalso. pose proof (ztake_zdrop 60 d) as S. rewrite HZ in S. set (H := ztake 60 d) in *. assert (LH : zlen H = 60) by (unfold H; rewrite zlen_ztake; lia).
    set (L := zeros 4 ++ y) in *. assert (LL : zlen L = 4 + zlen y) by (unfold L; rewrite zlen_app, zlen_zeros; lia). rewrite <- S in HM. unfold slice in HM.
    rewrite zlen_app in HM. rewrite zdrop_app_l in HM by lia. rewrite ztake_all in HM by (rewrite zlen_app, zlen_zdrop; lia).
    apply (f_equal (zdrop (8 - zlen L))) in HM. rewrite zdrop_app_exact in HM by (rewrite zlen_zdrop; lia).
    assert (Q : 8 - zlen L = 1 \/ 8 - zlen L = 2 \/ 8 - zlen L = 3 \/ 8 - zlen L = 4) by lia.
    remember (8 - zlen L) as t eqn:Et. clear Et. unfold L in HM. change (zeros 4) with [0;0;0;0] in HM.
    destruct Q as [-> | [-> | [-> | ->]]]; discriminate HM.
Qed.
Theorem stop_anywhere now0 options w0 f0 cs n k j d :
  NewWriter now0 options [] = (Ok w0, f0) -> Forall typed_call cs ->
  let w := snd (run_calls cs w0) in zlen (bytes_of w) < two63 ->
  let u := snd (run_calls cs (withf w0 (stop n k j))) in f_faults (w_file u) <> [] -> d = bytes_of u ->
  Forall is_byte d /\ part d (bytes_of w) /\ prefix (zeros 4) (zdrop 60 d)
  /\ forall r, NewReader d = Ok r -> d = bytes_of w
     \/ exists i, 0 < i /\ i + 8 < zlen (bytes_of w) /\ slice (bytes_of w) i 8 = le_bytes 8 MagicNumber /\ zlen d = i + 8.
Proof.
  intros HN HT w HS u HF ->. destruct (new_faultless _ _ _ _ HN) as (F0 & B0 & HE & H64).
  destruct (crash_calls cs w0 n k j HT ltac:(left; split; assumption) F0 HF) as [P0 P]. fold w u in P, P0.
  assert (HB : Forall is_byte (bytes_of u)) by (apply by_calls; [exact HT|]; unfold bytes_of; cbn; fold (bytes_of w0); rewrite B0; apply initial_bytes).
  rewrite B0 in P0. pose proof (part_zeros _ _ _ P0) as HZ.
  split; [exact HB|]. split; [exact P|]. split; [exact HZ|]. intros r Hr. eapply part_accepted; eassumption.
Qed.
(** ** A stop during NewWriter *)
Lemma create_prefix now options n k j f : snd (NewWriter now options (stop n k j)) = f -> f_faults f <> [] ->
  exists m, f_data f = ztake m (initial_data now options).
Proof.
  pose proof (NewWriter_rule True now options [] ltac:(intros _; constructor)) as R. cbv zeta in R.
  unfold NewWriter in *. rewrite applyOptions in *. set (x := new_writer options (mkFile [] 0 true [])) in *.
  replace (new_writer options (mkFile [] 0 true (stop n k j))) with (withf x (stop n k j)) by reflexivity.
  destruct (crash_writeHeader now x ltac:(split; reflexivity)) as (r & v & E & F & HQ & K). change (withf x []) with x in E. rewrite E in R.
  assert (B : bytes_of v = initial_data now options /\ exists a, r = Ok a).
  { destruct r as [a|e|]; [|destruct R as (_ & R & _); destruct (R I)|destruct R]. destruct R as [(fs & -> & _) _]. split; [reflexivity|eauto]. }
  destruct B as [B [a ->]]. pose proof (stops_part prefix prefix_order _ _ _ _ _ n k j K (fun _ => eq_refl)) as P. unfold wfile in P.
  destruct (writeHeader now (withf x (stop n k j))) as [r2 w2]. cbn [snd] in P.
  assert (G : f_faults (w_file w2) <> [] -> exists m, bytes_of w2 = ztake m (initial_data now options)).
  { intros N. destruct (P N) as [_ [y Hy]]. rewrite B in Hy. exists (zlen (bytes_of w2)). unfold bytes_of. rewrite Hy, ztake_app_exact by reflexivity. reflexivity. }
  unfold bytes_of in G. destruct r2 as [u|e|]; cbn [snd]; intros <- N.
  - apply G. exact N.
  - unfold file_close in *. destruct (f_open (w_file w2)).
    + assert (N2 : f_faults (w_file w2) <> []).
      { destruct (f_faults (w_file w2)) as [|[|q] fs]; [exfalso; apply N; reflexivity|discriminate..]. }
      destruct (G N2) as [m Hm]. exists m. rewrite <- Hm. destruct (f_faults (w_file w2)) as [|[|q] fs]; reflexivity.
    + apply G. exact N.
  - apply G. exact N.
Qed.
Lemma le4 x : exists a b c d, le_bytes 4 x = [a; b; c; d]. Proof. do 4 eexists. reflexivity. Qed.
Lemma le_time now : 0 <= now < 2 ^ 37 -> exists a b c d e, le_bytes 8 (u64 now) = [a; b; c; d; e; 0; 0; 0] /\ e < 32.
Proof.
  intros H. assert (u64 now = now) as -> by (unfold u64, two64; rewrite Z.mod_small; lia). cbn [le_bytes].
  exists (now mod 256), (now / 256 mod 256), (now / 256 / 256 mod 256), (now / 256 / 256 / 256 mod 256), (now / 256 / 256 / 256 / 256 mod 256).
  assert (B : now / 256 / 256 / 256 / 256 < 32) by lia. assert (C : 0 <= now / 256 / 256 / 256 / 256) by lia. set (x := now / 256 / 256 / 256 / 256) in *. clearbody x. clear H.
  assert (x / 256 = 0) as -> by lia. split; [reflexivity|]. lia.
Qed.
Lemma create_refused now options m r : 0 <= now < 2 ^ 37 -> NewReader (ztake m (initial_data now options)) <> Ok r.
Proof.
  intros Hn HR. pose proof (zlen_initial now options) as L. set (d := ztake m (initial_data now options)) in *.
  assert (Ld : zlen d <= 64) by (unfold d; rewrite zlen_ztake; lia).
  assert (HB : Forall is_byte d) by (apply Forall_ztake; apply initial_bytes).
  destruct (NewReader_accepts d r HB ltac:(unfold two63; lia) HR) as (L24 & _ & _ & HM & _ & _ & _ & _ & HF & H64 & _). rewrite HF in H64. clear HF HR HB.
  assert (Ed : d = ztake (zlen d) (initial_data now options)).
  { unfold d at 2. rewrite zlen_ztake. unfold d. destruct (Z.le_gt_cases m 0); [unfold d in L24; rewrite zlen_ztake in L24; lia|].
    destruct (Z.le_gt_cases m 64); [f_equal; lia|]. rewrite !ztake_all by lia. reflexivity. }
  set (len := zlen d) in *. clearbody len. rewrite Ed in HM, H64. clear Ed d m L.
  destruct (le4 (snd (configured options))) as (t0 & t1 & t2 & t3 & Et). destruct (le4 (fst (configured options))) as (e0 & e1 & e2 & e3 & Ee).
  destruct (le_time now Hn) as (n0 & n1 & n2 & n3 & n4 & En & Hn4).
  unfold initial_data, header_bytes, headerFields in *. cbn [concat] in *. rewrite Et, Ee, En in *. clear Et Ee En Hn.
  assert (Q : exists i, (i <= 40)%nat /\ len = 24 + Z.of_nat i) by (exists (Z.to_nat (len - 24)); lia). destruct Q as (i & Hi & ->). clear L24 Ld.
  do 15 (destruct i as [|i]; [vm_compute in HM; discriminate HM|]).
  do 2 (destruct i as [|i]; [vm_compute in H64; exact (H64 eq_refl)|]).
  destruct i as [|i]; [vm_compute in HM; injection HM as _ _ _ E; subst n4; lia|].
  do 23 (destruct i as [|i]; [vm_compute in HM; discriminate HM|]).
  lia.
Qed.
End Bytes.
