(** Readers whose file changes after it was opened: C62. *)
From Verif Require Import Machine MachineFacts Encoding FileIO FileFacts Sroar SroarFacts Writer SimpleWriter Reader Aggregate Parallel Multi
  Spec AggFacts WriterFacts FinalFacts ReaderFacts ReachFacts ArbFacts RetryFacts StopSpec LiveFacts ReadFaultFacts SnapSpec.
Ltac Zify.zify_post_hook ::= Z.div_mod_to_equations.
Local Open Scope Z_scope.

(** ** Writing leaves bytes 60 to [L] alone *)
Definition kept (L : Z) (D0 D : list Z) : Prop :=
  L <= zlen D /\ forall p, 60 <= Z.of_nat p < L -> nth_error D p = nth_error D0 p.

Lemma kept_refl D : kept (zlen D) D D. Proof. split; [lia|auto]. Qed.
Lemma kept_overwrite L D0 D p bs : 0 <= L <= p -> kept L D0 D -> kept L D0 (overwrite D p bs).
Proof.
  intros Hp [H1 H2]. split; [pose proof (overwrite_len_ge D p bs ltac:(lia)); lia|]. intros q Hq. rewrite <- H2 by exact Hq.
  rewrite <- (nth_ztake (overwrite D p bs) L q), <- (nth_ztake D L q) by lia. rewrite overwrite_prefix by lia. reflexivity.
Qed.
Lemma kept_header L D0 D p bs : 60 <= L -> 0 <= p -> p + zlen bs <= 60 -> kept L D0 D -> kept L D0 (overwrite D p bs).
Proof.
  intros HL Hp Hb [H1 H2]. split; [pose proof (overwrite_len_ge D p bs ltac:(lia)); lia|]. intros q Hq. rewrite <- H2 by exact Hq.
  unfold overwrite. destruct bs as [|b bs]; [reflexivity|]. set (l := b :: bs) in *. clearbody l. pose proof (zlen_nonneg l) as Nl.
  rewrite zeros_nil by lia. cbn [app].
  assert (E1 : length (ztake p D) = Z.to_nat p).
  { pose proof (zlen_ztake p D) as T. unfold zlen in T at 1. lia. }
  assert (E2 : Z.of_nat (length l) = zlen l) by reflexivity.
  rewrite nth_error_app2 by lia. rewrite nth_error_app2 by lia. rewrite nth_zdrop by lia. f_equal. lia.
Qed.

Section W.
Context {Srr : Sroar}.
Variables (L : Z) (D0 : list Z).
Hypothesis L60 : 60 <= L.

Definition keeps (w : writer) : Prop := kept L D0 (bytes_of w).
(** [m] moves the file offset forward, by at least [k] if it succeeds. *)
Definition fw {A} (k : Z) (m : M A) : Prop := forall w, keeps w -> L <= f_pos (w_file w) ->
  keeps (snd (m w)) /\ f_pos (w_file w) <= f_pos (w_file (snd (m w)))
  /\ forall a, fst (m w) = Ok a -> f_pos (w_file w) + k <= f_pos (w_file (snd (m w))).

Lemma fw_weaken {A} k k' (m : M A) : k' <= k -> fw k m -> fw k' m.
Proof. intros H F w K P. destruct (F w K P) as (F1 & F2 & F3). split; [exact F1|]. split; [exact F2|]. intros a E. specialize (F3 a E). lia. Qed.
Lemma fw_bind {A B} k l (m : M A) (f : A -> M B) : 0 <= l -> fw k m -> (forall a, fw l (f a)) -> fw (k + l) (mbind m f).
Proof.
  intros Hl F G w K P. destruct (F w K P) as (F1 & F2 & F3). unfold mbind. destruct (m w) as [[a|e|] w1]; cbn [fst snd] in *.
  - specialize (F3 a eq_refl). destruct (G a w1 F1 ltac:(lia)) as (G1 & G2 & G3). split; [exact G1|]. split; [lia|]. intros b E. specialize (G3 b E). lia.
  - split; [exact F1|]. split; [exact F2|]. intros b E. discriminate E.
  - split; [exact F1|]. split; [exact F2|]. intros b E. discriminate E.
Qed.
Lemma fw0_bind {A B} (m : M A) (f : A -> M B) : fw 0 m -> (forall a, fw 0 (f a)) -> fw 0 (mbind m f).
Proof. intros F G. exact (fw_bind 0 0 m f ltac:(lia) F G). Qed.
Lemma fw_pure {A} (r : res A) : fw 0 (fun w => (r, w)).
Proof. intros w K P. cbn [fst snd]. split; [exact K|]. split; [lia|]. intros. lia. Qed.
Lemma fw_modify f : (forall w, w_file (f w) = w_file w) -> fw 0 (mmodify f).
Proof.
  intros H w K P. unfold mmodify. cbn [fst snd]. unfold keeps, bytes_of in *. rewrite H. split; [exact K|]. split; [lia|]. intros. lia.
Qed.
Lemma fw_get {B} (f : writer -> M B) k : (forall a, fw k (f a)) -> fw k (mbind mget f).
Proof. intros H w K P. unfold mbind, mget. exact (H w w K P). Qed.
Lemma fw_if {A} k (b : bool) (m n : M A) : fw k m -> fw k n -> fw k (if b then m else n).
Proof. destruct b; auto. Qed.
Lemma fw_seek0 : fw 0 (seek 0 SeekCurrent).
Proof.
  intros w K P. unfold seek, mfile, file_seek. destruct (f_open (w_file w)); cbn [fst snd].
  - destruct (f_faults (w_file w)) as [|[|k] fs]; cbn [Z.add]; [destruct (_ <? 0)|destruct (_ <? 0)|];
      cbn [fst snd w_file set_file set_pos f_pos]; (split; [exact K|split; [lia|intros; lia]]).
  - cbn [fst snd w_file set_file f_pos]. split; [exact K|]. split; [lia|]. intros; lia.
Qed.
Lemma fw_sync : fw 0 sync.
Proof.
  intros w K P. unfold sync, mfile, file_sync. destruct (f_open (w_file w)); cbn [fst snd].
  - destruct (f_faults (w_file w)) as [|[|k] fs]; cbn [fst snd w_file set_file set_pos f_pos]; (split; [exact K|split; [lia|intros; lia]]).
  - cbn [fst snd w_file set_file f_pos]. split; [exact K|]. split; [lia|]. intros; lia.
Qed.
Lemma fw_close : fw 0 closeFile.
Proof.
  intros w K P. unfold closeFile, mfile, file_close. destruct (f_open (w_file w)); cbn [fst snd].
  - destruct (f_faults (w_file w)) as [|[|k] fs]; cbn [fst snd w_file set_file f_pos]; (split; [exact K|split; [lia|intros; lia]]).
  - cbn [fst snd w_file set_file f_pos]. split; [exact K|]. split; [lia|]. intros; lia.
Qed.
Lemma fw_write bs : fw (zlen bs) (write bs).
Proof.
  intros w K P. unfold write, mfile, file_write. destruct (f_open (w_file w)); cbn [fst snd].
  - pose proof (zlen_nonneg bs) as N.
    destruct (f_faults (w_file w)) as [|[|k] fs]; cbn [fst snd w_file set_file write_at f_pos].
    1, 2: split; [apply kept_overwrite; [lia|exact K]|split; [lia|intros; lia]].
    split; [apply kept_overwrite; [lia|exact K]|]. pose proof (zlen_nonneg (ztake k bs)). split; [lia|]. intros a E. discriminate E.
  - cbn [fst snd w_file set_file f_pos]. split; [exact K|]. split; [lia|]. intros a E. discriminate E.
Qed.
Lemma fw_write0 bs : fw 0 (write bs).
Proof. apply (fw_weaken (zlen bs)); [apply zlen_nonneg|apply fw_write]. Qed.
Lemma fw_writeAll l : forall acc, fw 0 (writeAll l acc).
Proof. induction l as [|bs l IH]; intros acc; cbn [writeAll]; [apply fw_pure|]. apply fw0_bind; [apply fw_write0|]. intros n. apply IH. Qed.
Lemma fw_section u l bs : fw 0 (writeSection u l bs).
Proof. unfold writeSection. destruct u; apply fw_writeAll. Qed.

Lemma fw_ret {A} (a : A) : fw 0 (mret a). Proof. apply fw_pure. Qed.
Lemma fw_fail {A} e : fw 0 (@mfail _ A e). Proof. apply fw_pure. Qed.
Lemma fw_panic {A} : fw 0 (@mpanic _ A). Proof. apply fw_pure. Qed.
Lemma fw_lift {A} (r : res A) : fw 0 (mlift r). Proof. apply fw_pure. Qed.
Lemma fw_mget : fw 0 mget.
Proof. intros w K P. unfold mget. cbn [fst snd]. split; [exact K|]. split; [lia|]. intros. lia. Qed.
Ltac forward := repeat lazymatch goal with
  | |- fw _ (mret _) => apply fw_ret
  | |- fw _ (mfail _) => apply fw_fail
  | |- fw _ mpanic => apply fw_panic
  | |- fw _ (mlift _) => apply fw_lift
  | |- fw _ (write _) => apply fw_write0
  | |- fw _ (writeInt _ _) => apply fw_write0
  | |- fw _ (writeAll _ _) => apply fw_writeAll
  | |- fw _ (writeSection _ _ _) => apply fw_section
  | |- fw _ (seek 0 SeekCurrent) => apply fw_seek0
  | |- fw _ sync => apply fw_sync
  | |- fw _ closeFile => apply fw_close
  | |- fw _ (mmodify _) => apply fw_modify; reflexivity
  | |- fw _ (mbind mget _) => apply fw_get; intro
  | |- fw _ (mbind _ _) => apply fw0_bind; [|intro]
  | |- fw _ (if _ then _ else _) => apply fw_if
  | |- fw _ (let _ := _ in _) => cbv zeta
  | |- fw _ (let '(_, _) := ?x in _) => destruct x
  end.

Lemma fw_estimate ids vals : fw 0 (EstimateBlockSize ids vals).
Proof. unfold EstimateBlockSize. forward. Qed.

Lemma fw_intro {A} k (m : M A) : (forall w r w', keeps w -> L <= f_pos (w_file w) -> m w = (r, w') ->
  keeps w' /\ f_pos (w_file w) <= f_pos (w_file w') /\ forall a, r = Ok a -> f_pos (w_file w) + k <= f_pos (w_file w')) -> fw k m.
Proof. intros H w K P. destruct (m w) as [r w'] eqn:E. exact (H w r w' K P E). Qed.
Lemma fw_elim {A} k (m : M A) w r w' : fw k m -> m w = (r, w') -> keeps w -> L <= f_pos (w_file w) ->
  keeps w' /\ f_pos (w_file w) <= f_pos (w_file w') /\ forall a, r = Ok a -> f_pos (w_file w) + k <= f_pos (w_file w').
Proof. intros H E K P. pose proof (H w K P) as T. rewrite E in T. exact T. Qed.
Lemma seek0_pos w p w' : seek 0 SeekCurrent w = (Ok p, w') -> f_pos (w_file w) = p /\ f_pos (w_file w') = p.
Proof.
  unfold seek, mfile, file_seek. destruct (f_open (w_file w)); [|discriminate].
  destruct (f_faults (w_file w)) as [|[|k] fs]; cbn [Z.add]; [destruct (_ <? 0)|destruct (_ <? 0)|]; intros E; try discriminate E;
    injection E as <- <-; cbn [w_file set_file set_pos f_pos]; lia.
Qed.
Lemma bind_cases {A B} (m : M A) (f : A -> M B) w r w' : mbind m f w = (r, w') ->
  (exists a w1, m w = (Ok a, w1) /\ f a w1 = (r, w')) \/ (m w = (match r with Ok _ => Panic | Err e => Err e | Panic => Panic end, w') /\ forall b, r <> Ok b).
Proof.
  unfold mbind. destruct (m w) as [[a|e|] w1]; intros E; [left; eauto| |]; injection E as <- <-; right; (split; [reflexivity|discriminate]).
Qed.
Lemma fw_blockHeader a b c d e f : fw 52 (writeBlockHeader a b c d e f).
Proof.
  apply fw_intro. intros w r w' K P E. unfold writeBlockHeader in E.
  destruct (bind_cases _ _ _ _ _ E) as [(p & w1 & E1 & E')|[E1 N]]; destruct (fw_elim _ _ _ _ _ fw_seek0 E1 K P) as (S1 & S2 & _);
    [|split; [exact S1|split; [exact S2|intros x Hx; destruct (N x Hx)]]].
  destruct (seek0_pos _ _ _ E1) as [Hp Hp1]. clear E. unfold mbind at 1, mget at 1 in E'.
  destruct (bind_cases _ _ _ _ _ E') as [(n & w2 & E2 & E)|[E2 N]]; destruct (fw_elim _ _ _ _ _ (fw_writeAll _ _) E2 S1 ltac:(lia)) as (T1 & T2 & _);
    [|split; [exact T1|split; [lia|intros x Hx; destruct (N x Hx)]]].
  destruct (bind_cases _ _ _ _ _ E) as [(q & w3 & E3 & E4)|[E3 N]]; destruct (fw_elim _ _ _ _ _ fw_seek0 E3 T1 ltac:(lia)) as (U1 & U2 & _);
    [|split; [exact U1|split; [lia|intros x Hx; destruct (N x Hx)]]].
  destruct (seek0_pos _ _ _ E3) as [Hq Hq3]. cbv zeta in E4.
  destruct (Z.eqb_spec (q - p) 52); injection E4 as <- <-; (split; [exact U1|split; [lia|]]); [intros; lia|intros x Hx; discriminate Hx].
Qed.
Lemma blockHeader_52 a b c d e f w n w' : writeBlockHeader a b c d e f w = (Ok n, w') -> n = 52.
Proof.
  unfold writeBlockHeader, mbind, mget. destruct (seek 0 SeekCurrent w) as [[p|er|] w1]; try discriminate.
  destruct (writeAll _ 0 w1) as [[k|er|] w2]; try discriminate. destruct (seek 0 SeekCurrent w2) as [[q|er|] w3]; try discriminate.
  destruct (Z.eqb_spec (q - p) 52); cbn; intros H; [|discriminate H]. injection H as <- _. assumption.
Qed.

(** From an offset of at least [L + b] on, [m] ends at an offset of at least [L]. *)
Definition sl {A} (b : Z) (m : M A) : Prop := forall w r w', m w = (r, w') -> keeps w -> L + b <= f_pos (w_file w) -> keeps w' /\ L <= f_pos (w_file w').
Lemma fw_sl {A} b (m : M A) : 0 <= b -> fw 0 m -> sl b m.
Proof. intros Hb F w r w' E K P. destruct (fw_elim _ _ _ _ _ F E K ltac:(lia)) as (F1 & F2 & _). split; [exact F1|lia]. Qed.
Lemma sl_bind {A B} b k (m : M A) (f : A -> M B) : 0 <= b -> fw k m -> (forall w a w', m w = (Ok a, w') -> sl (b + k) (f a)) -> sl b (mbind m f).
Proof.
  intros Hb F G w r w' E K P. destruct (bind_cases _ _ _ _ _ E) as [(a & w1 & E1 & E2)|[E1 N]]; destruct (fw_elim _ _ _ _ _ F E1 K ltac:(lia)) as (S1 & S2 & S3).
  - specialize (S3 a eq_refl). exact (G w a w1 E1 w1 r w' E2 S1 ltac:(lia)).
  - split; [exact S1|lia].
Qed.
Lemma sl_back {B} (f : M B) : fw 0 f -> sl 4 (mbind (seek (-4) SeekCurrent) (fun _ => f)).
Proof.
  intros Ff w1 r w' E S1 P.
  assert (S : forall r2 w2, seek (-4) SeekCurrent w1 = (r2, w2) -> keeps w2 /\ f_pos (w_file w1) - 4 <= f_pos (w_file w2)).
  { intros r2 w2. unfold seek, mfile, file_seek. destruct (f_open (w_file w1)); cbn [fst snd].
    - destruct (f_faults (w_file w1)) as [|[|k] fs]; [destruct (_ <? 0)|destruct (_ <? 0)|];
        intros H; apply (f_equal snd) in H; cbn [snd] in H; subst w2; cbn [w_file set_file set_pos f_pos]; (split; [exact S1|lia]).
    - intros H. injection H as _ <-. split; [exact S1|]. cbn [w_file set_file f_pos]. lia. }
  destruct (bind_cases _ _ _ _ _ E) as [(q & w2 & E2 & E')|[E2 N]]; destruct (S _ _ E2) as [T1 T2]; [|split; [exact T1|lia]].
  destruct (fw_elim _ _ _ _ _ Ff E' T1 ltac:(lia)) as (U1 & U2 & _). split; [exact U1|lia].
Qed.
Lemma sl_if {A} b (c : bool) (m n : M A) : sl b m -> sl b n -> sl b (if c then m else n).
Proof. destruct c; auto. Qed.

Lemma sl_internal ids vals : sl 0 (writeBlockInternal ids vals).
Proof.
  unfold writeBlockInternal.
  apply (sl_bind 0 0); [lia|apply fw_modify; reflexivity|]. intros _ [] _ _.
  apply (sl_bind 0 0); [lia|apply fw_mget|]. intros _ w _ _. cbv zeta.
  apply (sl_bind 0 0); [lia|apply fw_lift|]. intros _ [[x y] z] _ _.
  apply (sl_bind 0 0); [lia|apply fw_lift|]. intros _ [[x' y'] z'] _ _.
  destruct (calculateMinMax ids) as [m1 m2]. destruct (calculateMinMax vals) as [m3 m4]. cbv zeta.
  apply (sl_bind 0 0); [lia|apply fw_seek0|]. intros _ p _ _.
  apply (sl_bind 0 0); [lia|apply fw_modify; reflexivity|]. intros _ [] _ _.
  apply (sl_bind 0 52); [lia|apply fw_blockHeader|]. intros u n u' En. apply blockHeader_52 in En. subst n.
  apply (sl_bind 52 4); [lia|exact (fw_write (le_bytes 4 0))|]. intros _ n1 _ _.
  apply (sl_bind 56 4); [lia|exact (fw_write (le_bytes 4 0))|]. intros _ n2 _ _.
  apply (sl_bind 60 0); [lia|apply fw_seek0|]. intros _ n3 _ _.
  apply (sl_bind 60 8); [lia|exact (fw_write (le_bytes 8 0))|]. intros _ n4 _ _.
  change (blockHeaderSize - (52 + 4 + 4 + 8)) with (-4).
  match goal with |- sl _ ?m => intros w1 r w1' E K P; assert (G : sl 4 m); [|exact (G w1 r w1' E K ltac:(lia))] end.
  apply sl_back. forward.
Qed.

Lemma fw_optimal ids vals idx : forall o, fw 0 (findOptimal ids vals idx o).
Proof.
  induction idx as [|i idx IH]; intros o; cbn [findOptimal]; [apply fw_ret|]. apply fw_intro. intros w r w' K P E.
  destruct (EstimateBlockSize (ztake i ids) (ztake i vals) w) as [[s|e|] w1] eqn:E1; destruct (fw_elim _ _ _ _ _ (fw_estimate _ _) E1 K P) as (S1 & S2 & _).
  - destruct (s <=? w_target w1).
    + destruct (fw_elim _ _ _ _ _ (IH i) E S1 ltac:(lia)) as (T1 & T2 & _). split; [exact T1|]. split; [lia|]. intros; lia.
    + injection E as _ <-. split; [exact S1|]. split; [lia|]. intros; lia.
  - injection E as _ <-. split; [exact S1|]. split; [lia|]. intros; lia.
  - injection E as _ <-. split; [exact S1|]. split; [lia|]. intros; lia.
Qed.
Lemma sl_then_fail {A B} (m : M A) e : sl 0 m -> sl 0 (mbind m (fun _ => @mfail _ B e)).
Proof.
  intros H w r w' E K P. destruct (bind_cases _ _ _ _ _ E) as [(a & w1 & E1 & E2)|[E1 N]]; [|exact (H _ _ _ E1 K P)].
  injection E2 as _ <-. exact (H _ _ _ E1 K P).
Qed.
Lemma sl_writeBlock ids vals : sl 0 (WriteBlock ids vals).
Proof.
  unfold WriteBlock. apply sl_if; [apply fw_sl; [lia|apply fw_fail]|]. apply sl_if; [apply fw_sl; [lia|apply fw_fail]|].
  apply (sl_bind 0 0); [lia|apply fw_estimate|]. intros _ s _ _.
  apply (sl_bind 0 0); [lia|apply fw_mget|]. intros _ w _ _. apply sl_if; [|apply sl_internal].
  apply (sl_bind 0 0); [lia|apply fw_optimal|]. intros _ o _ _. apply sl_then_fail. apply sl_internal.
Qed.

(** *** Finalize *)
Lemma fw_entries idx : fw 0 (writeFooterEntries idx).
Proof.
  induction idx as [|i idx IH]; cbn [writeFooterEntries]; [apply fw_ret|]. apply fw_get. intros w.
  destruct (nth_error (w_positions w) _); [|apply fw_panic]. destruct (nth_error (w_sizes w) _); [|apply fw_panic]. destruct (nth_error (w_stats w) _); [|apply fw_panic].
  apply fw0_bind; [unfold writeBlockFooter; forward|]. intros _. exact IH.
Qed.
Lemma header_writeAll l : forall acc w r w', writeAll l acc w = (r, w') -> keeps w -> 0 <= f_pos (w_file w) ->
  f_pos (w_file w) + zlen (concat l) <= 60 -> keeps w'.
Proof.
  induction l as [|bs l IH]; intros acc w r w' E K P Q; cbn [writeAll] in E; [injection E as _ <-; exact K|].
  cbn [concat] in Q. rewrite zlen_app in Q. pose proof (zlen_nonneg bs) as N1. pose proof (zlen_nonneg (concat l)) as N2.
  assert (S : forall r2 w2, write bs w = (r2, w2) -> keeps w2 /\ (forall n, r2 = Ok n -> f_pos (w_file w2) = f_pos (w_file w) + zlen bs)).
  { intros r2 w2. unfold write, mfile, file_write. destruct (f_open (w_file w)).
    - destruct (f_faults (w_file w)) as [|[|k] fs]; intros H; injection H as <- <-; cbn [w_file set_file write_at f_pos].
      1, 2: split; [apply kept_header; try assumption; lia|intros; lia].
      split; [|discriminate]. apply kept_header; try assumption. pose proof (zlen_ztake k bs). lia.
    - intros H. injection H as <- <-. split; [exact K|discriminate]. }
  destruct (bind_cases _ _ _ _ _ E) as [(n & w1 & E1 & E2)|[E1 N]]; destruct (S _ _ E1) as [S1 S2]; [|exact S1].
  specialize (S2 n eq_refl). apply (IH _ _ _ _ E2 S1); lia.
Qed.
Lemma fields_60 a b c d e f : zlen (concat (headerFields a b c d e f)) = 60.
Proof. unfold headerFields. cbn [concat]. rewrite !zlen_app, !zlen_le_bytes. reflexivity. Qed.
Lemma finalize_keeps now w r w' : Finalize now w = (r, w') -> keeps w -> L <= f_pos (w_file w) ->
  keeps w' /\ (forall a, r = Ok a -> L <= f_pos (w_file w')).
Proof.
  unfold Finalize. intros E K P.
  assert (FB : fw 0 writeGlobalIDBitmap) by (unfold writeGlobalIDBitmap; forward).
  destruct (bind_cases _ _ _ _ _ E) as [([o z] & w1 & E1 & E2)|[E1 N]]; destruct (fw_elim _ _ _ _ _ FB E1 K P) as (S1 & S2 & _);
    [|split; [exact S1|intros a Ha; destruct (N a Ha)]].
  clear E. assert (S : forall r2 w2, seek 0 SeekStart w1 = (r2, w2) -> keeps w2 /\ (forall n, r2 = Ok n -> f_pos (w_file w2) = 0)).
  { intros r2 w2. unfold seek, mfile, file_seek. destruct (f_open (w_file w1)).
    - destruct (f_faults (w_file w1)) as [|[|k] fs]; cbn [Z.add Z.ltb Z.compare]; intros H; injection H as <- <-; (split; [exact S1|]); intros; try discriminate; reflexivity.
    - intros H. injection H as <- <-. split; [exact S1|discriminate]. }
  destruct (bind_cases _ _ _ _ _ E2) as [(n & w2 & E3 & E4)|[E3 N]]; destruct (S _ _ E3) as [T1 T2];
    [|split; [exact T1|intros a Ha; destruct (N a Ha)]].
  specialize (T2 n eq_refl). clear E2 S. unfold mbind at 1, mget at 1 in E4.
  destruct (bind_cases _ _ _ _ _ E4) as [(n3 & w3 & E5 & E6)|[E5 N]];
    pose proof (fun H => header_writeAll _ _ _ _ _ E5 T1 H) as U; rewrite T2, fields_60 in U; specialize (U ltac:(lia) ltac:(lia));
    [|split; [exact U|intros a Ha; destruct (N a Ha)]].
  clear E4. assert (V : forall r2 w2, seek 0 SeekEnd w3 = (r2, w2) -> keeps w2 /\ (forall n, r2 = Ok n -> L <= f_pos (w_file w2))).
  { clear - U. intros r2 w2. unfold seek, mfile, file_seek. destruct U as [U1 U2]. destruct (f_open (w_file w3)).
    - destruct (f_faults (w_file w3)) as [|[|k] fs]; cbn [Z.add]; [destruct (_ <? 0)|destruct (_ <? 0)|]; intros H; injection H as <- <-;
        (split; [split; assumption|]); intros; try discriminate; exact U1.
    - intros H. injection H as <- <-. split; [split; assumption|discriminate]. }
  destruct (bind_cases _ _ _ _ _ E6) as [(n4 & w4 & E7 & E8)|[E7 N]]; destruct (V _ _ E7) as [V1 V2];
    [|split; [exact V1|intros a Ha; destruct (N a Ha)]].
  specialize (V2 n4 eq_refl).
  match type of E8 with ?m w4 = _ => assert (G : fw 0 m) by (forward; apply fw_entries) end.
  destruct (fw_elim _ _ _ _ _ G E8 V1 V2) as (G1 & G2 & _). split; [exact G1|]. intros. lia.
Qed.

(** *** Calls *)
Lemma call_keeps c w r w' : run_call c w = (r, w') -> keeps w -> L <= f_pos (w_file w) ->
  keeps w' /\ ((is_finalize c = true -> (exists n, r = Ok n) \/ offset_at_end w') -> L <= f_pos (w_file w')).
Proof.
  intros E K P.
  assert (Fin : forall now, forall m, (forall v, fw 0 (m v)) -> mbind (Finalize now) m w = (r, w') ->
            keeps w' /\ (((exists n, r = Ok n) \/ offset_at_end w') -> L <= f_pos (w_file w'))).
  { intros now m Hm H. assert (End : keeps w' -> offset_at_end w' -> L <= f_pos (w_file w')) by (intros [H1 _] H2; unfold offset_at_end, bytes_of in *; lia).
    destruct (bind_cases _ _ _ _ _ H) as [(a & w1 & E1 & E2)|[E1 N]]; destruct (finalize_keeps _ _ _ _ E1 K P) as [F1 F2].
    - destruct (fw_elim _ _ _ _ _ (Hm a) E2 F1 (F2 a eq_refl)) as (G1 & G2 & _). specialize (F2 a eq_refl). split; [exact G1|]. intros _. lia.
    - split; [exact F1|]. intros [[n Hn]|H2]; [destruct (N n Hn)|]. apply End; assumption. }
  destruct c as [ids vals|ids vals|now|now|]; cbn [run_call is_finalize] in *.
  - assert (G : sl 0 (mbind (WriteBlock ids vals) (fun _ => mret 0))).
    { intros u ru u' Eu Ku Pu. destruct (bind_cases _ _ _ _ _ Eu) as [(a & w1 & E1 & E2)|[E1 N]]; [|exact (sl_writeBlock _ _ _ _ _ E1 Ku Pu)].
      injection E2 as _ <-. exact (sl_writeBlock _ _ _ _ _ E1 Ku Pu). }
    destruct (G _ _ _ E K ltac:(lia)) as [G1 G2]. split; [exact G1|]. intros _. exact G2.
  - destruct (fw_elim _ _ _ _ _ (fw_estimate _ _) E K P) as (G1 & G2 & _). split; [exact G1|]. intros _. lia.
  - destruct (Fin now (fun _ => mret 0)) as [F1 F2]; [intros; apply fw_ret|exact E|]. split; [exact F1|]. intros H. apply F2. apply H. reflexivity.
  - assert (E' : mbind (Finalize now) (fun _ => mbind closeFile (fun _ => mret 0)) w = (r, w')).
    { rewrite <- E. unfold FinalizeAndClose, mbind. destruct (Finalize now w) as [[a|e|] w1]; reflexivity. }
    destruct (Fin now (fun _ => mbind closeFile (fun _ => mret 0))) as [F1 F2]; [intros; cbv beta; forward|exact E'|]. split; [exact F1|]. intros H. apply F2. apply H. reflexivity.
  - assert (G : fw 0 (mbind Close (fun _ => mret 0))) by (unfold Close; forward).
    destruct (fw_elim _ _ _ _ _ G E K P) as (G1 & G2 & _). split; [exact G1|]. intros _. lia.
Qed.
Lemma calls_keep cs : forall w, finalizes_ok cs w -> keeps w -> L <= f_pos (w_file w) ->
  keeps (snd (run_calls cs w)) /\ L <= f_pos (w_file (snd (run_calls cs w))).
Proof.
  induction cs as [|c cs IH]; intros w H K P; cbn [run_calls snd]; [split; assumption|]. cbn [finalizes_ok] in H. destruct H as [H1 H2].
  destruct (run_call c w) as [r w1] eqn:E. cbn [fst snd] in *. destruct (call_keeps c w r w1 E K P) as [C1 C2].
  specialize (IH w1 H2 C1 (C2 H1)). destruct (run_calls cs w1) as [rs w2]. exact IH.
Qed.
End W.

Section R.
Context {Srr : Sroar}.

Lemma later_kept w d : 60 <= zlen (bytes_of w) -> zlen (bytes_of w) <= f_pos (w_file w) -> later w d -> kept (zlen (bytes_of w)) (bytes_of w) d.
Proof.
  intros H60 HP (cs & c & fs & Hok & ->).
  destruct (calls_keep (zlen (bytes_of w)) (bytes_of w) H60 cs w Hok (kept_refl _) HP) as [K P].
  set (w1 := snd (run_calls cs w)) in *. clearbody w1.
  destruct (run_call c (withf w1 fs)) as [r w2] eqn:E.
  exact (proj1 (call_keeps (zlen (bytes_of w)) (bytes_of w) H60 c (withf w1 fs) r w2 E K P)).
Qed.
Lemma seen_kept w d : 60 <= zlen (bytes_of w) -> zlen (bytes_of w) <= f_pos (w_file w) -> seen_later w d -> kept (zlen (bytes_of w)) (bytes_of w) d.
Proof.
  intros H60 HP [(s & Hs & Es) Hd]. destruct (later_kept w s H60 HP Hs) as [L1 _]. split; [lia|]. intros p Hp.
  destruct (nth_error d p) as [b|] eqn:Eb.
  - destruct (Hd p b Eb) as (s' & Hs' & Hb). destruct (later_kept w s' H60 HP Hs') as [_ K]. rewrite <- K by exact Hp. symmetry. exact Hb.
  - apply nth_error_None in Eb. unfold zlen in *. lia.
Qed.

(** ** Reading *)
Lemma kept_slice L D0 D off n : kept L D0 D -> L <= zlen D0 -> 60 <= off -> 0 <= n -> off + n <= L -> slice D off n = slice D0 off n.
Proof. intros [_ K] HL Ho Hn Hl. apply slice_ext; [lia|lia|]. intros p Hp. apply K. lia. Qed.
Lemma kept_bytes L D0 D open off n : kept L D0 D -> L <= zlen D0 -> 60 <= off -> 0 <= n -> off + n <= L -> readBytesAt D open off n = readBytesAt D0 open off n.
Proof. intros K HL Ho Hn Hl. unfold readBytesAt. rewrite (kept_slice L D0 D) by assumption. reflexivity. Qed.

(** What a Reader needs of its file: the data of the blocks in the index, and the bitmap. *)
Definition needs (r : reader) (D : list Z) : Prop :=
  Forall (fun e => 64 <= e_offset e /\ 80 <= e_size e /\ e_offset e + e_size e <= zlen D) (r_index r)
  /\ 64 <= h_bitmapOffset (r_header r) /\ h_bitmapOffset (r_header r) + 4 <= zlen D
  /\ h_bitmapOffset (r_header r) + 4 + le_val (slice D (h_bitmapOffset (r_header r)) 4) <= zlen D
  /\ zlen D < two63 /\ Forall is_byte (slice D (h_bitmapOffset (r_header r)) 4).

(** Frame: a block depends on its own bytes only. *)
Lemma block_frame r d i : (forall e, nth_error (r_index r) (Z.to_nat i) = Some e -> 64 <= e_offset e /\ 80 <= e_size e /\ e_offset e + e_size e < two63
    /\ slice d (e_offset e + 64) (e_size e - 64) = slice (r_data r) (e_offset e + 64) (e_size e - 64)) ->
  readBlock (on_bytes d r) i = readBlock r i.
Proof.
  intros H. unfold readBlock. cbn [on_bytes r_index r_data r_open r_header]. destruct (_ || _); [reflexivity|].
  destruct (nth_error (r_index r) (Z.to_nat i)) as [e|]; [|reflexivity]. destruct (H e eq_refl) as (H1 & H2 & H3 & H4). cbv zeta.
  assert (E : readBytesAt d (r_open r) (i64 (i64 (e_offset e) + blockHeaderSize)) (e_size e - blockHeaderSize)
            = readBytesAt (r_data r) (r_open r) (i64 (i64 (e_offset e) + blockHeaderSize)) (e_size e - blockHeaderSize)).
  { rewrite (i64_id (e_offset e)) by (unfold is_i64, two63 in *; lia). rewrite i64_id by (unfold is_i64, two63, blockHeaderSize in *; lia).
    unfold readBytesAt, blockHeaderSize. rewrite H4. reflexivity. }
  rewrite E. reflexivity.
Qed.
Lemma block_kept r d i : needs r (r_data r) -> kept (zlen (r_data r)) (r_data r) d -> readBlock (on_bytes d r) i = readBlock r i.
Proof.
  intros (N1 & _ & _ & _ & N5 & _) K. apply block_frame. intros e He. apply nth_error_In in He. rewrite Forall_forall in N1. destruct (N1 e He) as (A & B & C).
  split; [exact A|]. split; [exact B|]. split; [lia|]. apply (kept_slice (zlen (r_data r)) (r_data r) d); lia || exact K.
Qed.
Lemma load_kept r d : needs r (r_data r) -> kept (zlen (r_data r)) (r_data r) d -> loadGlobalIDBitmap (on_bytes d r) = loadGlobalIDBitmap r.
Proof.
  intros (_ & N2 & N3 & N4 & N5 & N6) K. unfold loadGlobalIDBitmap. cbn [on_bytes r_data r_open r_header].
  destruct (_ || _); [reflexivity|]. cbv zeta. set (off := h_bitmapOffset (r_header r)) in *.
  rewrite (i64_id off) by (unfold is_i64, two63 in *; lia). rewrite i64_id by (unfold is_i64, two63 in *; lia).
  rewrite (kept_bytes (zlen (r_data r)) (r_data r) d _ off 4) by (exact K || lia).
  assert (Hs : forall b, readBytesAt (r_data r) (r_open r) off 4 = Ok b -> b = slice (r_data r) off 4).
  { intros b. unfold readBytesAt. change (4 <? 0) with false. change (4 =? 0) with false. cbv iota.
    destruct (off <? 0); [discriminate|]. destruct (negb (r_open r)); [discriminate|]. destruct (_ >? _); [discriminate|]. cbv zeta. rewrite zeros_nil; [rewrite app_nil_r; congruence|]. rewrite zlen_slice by lia. lia. }
  destruct (readBytesAt (r_data r) (r_open r) off 4) as [b|e|]; cbn [rbind]; try reflexivity. rewrite (Hs b eq_refl).
  unfold readBufferedUint32, readBuffered. destruct (_ || _); cbn [rbind]; [reflexivity|].
  assert (E4 : slice (slice (r_data r) off 4) 0 4 = slice (r_data r) off 4).
  { rewrite slice_slice by lia. f_equal; lia. }
  rewrite E4. pose proof (le_val_range (slice (r_data r) off 4) N6).
  rewrite (kept_bytes (zlen (r_data r)) (r_data r) d _ (off + 4)) by (exact K || lia). reflexivity.
Qed.

(** ** Finished files *)
Lemma finalize_end now w a w' : Finalize now w = (Ok a, w') -> offset_at_end w'.
Proof.
  intros E. unfold Finalize in E.
  destruct (bind_cases _ _ _ _ _ E) as [([o z] & w1 & E1 & E2)|[E1 N]]; [|destruct (N a eq_refl)]. clear E.
  destruct (bind_cases _ _ _ _ _ E2) as [(n & w2 & E3 & E4)|[E3 N]]; [|destruct (N a eq_refl)]. clear E2. unfold mbind at 1, mget at 1 in E4.
  destruct (bind_cases _ _ _ _ _ E4) as [(n3 & w3 & E5 & E6)|[E5 N]]; [|destruct (N a eq_refl)]. clear E4.
  destruct (bind_cases _ _ _ _ _ E6) as [(n4 & w4 & E7 & E8)|[E7 N]]; [|destruct (N a eq_refl)]. clear E6.
  assert (A4 : at_end w4).
  { unfold seek, mfile, file_seek in E7. destruct (f_open (w_file w3)) eqn:O; [|discriminate E7].
    destruct (f_faults (w_file w3)) as [|[|k] fs]; cbn [Z.add] in E7; [destruct (_ <? 0) in E7|destruct (_ <? 0) in E7|]; try discriminate E7;
      injection E7 as _ <-; (split; [exact O|reflexivity]). }
  match type of E8 with ?m w4 = _ => assert (G : stays m) end.
  { clear. apply stays_bind; [apply stays_seek_cur|]. intros p. cbv zeta. apply stays_bind; [match goal with |- stays (if ?c then _ else _) => destruct c end; [apply stays_write|apply stays_ret]|]. intros _.
    apply stays_bind; [apply stays_seek_cur|]. intros q. apply stays_bind; [apply stays_write|]. intros _.
    apply stays_bind; [match goal with |- stays (if ?c then _ else _) => destruct c end; [match goal with |- stays (if ?c then _ else _) => destruct c end; [apply stays_fail|apply stays_entries]|apply stays_ret]|]. intros _.
    apply stays_bind; [apply stays_seek_cur|]. intros fe. apply stays_bind; [apply stays_write|]. intros _. apply stays_bind; [apply stays_write|]. intros _.
    apply stays_bind; [apply stays_write|]. intros _. apply stays_bind; [apply stays_seek_cur|]. intros ff.
    match goal with |- stays (if ?c then _ else _) => destruct c end; [apply stays_fail|]. match goal with |- stays (if ?c then _ else _) => destruct c end; [apply stays_fail|apply stays_sync]. }
  specialize (G w4 A4). rewrite E8 in G. apply G.
Qed.
Lemma finished_end options faults h now w : finished_run options faults h now w -> offset_at_end w.
Proof.
  intros [now0 w0 f0 cs outs w1 fin n _ _ _ _ _ _ [->| ->] E _]; cbn [run_call] in E.
  - destruct (bind_cases _ _ _ _ _ E) as [(a & w2 & E1 & E2)|[E1 N]]; [|destruct (N n eq_refl)]. injection E2 as _ <-. exact (finalize_end _ _ _ _ E1).
  - destruct (bind_cases _ _ _ _ _ E) as [(a & w2 & E1 & E2)|[E1 N]]; [|destruct (N n eq_refl)]. injection E2 as _ <-.
    unfold FinalizeAndClose in E1. destruct (bind_cases _ _ _ _ _ E1) as [(b & w3 & E3 & E4)|[E3 N]]; [|destruct (N a eq_refl)].
    apply finalize_end in E3. unfold offset_at_end in *. unfold closeFile, mfile, file_close in E4. destruct (f_open (w_file w3)); [|discriminate E4].
    destruct (f_faults (w_file w3)) as [|[|k] fs]; try discriminate E4; injection E4 as _ <-; exact E3.
Qed.
Lemma finished_needs options faults h now w r : finished_run options faults h now w -> NewReader (bytes_of w) = Ok r ->
  r_data r = bytes_of w /\ needs r (bytes_of w) /\ 64 <= zlen (bytes_of w).
Proof.
  intros H Hr. destruct (finished_facts options faults h now w H) as (blocks & A & X & L & off & _ & _ & HF & HL & _ & _ & HN).
  rewrite HN in Hr. injection Hr as <-. cbn [the_reader r_data r_index r_header h_bitmapOffset].
  assert (EX : zlen X <= zlen (bytes_of w)).
  { rewrite (fz_data _ _ _ _ _ _ _ _ HF), zlen_app. match goal with |- _ <= _ + zlen ?x => pose proof (zlen_nonneg x) end. lia. }
  destruct (fz_off _ _ _ _ _ _ _ _ HF) as [O1 O2]. pose proof (fz_bitmap _ _ _ _ _ _ _ _ HF) as HB.
  set (b := fold_left bm_set A bm_new) in *. clearbody b. set (F := bytes_of w) in *.
  assert (EF : forall o n, 0 <= o -> 0 <= n -> o + n <= zlen X -> slice F o n = slice X o n).
  { intros o n Ho Hn Hl. rewrite (fz_data _ _ _ _ _ _ _ _ HF). apply slice_app_l; lia. }
  assert (EB : slice F off 4 = le_bytes 4 (u32 (zlen (bm_ser b)))).
  { assert (Z1 : zlen (bitmap_bytes b) = 4 + zlen (bm_ser b)) by (unfold bitmap_bytes; rewrite zlen_app, zlen_le_bytes; lia).
    pose proof (zlen_nonneg (bm_ser b)). rewrite EF by lia.
    replace (slice X off 4) with (slice (slice X off (zlen (bitmap_bytes b))) 0 4) by (rewrite slice_slice by lia; f_equal; lia).
    rewrite HB. unfold bitmap_bytes. rewrite slice_app_l by (rewrite ?zlen_le_bytes; lia). reflexivity. }
  assert (ZB : zlen (bitmap_bytes b) = 4 + zlen (bm_ser b)) by (unfold bitmap_bytes; rewrite zlen_app, zlen_le_bytes; lia).
  pose proof (zlen_nonneg (bm_ser b)) as NB. pose proof (lim_bitmap _ _ _ _ _ HL) as LB.
  split; [reflexivity|]. split; [|lia]. unfold needs. cbn [the_reader r_data r_index r_header h_bitmapOffset].
  split; [|split; [exact O1|split; [lia|split; [|split; [exact (lim_file _ _ _ _ _ HL)|]]]]].
  - pose proof (v_sizes _ _ (finalized_indexed _ _ _ _ _ _ _ _ HF HL)) as VS. cbn [the_reader r_index] in VS.
    rewrite Forall_forall in *. intros x Hx. specialize (VS x Hx). split; [|split; [exact VS|]]; apply in_map_iff in Hx; destruct Hx as (y & <- & Hy);
      pose proof (fz_blocks _ _ _ _ _ _ _ _ HF) as PL; rewrite Forall_forall in PL; destruct (PL y Hy) as (_ & _ & P1 & P2 & _); cbn [entry_of e_offset e_size]; lia.
  - rewrite EB, le_val_4. unfold u32, two32 in *. rewrite Z.mod_mod by lia. rewrite Z.mod_small by lia. lia.
  - rewrite EB. apply le_bytes_bytes.
Qed.

(** ** Everything computed from blocks and bitmap *)
Definition same_blocks (d : list Z) (r : reader) : Prop :=
  (forall i, readBlock (on_bytes d r) i = readBlock r i) /\ loadGlobalIDBitmap (on_bytes d r) = loadGlobalIDBitmap r.
Lemma sequential_same d r opts : same_blocks d r -> aggregateSequential (on_bytes d r) opts = aggregateSequential r opts.
Proof.
  intros [H _]. unfold aggregateSequential, aggregateWithFilter.
  change (FilteredBlockIterator (on_bytes d r)) with (FilteredBlockIterator r). change (r_index (on_bytes d r)) with (r_index r). change (BlockCount (on_bytes d r)) with (BlockCount r).
  destruct (has_filter opts).
  - destruct (FilteredBlockIterator r _ _) as [m| |]; cbn [rbind]; try reflexivity. destruct (zlen m =? 0); [reflexivity|].
    rewrite (scan_ext _ (fun i => readBlockFiltered r (i64 i) (o_filter opts) (o_deny opts))); [reflexivity|]. intros i. unfold readBlockFiltered. rewrite H. reflexivity.
  - destruct (_ && _); [reflexivity|]. rewrite (scan_ext _ (GetPairs r)); [reflexivity|]. intros i. apply H.
Qed.
Lemma aggregate_same d r g sched opts : same_blocks d r -> AggregateWithOptions g sched (on_bytes d r) opts = AggregateWithOptions g sched r opts.
Proof.
  intros S. unfold AggregateWithOptions. rewrite (sequential_same d r opts S). change (parallelPlan g (on_bytes d r) opts) with (parallelPlan g r opts).
  destruct (o_parallel opts =? 0); [reflexivity|]. destruct (parallelPlan g r opts); try reflexivity.
  rewrite (run_ext _ (blk_read r opts)); [reflexivity|]. intros i a. unfold blk_read, readBlockFiltered, GetPairs. rewrite !(proj1 S). reflexivity.
Qed.
Lemma bitmap_same d r h : same_blocks d r ->
  GetGlobalIDBitmap (on_bytes d r) h = let '(a, r', h') := GetGlobalIDBitmap r h in (a, on_bytes d r', h').
Proof.
  intros [_ H]. unfold GetGlobalIDBitmap. change (r_globalIDs (on_bytes d r)) with (r_globalIDs r). change (r_cacheGlobalIDs (on_bytes d r)) with (r_cacheGlobalIDs r). rewrite H.
  destruct (r_globalIDs r), (r_cacheGlobalIDs r), (loadGlobalIDBitmap r); reflexivity.
Qed.
Lemma same_cache d r p on : same_blocks d r -> same_blocks d (set_cache r p on).
Proof. intros H. exact H. Qed.
Lemma get_same d r h : same_blocks d r -> same_blocks d (snd (fst (GetGlobalIDBitmap r h))).
Proof.
  intros H. unfold GetGlobalIDBitmap. destruct (r_globalIDs r), (r_cacheGlobalIDs r); [exact H| | |]; destruct (loadGlobalIDBitmap r); cbn [fst snd alloc]; try exact H; apply same_cache; exact H.
Qed.
Lemma kept_same r d : needs r (r_data r) -> kept (zlen (r_data r)) (r_data r) d -> same_blocks d r.
Proof. intros N K. split; [intros i; apply block_kept; assumption|apply load_kept; assumption]. Qed.

Definition elsewhere (r r' : reader) : Prop := exists d, same_blocks d r /\ r' = on_bytes d r.
Lemma loop_same opts : forall rs rs' deny res h, Forall2 elsewhere rs rs' ->
  fst (fst (multiLoop opts rs' deny res h)) = fst (fst (multiLoop opts rs deny res h)) /\ snd (multiLoop opts rs' deny res h) = snd (multiLoop opts rs deny res h)
  /\ Forall2 elsewhere (snd (fst (multiLoop opts rs deny res h))) (snd (fst (multiLoop opts rs' deny res h))).
Proof.
  induction rs as [|r rs IH]; intros rs' deny res h F; inversion F as [|r0 r' rs0 rs1 Hr Frs]; subst; cbn [multiLoop]; [auto|].
  assert (Hr0 := Hr). destruct Hr as (d & S & ->). rewrite (sequential_same d r _ S).
  destruct (aggregateSequential r _) as [a|e|]; [|cbn [fst snd]; auto..]. rewrite (bitmap_same d r h S). pose proof (get_same d r h S) as S'.
  destruct (GetGlobalIDBitmap r h) as [[[p|e|] r1] h1]; cbn [fst snd] in *.
  - destruct (nth_error h1 p) as [g|]; [|cbn [fst snd]; split; [reflexivity|split; [reflexivity|constructor; [exists d; auto|exact Frs]]]].
    specialize (IH rs1 (bm_or deny g) (if a_count res =? 0 then a else mergeAggregateResults res a) h1 Frs).
    destruct (multiLoop opts rs _ _ h1) as [[x y] z]. destruct (multiLoop opts rs1 _ _ h1) as [[x' y'] z']. cbn [fst snd] in *. destruct IH as (-> & -> & I3).
    split; [reflexivity|]. split; [reflexivity|]. constructor; [exists d; auto|exact I3].
  - split; [reflexivity|]. split; [reflexivity|]. constructor; [exists d; auto|exact Frs].
  - split; [reflexivity|]. split; [reflexivity|]. constructor; [exists d; auto|exact Frs].
Qed.
Lemma Forall2_rev {A B} (R : A -> B -> Prop) l l' : Forall2 R l l' -> Forall2 R (rev l) (rev l').
Proof. induction 1 as [|x y l l' H F IH]; cbn [rev]; [constructor|]. apply Forall2_app; [exact IH|]. constructor; [exact H|constructor]. Qed.
Lemma multi_same opts rs rs' h : Forall2 elsewhere rs rs' ->
  fst (fst (MultiAggregate opts rs' h)) = fst (fst (MultiAggregate opts rs h)) /\ snd (MultiAggregate opts rs' h) = snd (MultiAggregate opts rs h)
  /\ Forall2 elsewhere (snd (fst (MultiAggregate opts rs h))) (snd (fst (MultiAggregate opts rs' h))).
Proof.
  intros F. unfold MultiAggregate. assert (Z : zlen rs' = zlen rs) by (unfold zlen; f_equal; symmetry; clear - F; induction F; cbn [length]; congruence). rewrite Z.
  destruct (zlen rs =? 0); [cbn [fst snd]; auto|].
  pose proof (loop_same opts (rev rs) (rev rs') bm_new zeroResult h (Forall2_rev _ _ _ F)) as T.
  destruct (multiLoop opts (rev rs) _ _ h) as [[x y] z]. destruct (multiLoop opts (rev rs') _ _ h) as [[x' y'] z']. cbn [fst snd] in *.
  destruct T as (-> & -> & T). split; [reflexivity|]. split; [reflexivity|]. apply Forall2_rev. exact T.
Qed.

(** A Reader opened on a finished file, whatever its cache, sees the same blocks later. *)
Lemma finished_same options faults h now w r d p on : finished_run options faults h now w -> NewReader (bytes_of w) = Ok r -> seen_later w d ->
  same_blocks d (set_cache r p on).
Proof.
  intros H Hr Hd. destruct (finished_needs _ _ _ _ _ _ H Hr) as (E & N & L64). pose proof (finished_end _ _ _ _ _ H) as Hp.
  apply same_cache. apply kept_same; rewrite E; [exact N|]. apply seen_kept; [lia| |exact Hd]. unfold offset_at_end, bytes_of in *. lia.
Qed.
End R.

