(** Two runs of the same calls at different times: a relational proof. *)
From Verif Require Import Machine MachineFacts FileIO FileFacts Encoding Sroar Writer SimpleWriter Reader Aggregate Parallel Spec SimpleSpec ReaderFacts ReachFacts.
From Coq Require Import Lia ZifyBool.

Lemma nth_error_firstn' {A} n (l : list A) i : nth_error (firstn n l) i = if Nat.ltb i n then nth_error l i else None.
Proof.
  revert l i. induction n as [|n IH]; intros l i; cbn [firstn]; [destruct i; reflexivity|].
  destruct l as [|x l]; [destruct i as [|i]; [reflexivity|]; cbn [nth_error]; destruct (Nat.ltb (S i) (S n)); reflexivity|].
  destruct i as [|i]; [reflexivity|]. cbn [nth_error]. rewrite IH. reflexivity.
Qed.
Lemma nth_error_skipn' {A} n (l : list A) i : nth_error (skipn n l) i = nth_error l (n + i).
Proof. revert l. induction n as [|n IH]; intros l; [reflexivity|]. destruct l as [|x l]; cbn; [destruct i; reflexivity|]. apply IH. Qed.
Lemma nth_error_app' {A} (l1 l2 : list A) i :
  nth_error (l1 ++ l2) i = if Nat.ltb i (length l1) then nth_error l1 i else nth_error l2 (i - length l1).
Proof.
  destruct (Nat.ltb_spec i (length l1)); [apply nth_error_app1; assumption|apply nth_error_app2; assumption].
Qed.

Lemma zlen_overwrite_same D1 D2 p bs1 bs2 : 0 <= p -> zlen D1 = zlen D2 -> zlen bs1 = zlen bs2 ->
  zlen (overwrite D1 p bs1) = zlen (overwrite D2 p bs2).
Proof.
  intros Hp HD Hb. destruct bs1 as [|b1 bs1]; destruct bs2 as [|b2 bs2]; try (rewrite ?zlen_cons, ?zlen_nil in Hb; pose proof (zlen_nonneg bs1); pose proof (zlen_nonneg bs2); lia).
  - exact HD.
  - pose proof (zlen_nonneg bs2). rewrite zlen_cons, zlen_nil in Hb. lia.
  - pose proof (zlen_nonneg bs1). rewrite zlen_cons, zlen_nil in Hb. lia.
  - rewrite !zlen_overwrite by (auto; left; discriminate). lia.
Qed.

(** Overwriting the same place with byte strings that agree outside the window. *)
Lemma alike_overwrite D1 D2 p bs1 bs2 : 0 <= p -> same_but_time D1 D2 -> zlen bs1 = zlen bs2 ->
  (forall j, ~ 36 <= p + Z.of_nat j < 44 -> nth_error bs1 j = nth_error bs2 j) ->
  same_but_time (overwrite D1 p bs1) (overwrite D2 p bs2).
Proof.
  intros Hp [HL HD] Hb Hn. split; [apply zlen_overwrite_same; assumption|]. intros i Hi.
  destruct bs1 as [|b1 bs1]; destruct bs2 as [|b2 bs2].
  - apply HD, Hi.
  - pose proof (zlen_nonneg bs2). rewrite zlen_cons, zlen_nil in Hb. lia.
  - pose proof (zlen_nonneg bs1). rewrite zlen_cons, zlen_nil in Hb. lia.
  - unfold overwrite. set (B1 := b1 :: bs1) in *. set (B2 := b2 :: bs2) in *. clearbody B1 B2.
    unfold ztake, zdrop, zeros. rewrite !nth_error_app', !nth_error_firstn', !nth_error_skipn', HL, !firstn_length, !repeat_length.
    unfold zlen in *. apply Nat2Z.inj in HL, Hb. rewrite HL, Hb.
    destruct (Nat.ltb_spec i (Nat.min (Z.to_nat p) (length D2))).
    + destruct (Nat.ltb_spec i (Z.to_nat p)); [apply HD, Hi|reflexivity].
    + destruct (Nat.ltb_spec (i - Nat.min (Z.to_nat p) (length D2)) (Z.to_nat (p - Z.of_nat (length D2)))); [reflexivity|].
      set (j := (i - _ - _)%nat).
      assert (Hj : Z.of_nat i = p + Z.of_nat j) by (subst j; lia).
      destruct (Nat.ltb_spec j (length B2)); [apply Hn; lia|].
      apply HD. lia.
Qed.

Section Repro.
Context {Srr : Sroar}.

Definition wpos (w : writer) : Z := f_pos (w_file w).

(** The two writers are alike except for the creation time in the file. *)
Record twin (w1 w2 : writer) : Prop := {
  tw_data : same_but_time (f_data (w_file w1)) (f_data (w_file w2));
  tw_pos : f_pos (w_file w2) = f_pos (w_file w1);
  tw_nonneg : 0 <= f_pos (w_file w1);
  tw_rest : set_file w2 (mkFile [] 0 (f_open (w_file w2)) (f_faults (w_file w2)))
            = set_file w1 (mkFile [] 0 (f_open (w_file w1)) (f_faults (w_file w1)))
}.

Definition sim {A} (P : Z -> Prop) (m1 m2 : M A) (Q : A -> Z -> Prop) : Prop :=
  forall w1 w2, twin w1 w2 -> P (wpos w1) ->
  exists r w1' w2', m1 w1 = (r, w1') /\ m2 w2 = (r, w2') /\ twin w1' w2'
    /\ (forall a, r = Ok a -> Q a (wpos w1')).
Notation any := (fun _ => True).
Notation any2 := (fun _ _ => True).

Lemma sim_conseq {A} (P P' : Z -> Prop) (m1 m2 : M A) (Q Q' : A -> Z -> Prop) :
  sim P m1 m2 Q -> (forall p, P' p -> P p) -> (forall a p, Q a p -> Q' a p) -> sim P' m1 m2 Q'.
Proof.
  intros H HP HQ w1 w2 T Hp. destruct (H w1 w2 T (HP _ Hp)) as (r & w1' & w2' & E1 & E2 & T' & Hq).
  exists r, w1', w2'. repeat (split; [assumption|]). intros a Ha. apply HQ, Hq, Ha.
Qed.
Lemma sim_bind {A B} P (m1 m2 : M A) Q (k1 k2 : A -> M B) R :
  sim P m1 m2 Q -> (forall a, sim (Q a) (k1 a) (k2 a) R) -> sim P (mbind m1 k1) (mbind m2 k2) R.
Proof.
  intros H1 H2 w1 w2 T Hp. destruct (H1 w1 w2 T Hp) as (r & w1' & w2' & E1 & E2 & T' & Hq).
  unfold mbind. rewrite E1, E2. destruct r as [a|e|].
  - apply (H2 a w1' w2' T'). apply Hq. reflexivity.
  - exists (Err e), w1', w2'. repeat (split; [assumption||reflexivity|]). intros a Ha; discriminate.
  - exists Panic, w1', w2'. repeat (split; [assumption||reflexivity|]). intros a Ha; discriminate.
Qed.
Lemma sim_pure {A} P (r : res A) : sim P (fun w => (r, w)) (fun w => (r, w)) any2.
Proof. intros w1 w2 T _. exists r, w1, w2. auto. Qed.
Lemma sim_get P {B} (k1 k2 : writer -> M B) R :
  (forall w, sim P (k1 w) (k2 w) R) ->
  (forall w f, k1 (set_file w f) = k1 w) -> 
  sim P (mbind mget k1) (mbind mget k2) R.
Proof.
  intros H E w1 w2 T Hp. unfold mbind, mget.
  assert (K : k1 w1 = k1 w2).
  { rewrite <- (E w1 (mkFile [] 0 (f_open (w_file w1)) (f_faults (w_file w1)))), <- (tw_rest _ _ T). apply E. }
  destruct (H w2 w1 w2 T Hp) as (r & w1' & w2' & E1 & E2 & X). exists r, w1', w2'. rewrite K. auto.
Qed.
Lemma sim_modify P (g : writer -> writer) :
  (forall w f, g (set_file w f) = set_file (g w) f) -> sim P (mmodify g) (mmodify g) (fun _ p => P p).
Proof.
  intros Hg w1 w2 T Hp. exists (Ok tt), (g w1), (g w2). split; [reflexivity|]. split; [reflexivity|].
  assert (F : forall w, w_file (g w) = w_file w).
  { intros w. replace w with (set_file w (w_file w)) at 1 by (destruct w; reflexivity). rewrite Hg. reflexivity. }
  split; [|intros; unfold wpos; rewrite F; exact Hp].
  destruct T as [T1 T2 T3 T4]. constructor; rewrite !F; try assumption.
  rewrite <- !Hg, T4. reflexivity.
Qed.

(** File operations. *)
Lemma twin_file w1 w2 f1 f2 : twin w1 w2 -> same_but_time (f_data f1) (f_data f2) -> f_pos f2 = f_pos f1 -> 0 <= f_pos f1 ->
  f_open f2 = f_open f1 -> f_faults f2 = f_faults f1 -> twin (set_file w1 f1) (set_file w2 f2).
Proof.
  intros [_ _ _ T] H1 H2 H3 H4 H5. constructor; cbn [w_file set_file]; try assumption.
  rewrite H4, H5. destruct w1, w2. unfold set_file in *. cbn in *. injection T; intros; subst. reflexivity.
Qed.
Lemma twin_open w1 w2 : twin w1 w2 -> f_open (w_file w2) = f_open (w_file w1) /\ f_faults (w_file w2) = f_faults (w_file w1).
Proof. intros T. pose proof (tw_rest _ _ T) as E. apply (f_equal w_file) in E. cbn in E. injection E as E1 E2. auto. Qed.

Lemma sim_seek (P : Z -> Prop) off wh :
  sim P (seek off wh) (seek off wh)
      (fun a p => p = a /\ 0 <= p /\ (wh = SeekStart -> a = off) /\ (wh = SeekCurrent -> off = 0 -> P a)).
Proof.
  intros w1 w2 T Hp. destruct (twin_open _ _ T) as [O F]. assert (T' := T). destruct T as [[TL TD] T2 T3 T4].
  unfold seek, mfile, file_seek. rewrite O, F, T2, TL. unfold wpos in *.
  destruct (f_open (w_file w1)) eqn:Eo.
  - assert (S : forall q, 0 <= q -> twin (set_file w1 (set_pos (w_file w1) q)) (set_file w2 (set_pos (w_file w2) q))).
    { intros q Hq. apply twin_file; cbn; try assumption; [split; assumption|reflexivity|rewrite O, Eo; reflexivity|rewrite F; reflexivity]. }
    destruct (f_faults (w_file w1)) as [|[|k] fs] eqn:Ef.
    + destruct (_ <? 0) eqn:En.
      * exists (Err ErrIO). eexists _, _. split; [reflexivity|]. split; [reflexivity|]. split; [apply S; assumption|]. intros a Ha; discriminate.
      * eexists (Ok _), _, _. split; [reflexivity|]. split; [reflexivity|]. split; [apply S; lia|]. intros a Ha. injection Ha as <-. cbn.
        split; [reflexivity|]. split; [lia|]. split; [intros ->; lia|]. intros -> ->. rewrite Z.add_0_l. exact Hp.
    + destruct (_ <? 0) eqn:En.
      * exists (Err ErrIO). eexists _, _. split; [reflexivity|]. split; [reflexivity|]. split; [apply S; assumption|]. intros a Ha; discriminate.
      * eexists (Ok _), _, _. split; [reflexivity|]. split; [reflexivity|]. split; [apply S; lia|]. intros a Ha. injection Ha as <-. cbn.
        split; [reflexivity|]. split; [lia|]. split; [intros ->; lia|]. intros -> ->. rewrite Z.add_0_l. exact Hp.
    + exists (Err ErrIO). eexists _, _. split; [reflexivity|]. split; [reflexivity|]. split; [apply S; assumption|]. intros a Ha; discriminate.
  - exists (Err ErrIO). eexists _, _. split; [reflexivity|]. split; [reflexivity|]. split; [|intros a Ha; discriminate].
    apply twin_file; cbn; try assumption; [split; assumption|congruence].
Qed.

(** Writing strings of the same length that agree outside the window. *)
Lemma sim_write_two (p0 : Z -> Prop) (bs1 bs2 : list Z) : zlen bs1 = zlen bs2 ->
  (forall p j, p0 p -> ~ 36 <= p + Z.of_nat j < 44 -> nth_error bs1 j = nth_error bs2 j) ->
  sim p0 (write bs1) (write bs2) (fun a p => a = zlen bs1 /\ exists q, p0 q /\ p = q + zlen bs1).
Proof.
  intros Hl Hn w1 w2 T Hp. destruct (twin_open _ _ T) as [O F]. assert (T' := T). destruct T as [T1 T2 T3 T4].
  unfold write, mfile, file_write, write_at. rewrite O, F, T2. unfold wpos in *. destruct (f_open (w_file w1)) eqn:Eo.
  - assert (W : forall x1 x2, zlen x1 = zlen x2 -> (forall j, ~ 36 <= f_pos (w_file w1) + Z.of_nat j < 44 -> nth_error x1 j = nth_error x2 j) ->
      twin (set_file w1 (mkFile (overwrite (f_data (w_file w1)) (f_pos (w_file w1)) x1) (f_pos (w_file w1) + zlen x1) true (tl (f_faults (w_file w1)))))
           (set_file w2 (mkFile (overwrite (f_data (w_file w2)) (f_pos (w_file w1)) x2) (f_pos (w_file w1) + zlen x2) true (tl (f_faults (w_file w1)))))).
    { intros x1 x2 E1 E2. pose proof (zlen_nonneg x1). apply twin_file; cbn; try assumption; try reflexivity; [|lia|lia].
      apply alike_overwrite; assumption. }
    destruct (f_faults (w_file w1)) as [|[|k] fs] eqn:Ef.
    + eexists (Ok (zlen bs1)), _, _. split; [reflexivity|]. split; [rewrite Hl; reflexivity|]. split.
      * apply W; [exact Hl|]. intros j. apply Hn, Hp.
      * intros a Ha. injection Ha as <-. split; [reflexivity|]. exists (f_pos (w_file w1)). split; [exact Hp|reflexivity].
    + eexists (Ok (zlen bs1)), _, _. split; [reflexivity|]. split; [rewrite Hl; reflexivity|]. split.
      * apply W; [exact Hl|]. intros j. apply Hn, Hp.
      * intros a Ha. injection Ha as <-. split; [reflexivity|]. exists (f_pos (w_file w1)). split; [exact Hp|reflexivity].
    + eexists (Err _), _, _. split; [reflexivity|]. split; [reflexivity|]. split; [|intros a Ha; discriminate].
      apply W; [rewrite !zlen_ztake; lia|]. intros j Hj. unfold ztake. rewrite !nth_error_firstn'. destruct (Nat.ltb _ _); [|reflexivity].
      apply (Hn _ _ Hp Hj).
  - eexists (Err _), _, _. split; [reflexivity|]. split; [reflexivity|]. split; [|intros a Ha; discriminate].
    apply twin_file; cbn; try assumption; congruence.
Qed.
Lemma sim_write p0 bs : sim p0 (write bs) (write bs) (fun a p => a = zlen bs /\ exists q, p0 q /\ p = q + zlen bs).
Proof. apply sim_write_two; reflexivity. Qed.
Lemma sim_mfile {A} P (op : file -> res A * file) :
  (forall f1 f2, f_open f2 = f_open f1 -> f_faults f2 = f_faults f1 -> f_pos f2 = f_pos f1 ->
     exists r o fs, op f1 = (r, mkFile (f_data f1) (f_pos f1) o fs) /\ op f2 = (r, mkFile (f_data f2) (f_pos f2) o fs)) ->
  sim P (mfile op) (mfile op) (fun _ p => P p).
Proof.
  intros H w1 w2 T Hp. destruct (twin_open _ _ T) as [O F]. assert (T' := T). destruct T as [T1 T2 T3 T4].
  destruct (H _ _ O F T2) as (r & o & fs & E1 & E2). unfold mfile. rewrite E1, E2.
  eexists r, _, _. split; [reflexivity|]. split; [reflexivity|]. split; [|intros; exact Hp].
  apply twin_file; cbn; try assumption; reflexivity.
Qed.
Lemma sim_sync P : sim P sync sync (fun _ p => P p).
Proof.
  apply sim_mfile. intros [D1 p1 o1 fs1] [D2 p2 o2 fs2]. cbn. intros -> -> ->. unfold file_sync. cbn.
  destruct o1; [|eexists _, _, _; split; reflexivity]. destruct fs1 as [|[|k] fs]; eexists _, _, _; split; reflexivity.
Qed.
Lemma sim_close P : sim P closeFile closeFile (fun _ p => P p).
Proof.
  apply sim_mfile. intros [D1 p1 o1 fs1] [D2 p2 o2 fs2]. cbn. intros -> -> ->. unfold file_close. cbn.
  destruct o1; [|eexists _, _, _; split; reflexivity]. destruct fs1 as [|[|k] fs]; eexists _, _, _; split; reflexivity.
Qed.

(** Programs that do not depend on the time. *)
Definition stable {A} (m : M A) : Prop := sim any m m any2.
Lemma stable_any {A} P (m : M A) : stable m -> sim P m m any2.
Proof. intros H. eapply sim_conseq; [exact H|cbn; auto|cbn; auto]. Qed.
Lemma any_stable {A} (m : M A) Q : sim any m m Q -> stable m.
Proof. intros H. eapply sim_conseq; [exact H|cbn; auto|cbn; auto]. Qed.
Lemma stable_bind {A B} (m : M A) (k : A -> M B) : stable m -> (forall a, stable (k a)) -> stable (mbind m k).
Proof. intros H K. eapply sim_bind; [exact H|]. intros a. apply stable_any, K. Qed.
Lemma stable_ret {A} (a : A) : stable (mret a). Proof. apply sim_pure. Qed.
Lemma stable_fail {A} e : stable (mfail (A := A) e). Proof. apply sim_pure. Qed.
Lemma stable_panic {A} : stable (mpanic (A := A)). Proof. apply sim_pure. Qed.
Lemma stable_lift {A} (r : res A) : stable (mlift r). Proof. apply sim_pure. Qed.
Lemma stable_seek off wh : stable (seek off wh). Proof. eapply any_stable, sim_seek. Qed.
Lemma stable_write bs : stable (write bs). Proof. eapply any_stable, sim_write. Qed.
Lemma stable_sync : stable sync. Proof. eapply any_stable, sim_sync. Qed.
Lemma stable_close : stable closeFile. Proof. eapply any_stable, sim_close. Qed.
Lemma stable_writeInt n x : stable (writeInt n x). Proof. apply stable_write. Qed.
Lemma stable_modify g : (forall w f, g (set_file w f) = set_file (g w) f) -> stable (mmodify g).
Proof. intros H. eapply any_stable, sim_modify, H. Qed.
Lemma stable_get {B} (k : writer -> M B) : (forall w, stable (k w)) -> (forall w f, k (set_file w f) = k w) -> stable (mbind mget k).
Proof. intros H E. apply sim_get; assumption. Qed.
Lemma stable_writeAll l : forall acc, stable (writeAll l acc).
Proof.
  induction l as [|bs l IH]; intros acc; cbn [writeAll]; [apply stable_ret|]. apply stable_bind; [apply stable_write|]. intros n. apply IH.
Qed.
Ltac stable_step :=
  lazymatch goal with
  | |- forall _, _ => intro
  | |- stable (mbind mget _) => apply stable_get; [|intros; reflexivity]
  | |- stable (mbind _ _) => apply stable_bind
  | |- stable (mret _) => apply stable_ret
  | |- stable (mfail _) => apply stable_fail
  | |- stable mpanic => apply stable_panic
  | |- stable (mlift _) => apply stable_lift
  | |- stable (seek _ _) => apply stable_seek
  | |- stable (write _) => apply stable_write
  | |- stable (writeInt _ _) => apply stable_writeInt
  | |- stable (writeAll _ _) => apply stable_writeAll
  | |- stable sync => apply stable_sync
  | |- stable closeFile => apply stable_close
  | |- stable (mmodify _) => apply stable_modify; intros; reflexivity
  | |- stable (let '(_, _) := ?x in _) => destruct x
  | |- stable (if ?b then _ else _) => destruct b
  end.

Lemma stable_Estimate ids vals : stable (EstimateBlockSize ids vals).
Proof. unfold EstimateBlockSize. repeat (cbv zeta; stable_step). Qed.
Lemma stable_blockHeader a b c d e f : stable (writeBlockHeader a b c d e f).
Proof. unfold writeBlockHeader. repeat (cbv zeta; stable_step). Qed.
Lemma stable_section b x y : stable (writeSection b x y).
Proof. unfold writeSection. repeat (cbv zeta; stable_step). Qed.
Lemma stable_internal ids vals : stable (writeBlockInternal ids vals).
Proof.
  unfold writeBlockInternal. repeat (cbv zeta; first [apply stable_blockHeader|apply stable_section|stable_step]).
Qed.
Lemma stable_optimal ids vals idx : forall o, stable (findOptimal ids vals idx o).
Proof.
  induction idx as [|i idx IH]; intros o; cbn [findOptimal]; [apply stable_ret|].
  intros w1 w2 T _. destruct (stable_Estimate (ztake i ids) (ztake i vals) w1 w2 T I) as (r & w1' & w2' & E1 & E2 & T' & _).
  rewrite E1, E2. destruct r as [size|e|].
  - assert (K : w_target w2' = w_target w1') by (pose proof (tw_rest _ _ T') as E; apply (f_equal w_target) in E; exact E).
    rewrite K. destruct (size <=? w_target w1').
    + destruct (IH i w1' w2' T' I) as (r & a & b & X). exists r, a, b. exact X.
    + exists (Ok o), w1', w2'. auto.
  - exists (Ok o), w1', w2'. auto.
  - exists Panic, w1', w2'. auto.
Qed.
Lemma stable_WriteBlock ids vals : stable (WriteBlock ids vals).
Proof.
  unfold WriteBlock. repeat (cbv zeta; first [apply stable_Estimate|apply stable_internal|apply stable_optimal|stable_step]).
Qed.
Lemma stable_blockFooter a b c : stable (writeBlockFooter a b c).
Proof. unfold writeBlockFooter. repeat (cbv zeta; stable_step). Qed.
Lemma stable_entries idx : stable (writeFooterEntries idx).
Proof.
  induction idx as [|i idx IH]; cbn [writeFooterEntries]; [apply stable_ret|]. apply stable_get; [|intros; reflexivity].
  intros w. destruct (nth_error (w_positions w) (Z.to_nat i)), (nth_error (w_sizes w) (Z.to_nat i)), (nth_error (w_stats w) (Z.to_nat i)); try apply stable_panic.
  apply stable_bind; [apply stable_blockFooter|]. intros _. exact IH.
Qed.
Lemma stable_bitmap : stable writeGlobalIDBitmap.
Proof. unfold writeGlobalIDBitmap. repeat (cbv zeta; stable_step). Qed.

(** The header: the times stand at offset 36. *)
Lemma sim_header now1 now2 a b c d e :
  sim (fun p => p = 0) (writeAll (headerFields now1 a b c d e) 0) (writeAll (headerFields now2 a b c d e) 0) any2.
Proof.
  unfold headerFields. cbn [writeAll].
  assert (S : forall p0 bs (k1 k2 : Z -> M Z), (forall n, sim (fun p => p = p0 + zlen bs) (k1 n) (k2 n) any2) ->
            sim (fun p => p = p0) (mbind (write bs) k1) (mbind (write bs) k2) any2).
  { intros p0 bs k1 k2 H. eapply sim_bind; [apply sim_write|]. intros n. eapply sim_conseq; [apply (H n)| |cbn; auto].
    cbn. intros p (_ & q & -> & ->). reflexivity. }
  repeat (apply S; intros ?). rewrite !zlen_le_bytes.
  eapply sim_bind; [apply sim_write_two; [rewrite !zlen_le_bytes; reflexivity|]|].
  - intros p j -> Hj. rewrite (proj2 (nth_error_None _ _)), (proj2 (nth_error_None _ _)); [reflexivity| |].
    + pose proof (zlen_le_bytes 8 (u64 now2)) as L. unfold zlen in L. lia.
    + pose proof (zlen_le_bytes 8 (u64 now1)) as L. unfold zlen in L. lia.
  - intros k. apply stable_any. apply stable_writeAll with (l := [_; _]).
Qed.

Lemma sim_writeHeader now1 now2 : sim (fun p => p = 0) (writeHeader now1) (writeHeader now2) any2.
Proof.
  unfold writeHeader. eapply sim_bind; [apply sim_seek|]. intros start. apply sim_get; [|intros; reflexivity]. intros w.
  eapply sim_bind.
  - eapply sim_conseq; [apply sim_header| |intros; exact I]. cbn. intros p (-> & _ & _ & H). apply H; reflexivity.
  - intros ?. apply stable_any. cbv zeta. repeat (cbv zeta; stable_step).
Qed.
Lemma sim_Finalize now1 now2 : sim any (Finalize now1) (Finalize now2) any2.
Proof.
  unfold Finalize. eapply sim_bind; [apply stable_bitmap|]. intros [boff bsize].
  eapply sim_bind; [apply sim_seek|]. intros z. apply sim_get; [|intros; reflexivity]. intros w.
  eapply sim_bind.
  - eapply sim_conseq; [apply sim_header| |intros; exact I]. cbn. intros p (-> & _ & H & _). apply H; reflexivity.
  - intros ?. apply stable_any. repeat (cbv zeta; first [apply stable_entries|stable_step]).
Qed.
Lemma sim_call c1 c2 : same_call c1 c2 -> sim any (run_call c1) (run_call c2) any2.
Proof.
  intros [ids vals|ids vals|now1 now2|now1 now2|]; cbn [run_call].
  - apply stable_bind; [apply stable_WriteBlock|]. intros ?. apply stable_ret.
  - apply stable_Estimate.
  - eapply sim_bind; [apply sim_Finalize|]. intros ?. apply stable_ret.
  - eapply sim_bind; [|intros ?; apply stable_ret]. unfold FinalizeAndClose.
    eapply sim_bind; [apply sim_Finalize|]. intros ?. apply stable_close.
  - apply stable_bind; [apply stable_close|]. intros ?. apply stable_ret.
Qed.
Lemma sim_calls cs1 cs2 : Forall2 same_call cs1 cs2 -> forall w1 w2, twin w1 w2 ->
  exists outs w1' w2', run_calls cs1 w1 = (outs, w1') /\ run_calls cs2 w2 = (outs, w2') /\ twin w1' w2'.
Proof.
  induction 1 as [|c1 c2 cs1 cs2 Hc _ IH]; intros w1 w2 T; cbn [run_calls]; [exists [], w1, w2; auto|].
  destruct (sim_call _ _ Hc w1 w2 T I) as (r & a & b & E1 & E2 & T' & _).
  destruct (IH a b T') as (rs & a' & b' & E3 & E4 & T''). rewrite E1, E2, E3, E4. exists (r :: rs), a', b'. auto.
Qed.

Lemma alike_refl D : same_but_time D D. Proof. split; [reflexivity|]. intros; reflexivity. Qed.
Lemma options_file options : forall w, w_file (fold_left applyOption options w) = w_file w.
Proof. induction options as [|[e|s] options IH]; intros w; cbn [fold_left]; [reflexivity|rewrite IH; reflexivity..]. Qed.
Lemma sim_new now1 now2 options faults :
  match NewWriter now1 options faults, NewWriter now2 options faults with
  | (Ok w1, f1), (Ok w2, f2) => twin w1 w2 /\ f1 = w_file w1 /\ f2 = w_file w2
  | (Err e1, f1), (Err e2, f2) => e1 = e2 /\ same_but_time (f_data f1) (f_data f2)
  | (Panic, f1), (Panic, f2) => same_but_time (f_data f1) (f_data f2)
  | _, _ => False
  end.
Proof.
  unfold NewWriter. set (w := fold_left applyOption options _).
  assert (Hf : w_file w = mkFile [] 0 true faults) by (unfold w; rewrite options_file; reflexivity).
  assert (T : twin w w) by (constructor; rewrite ?Hf; cbn; auto using alike_refl; lia).
  destruct (sim_writeHeader now1 now2 w w T ltac:(unfold wpos; rewrite Hf; reflexivity)) as (r & a & b & E1 & E2 & T' & _).
  rewrite E1, E2. destruct r as [u|e|]; [auto|split; [reflexivity|]|].
  - destruct T' as [D _ _ _]. unfold file_close. destruct (f_open (w_file a)), (f_open (w_file b)); try exact D;
    destruct (f_faults (w_file a)) as [|[|?] ?], (f_faults (w_file b)) as [|[|?] ?]; exact D.
  - exact (tw_data _ _ T').
Qed.

(** ** SimpleWriter *)
Record stwin (a b : swriter) : Prop := {
  st_writer : twin (sw_writer a) (sw_writer b);
  st_ids : sw_pendingIDs b = sw_pendingIDs a;
  st_vals : sw_pendingValues b = sw_pendingValues a;
  st_tbs : sw_targetBlockSize b = sw_targetBlockSize a;
  st_closed : sw_closed b = sw_closed a;
  st_total : sw_totalItems b = sw_totalItems a
}.
Definition ssim (m1 m2 : swriter -> res unit * swriter) : Prop :=
  forall a b, stwin a b -> exists r a' b', m1 a = (r, a') /\ m2 b = (r, b') /\ stwin a' b'.

Lemma ssim_flush fuel force : ssim (flushIfNeeded fuel force) (flushIfNeeded fuel force).
Proof.
  induction fuel as [|fuel IH]; intros a b T; cbn [flushIfNeeded]; [exists (Err ErrFuel), a, b; auto|].
  destruct T as [T1 T2 T3 T4 T5 T6] eqn:ET. assert (T0 := T). clear ET. rewrite T2, T3, T4, T5, T6.
  destruct (zlen (sw_pendingIDs a) =? 0); [exists (Ok tt), a, b; auto|].
  destruct (if force then true else _); [|exists (Ok tt), a, b; auto].
  destruct (stable_WriteBlock (sw_pendingIDs a) (sw_pendingValues a) _ _ T1 I) as (r & w1 & w2 & E1 & E2 & T' & _).
  rewrite E1, E2. destruct r as [u|e|].
  - eexists _, _, _. split; [reflexivity|]. split; [reflexivity|]. constructor; cbn; auto.
  - destruct e; try (eexists _, _, _; split; [reflexivity|]; split; [reflexivity|]; constructor; cbn; auto; fail).
    apply IH. constructor; cbn; auto.
  - eexists _, _, _. split; [reflexivity|]. split; [reflexivity|]. constructor; cbn; auto.
Qed.
Lemma ssim_call srt c1 c2 : same_scall c1 c2 -> ssim (run_scall srt c1) (run_scall srt c2).
Proof.
  intros H a b T. assert (T0 := T). destruct T as [T1 T2 T3 T4 T5 T6]. destruct H as [ids vals|size|now1 now2]; cbn [run_scall].
  - unfold SWrite. rewrite T5. destruct (sw_closed a) eqn:Ec; [eexists _, _, _; split; [reflexivity|]; split; [reflexivity|]; exact T0|].
    destruct (negb _); [eexists _, _, _; split; [reflexivity|]; split; [reflexivity|]; exact T0|].
    destruct (_ =? 0); [eexists _, _, _; split; [reflexivity|]; split; [reflexivity|]; exact T0|].
    destruct (if negb (isSorted ids) then _ else _) as [i v]. unfold flush. cbn [sw_pendingIDs]. rewrite T2. apply ssim_flush.
    constructor; cbn; congruence || auto.
  - unfold SetTargetBlockSize. rewrite T5. destruct (sw_closed a) eqn:Ec; [eexists _, _, _; split; [reflexivity|]; split; [reflexivity|]; exact T0|].
    eexists _, _, _; split; [reflexivity|]; split; [reflexivity|]. constructor; cbn; auto.
    destruct (sim_modify any (fun w => set_target w (u32 size)) ltac:(reflexivity) _ _ T1 I) as (r & x & y & E1 & E2 & T' & _).
    injection E1 as _ <-. injection E2 as _ <-. exact T'.
  - unfold SClose. rewrite T5. destruct (sw_closed a) eqn:Ec; [eexists _, _, _; split; [reflexivity|]; split; [reflexivity|]; exact T0|].
    unfold flush. rewrite T2. destruct (ssim_flush (S (length (sw_pendingIDs a))) true a b T0) as (r & x & y & -> & -> & [U1 U2 U3 U4 U5 U6]).
    destruct r as [u|e|]; [|eexists _, _, _; split; [reflexivity|]; split; [reflexivity|]; constructor; assumption..].
    assert (F : sim any (FinalizeAndClose now1) (FinalizeAndClose now2) any2).
    { unfold FinalizeAndClose. eapply sim_bind; [apply sim_Finalize|]. intros ?. apply stable_close. }
    destruct (F _ _ U1 I) as (r & w1 & w2 & -> & -> & T' & _).
    destruct r as [v|e|]; eexists _, _, _; (split; [reflexivity|]); (split; [reflexivity|]); constructor; cbn; auto.
Qed.
Lemma ssim_calls srt cs1 cs2 : Forall2 same_scall cs1 cs2 -> forall a b, stwin a b ->
  exists outs a' b', run_scalls srt cs1 a = (outs, a') /\ run_scalls srt cs2 b = (outs, b') /\ stwin a' b'.
Proof.
  induction 1 as [|c1 c2 cs1 cs2 Hc _ IH]; intros w1 w2 T; cbn [run_scalls]; [exists [], w1, w2; auto|].
  destruct (ssim_call srt _ _ Hc w1 w2 T) as (r & a & b & E1 & E2 & T').
  destruct (IH a b T') as (rs & a' & b' & E3 & E4 & T''). rewrite E1, E2, E3, E4. exists (r :: rs), a', b'. auto.
Qed.

(** ** The property *)
Theorem reproducible now1 now2 options faults cs1 cs2 : Forall2 same_call cs1 cs2 ->
  match NewWriter now1 options faults, NewWriter now2 options faults with
  | (Ok w1, _), (Ok w2, _) =>
      fst (run_calls cs1 w1) = fst (run_calls cs2 w2)
      /\ same_but_time (bytes_of (snd (run_calls cs1 w1))) (bytes_of (snd (run_calls cs2 w2)))
  | (Err e1, f1), (Err e2, f2) => e1 = e2 /\ same_but_time (f_data f1) (f_data f2)
  | (Panic, f1), (Panic, f2) => same_but_time (f_data f1) (f_data f2)
  | _, _ => False
  end.
Proof.
  intros H. pose proof (sim_new now1 now2 options faults) as S.
  destruct (NewWriter now1 options faults) as [[w1|e1|] f1]; destruct (NewWriter now2 options faults) as [[w2|e2|] f2]; try exact S; try contradiction.
  destruct S as (T & _ & _). destruct (sim_calls _ _ H w1 w2 T) as (outs & a & b & -> & -> & T'). split; [reflexivity|].
  exact (tw_data _ _ T').
Qed.
Theorem simple_reproducible srt now1 now2 options faults cs1 cs2 : Forall2 same_scall cs1 cs2 ->
  match NewSimpleWriter now1 options faults, NewSimpleWriter now2 options faults with
  | Ok sw1, Ok sw2 =>
      fst (run_scalls srt cs1 sw1) = fst (run_scalls srt cs2 sw2)
      /\ same_but_time (file_of (snd (run_scalls srt cs1 sw1))) (file_of (snd (run_scalls srt cs2 sw2)))
  | Err e1, Err e2 => e1 = e2
  | Panic, Panic => True
  | _, _ => False
  end.
Proof.
  intros H. pose proof (sim_new now1 now2 options faults) as S. unfold NewSimpleWriter, rbind.
  destruct (NewWriter now1 options faults) as [[w1|e1|] f1]; destruct (NewWriter now2 options faults) as [[w2|e2|] f2]; cbn [fst]; try tauto.
  destruct S as (T & _ & _).
  destruct (ssim_calls srt _ _ H (mkSW w1 [] [] 131072 false 0) (mkSW w2 [] [] 131072 false 0)) as (outs & a & b & -> & -> & T').
  - constructor; cbn; auto.
  - split; [reflexivity|]. exact (tw_data _ _ (st_writer _ _ T')).
Qed.
End Repro.
