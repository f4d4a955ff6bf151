(** Effect of the file primitives under any fault stream. *)
From Verif Require Import Machine MachineFacts FileIO Sroar Writer.

Lemma zeros_nil n : n <= 0 -> zeros n = [].
Proof. intros. unfold zeros. replace (Z.to_nat n) with O by lia. reflexivity. Qed.

Lemma overwrite_end D p bs : p = zlen D -> overwrite D p bs = D ++ bs.
Proof.
  intros ->. unfold overwrite. destruct bs as [|b bs]; [symmetry; apply app_nil_r|].
  rewrite ztake_all by lia. rewrite zeros_nil by lia. rewrite zdrop_all by (rewrite zlen_cons; pose proof (zlen_nonneg bs); lia).
  cbn [app]. rewrite app_nil_r. reflexivity.
Qed.
Lemma overwrite_tail D1 x p bs : p = zlen D1 -> zlen x <= zlen bs ->
  overwrite (D1 ++ x) p bs = D1 ++ bs.
Proof.
  intros -> Hx. unfold overwrite. destruct bs as [|b bs].
  - rewrite zlen_nil in Hx. rewrite (zlen_0_nil x); [reflexivity|]. pose proof (zlen_nonneg x). lia.
  - rewrite ztake_app_exact by reflexivity. rewrite zeros_nil by (rewrite zlen_app; pose proof (zlen_nonneg x); lia).
    rewrite zdrop_all by (rewrite zlen_app; lia). cbn [app]. rewrite app_nil_r. reflexivity.
Qed.
Lemma overwrite_head D bs : zlen bs <= zlen D -> overwrite D 0 bs = bs ++ zdrop (zlen bs) D.
Proof.
  intros. unfold overwrite. destruct bs as [|b bs].
  - rewrite zdrop_0 by (rewrite zlen_nil; lia). reflexivity.
  - rewrite ztake_0 by lia. rewrite zeros_nil by (pose proof (zlen_nonneg D); lia). reflexivity.
Qed.
Lemma zlen_overwrite D p bs : 0 <= p -> bs <> [] \/ p <= zlen D ->
  zlen (overwrite D p bs) = Z.max (zlen D) (p + zlen bs).
Proof.
  intros Hp H. unfold overwrite. destruct bs as [|b bs].
  - rewrite zlen_nil. destruct H; [congruence|]. lia.
  - rewrite !zlen_app, zlen_ztake, zlen_zeros, zlen_zdrop.
    pose proof (zlen_nonneg D). pose proof (zlen_nonneg (b :: bs)). lia.
Qed.
Lemma overwrite_prefix D p bs L : 0 <= L -> L <= p -> L <= zlen D ->
  ztake L (overwrite D p bs) = ztake L D.
Proof.
  intros H0 Hp Hl. unfold overwrite. destruct bs as [|b bs]; [reflexivity|].
  rewrite ztake_app_l by (rewrite zlen_ztake; lia). rewrite ztake_ztake. f_equal. lia.
Qed.
Lemma overwrite_len_ge D p bs : 0 <= p -> zlen D <= zlen (overwrite D p bs).
Proof.
  intros. destruct bs as [|b bs]; [cbn; lia|]. rewrite zlen_overwrite by (auto; left; discriminate). lia.
Qed.

Definition nofault (fs : list fault) : Prop := Forall (eq NoFault) fs.
Lemma nofault_tl fs : nofault fs -> nofault (tl fs).
Proof. destruct 1; cbn; [constructor|assumption]. Qed.
Lemma nofault_nil : nofault []. Proof. constructor. Qed.

Section Rules.
Context {Srr : Sroar}.
(** [nf]: "no fault was injected". *)
Variable nf : Prop.

(** The writer is [wg] except for its file, which has contents [D] and offset [p]. *)
Definition St (wg : writer) (D : list Z) (p : Z) (w : writer) : Prop :=
  exists fs, w = set_file wg (mkFile D p true fs) /\ (nf -> nofault fs).

(** Total outcome specification: results, errors; a panic is excluded. *)
Definition triple {A} (P : writer -> Prop) (m : M A) (Q : A -> writer -> Prop)
    (E : err -> writer -> Prop) : Prop :=
  forall w, P w -> match m w with
                   | (Ok a, w') => Q a w'
                   | (Err e, w') => E e w'
                   | (Panic, _) => False
                   end.

Lemma triple_ret {A} (a : A) (P : writer -> Prop) (Q : A -> writer -> Prop) (E : err -> writer -> Prop) : (forall w, P w -> Q a w) -> triple P (mret a) Q E.
Proof. intros H w Hw. cbn. auto. Qed.
Lemma triple_fail {A} e (P : writer -> Prop) (Q : A -> writer -> Prop) (E : err -> writer -> Prop) :
  (forall w, P w -> E e w) -> triple P (mfail e) Q E.
Proof. intros H w Hw. cbn. auto. Qed.
Lemma triple_bind {A B} (m : M A) (k : A -> M B) P R Q E :
  triple P m R E -> (forall a, triple (R a) (k a) Q E) -> triple P (mbind m k) Q E.
Proof.
  intros H1 H2 w Hw. unfold mbind. specialize (H1 w Hw).
  destruct (m w) as [[a|e|] w']; [|assumption|assumption]. exact (H2 a w' H1).
Qed.
Lemma triple_conseq {A} (m : M A) (P P' : writer -> Prop) (Q Q' : A -> writer -> Prop) (E E' : err -> writer -> Prop) :
  triple P m Q E -> (forall w, P' w -> P w) -> (forall a w, Q a w -> Q' a w) ->
  (forall e w, E e w -> E' e w) -> triple P' m Q' E'.
Proof.
  intros H HP HQ HE w Hw. specialize (H w (HP w Hw)).
  destruct (m w) as [[a|e|] w']; auto.
Qed.
Lemma triple_get (P : writer -> Prop) (Q : writer -> writer -> Prop) (E : err -> writer -> Prop) : (forall w, P w -> Q w w) -> triple P mget Q E.
Proof. intros H w Hw. cbn. auto. Qed.
Lemma triple_modify f (P : writer -> Prop) (Q : unit -> writer -> Prop) (E : err -> writer -> Prop) :
  (forall w, P w -> Q tt (f w)) -> triple P (mmodify f) Q E.
Proof. intros H w Hw. cbn. auto. Qed.
Lemma triple_lift {A} (a : A) (P : writer -> Prop) (Q : A -> writer -> Prop) (E : err -> writer -> Prop) : (forall w, P w -> Q a w) -> triple P (mlift (Ok a)) Q E.
Proof. intros H w Hw. cbn. auto. Qed.

(** *** Primitives *)
Lemma seek_cur wg D p (E : err -> writer -> Prop) :
  (forall w, ~ nf -> St wg D p w -> E ErrIO w) -> 0 <= p ->
  triple (St wg D p) (seek 0 SeekCurrent) (fun a w => a = p /\ St wg D p w) E.
Proof.
  intros HE Hp w (fs & -> & Hnf). unfold seek, mfile, file_seek. cbn.
  destruct fs as [|[|k] fs]; cbn.
  - destruct (Z.ltb_spec p 0) as [?|_]; [lia|]. split; [reflexivity|]. exists []. split; [reflexivity|assumption].
  - destruct (Z.ltb_spec p 0) as [?|_]; [lia|]. split; [reflexivity|]. exists fs. split; [reflexivity|].
    intros H. apply (nofault_tl _ (Hnf H)).
  - assert (~ nf) by (intros H; specialize (Hnf H); inversion Hnf; congruence).
    apply HE; [assumption|]. exists fs. split; [reflexivity|tauto].
Qed.
Lemma seek_rel wg D p off (E : err -> writer -> Prop) :
  (forall w, ~ nf -> St wg D p w -> E ErrIO w) -> 0 <= p + off ->
  triple (St wg D p) (seek off SeekCurrent) (fun a w => St wg D (p + off) w) E.
Proof.
  intros HE Hp w (fs & -> & Hnf). unfold seek, mfile, file_seek. cbn.
  rewrite (Z.add_comm off p).
  destruct fs as [|[|k] fs]; cbn.
  - destruct (Z.ltb_spec (p + off) 0) as [?|_]; [lia|]. exists []. split; [reflexivity|assumption].
  - destruct (Z.ltb_spec (p + off) 0) as [?|_]; [lia|]. exists fs. split; [reflexivity|].
    intros H. apply (nofault_tl _ (Hnf H)).
  - assert (~ nf) by (intros H; specialize (Hnf H); inversion Hnf; congruence).
    apply HE; [assumption|]. exists fs. split; [reflexivity|tauto].
Qed.
Lemma seek_start wg D p (E : err -> writer -> Prop) :
  (forall w, ~ nf -> St wg D p w -> E ErrIO w) ->
  triple (St wg D p) (seek 0 SeekStart) (fun a w => St wg D 0 w) E.
Proof.
  intros HE w (fs & -> & Hnf). unfold seek, mfile, file_seek. cbn.
  destruct fs as [|[|k] fs]; cbn.
  - exists []. split; [reflexivity|assumption].
  - exists fs. split; [reflexivity|]. intros H. apply (nofault_tl _ (Hnf H)).
  - assert (~ nf) by (intros H; specialize (Hnf H); inversion Hnf; congruence).
    apply HE; [assumption|]. exists fs. split; [reflexivity|tauto].
Qed.
Lemma seek_end wg D p (E : err -> writer -> Prop) :
  (forall w, ~ nf -> St wg D p w -> E ErrIO w) ->
  triple (St wg D p) (seek 0 SeekEnd) (fun a w => St wg D (zlen D) w) E.
Proof.
  intros HE w (fs & -> & Hnf). unfold seek, mfile, file_seek.
  pose proof (zlen_nonneg D).
  destruct fs as [|[|k] fs]; cbn [f_open f_faults f_pos f_data set_pos w_file set_file tl].
  - destruct (Z.ltb_spec (0 + zlen D) 0) as [?|_]; [lia|]. exists []. split; [reflexivity|assumption].
  - destruct (Z.ltb_spec (0 + zlen D) 0) as [?|_]; [lia|]. exists fs. split; [reflexivity|]. intros H'. apply (nofault_tl _ (Hnf H')).
  - assert (~ nf) by (intros H'; specialize (Hnf H'); inversion Hnf; congruence).
    apply HE; [assumption|]. exists fs. split; [reflexivity|tauto].
Qed.
Lemma sync_rule wg D p (E : err -> writer -> Prop) :
  (forall w, ~ nf -> St wg D p w -> E ErrSync w) ->
  triple (St wg D p) sync (fun a w => St wg D p w) E.
Proof.
  intros HE w (fs & -> & Hnf). unfold sync, mfile, file_sync. cbn.
  destruct fs as [|[|k] fs]; cbn.
  - exists []. split; [reflexivity|assumption].
  - exists fs. split; [reflexivity|]. intros H. apply (nofault_tl _ (Hnf H)).
  - assert (~ nf) by (intros H; specialize (Hnf H); inversion Hnf; congruence).
    apply HE; [assumption|]. exists fs. split; [reflexivity|tauto].
Qed.
Lemma write_rule wg D p bs (E : err -> writer -> Prop) :
  (forall w k, ~ nf -> St wg (overwrite D p (ztake k bs)) (p + zlen (ztake k bs)) w -> E ErrIO w) ->
  triple (St wg D p) (write bs)
    (fun n w => n = zlen bs /\ St wg (overwrite D p bs) (p + zlen bs) w) E.
Proof.
  intros HE w (fs & -> & Hnf). unfold write, mfile, file_write. cbn.
  destruct fs as [|[|k] fs]; cbn.
  - split; [reflexivity|]. exists []. split; [reflexivity|assumption].
  - split; [reflexivity|]. exists fs. split; [reflexivity|]. intros H. apply (nofault_tl _ (Hnf H)).
  - assert (~ nf) by (intros H; specialize (Hnf H); inversion Hnf; congruence).
    apply (HE _ k); [assumption|]. exists fs. split; [reflexivity|tauto].
Qed.

(** At the end of the file. *)
Definition End (wg : writer) (D : list Z) : writer -> Prop := St wg D (zlen D).

Lemma write_end wg D bs (E : err -> writer -> Prop) :
  (forall w t, ~ nf -> End wg (D ++ t) w -> E ErrIO w) ->
  triple (End wg D) (write bs) (fun n w => n = zlen bs /\ End wg (D ++ bs) w) E.
Proof.
  intros HE. unfold End. eapply triple_conseq.
  - apply write_rule with (E := E). intros w k Hn H. apply (HE _ (ztake k bs)); [assumption|].
    rewrite overwrite_end in H by reflexivity. unfold End. rewrite zlen_app. exact H.
  - auto.
  - intros n w [-> H]. split; [reflexivity|]. rewrite overwrite_end in H by reflexivity.
    unfold End. rewrite zlen_app. exact H.
  - auto.
Qed.
Lemma writeAll_end wg D l acc (E : err -> writer -> Prop) :
  (forall w t, ~ nf -> End wg (D ++ t) w -> E ErrIO w) ->
  triple (End wg D) (writeAll l acc)
    (fun n w => n = acc + zlen (concat l) /\ End wg (D ++ concat l) w) E.
Proof.
  revert D acc. induction l as [|bs l IH]; intros D acc HE; cbn [writeAll concat].
  - apply triple_ret. intros w Hw. rewrite app_nil_r, zlen_nil, Z.add_0_r. auto.
  - eapply triple_bind; [apply write_end; assumption|]. intros n w [-> Hw].
    assert (T : triple (End wg (D ++ bs)) (writeAll l (acc + zlen bs))
      (fun n w => n = acc + zlen bs + zlen (concat l) /\ End wg ((D ++ bs) ++ concat l) w) E).
    { apply IH. intros w' t Hn Ht. apply (HE _ (bs ++ t)); [assumption|]. rewrite app_assoc. assumption. }
    specialize (T w Hw). destruct (writeAll l (acc + zlen bs) w) as [[a|e|] w']; [|assumption|assumption].
    destruct T as [-> T]. rewrite <- app_assoc in T. split; [rewrite zlen_app; lia|assumption].
Qed.

End Rules.

Lemma triple_pure {Srr : Sroar} {A} (phi : Prop) (P : writer -> Prop) (m : M A)
    (Q : A -> writer -> Prop) (E : err -> writer -> Prop) :
  (phi -> triple P m Q E) -> triple (fun w => phi /\ P w) m Q E.
Proof. intros H w [Hp Hw]. exact (H Hp w Hw). Qed.
Lemma triple_exists {Srr : Sroar} {A T} (P : T -> writer -> Prop) (m : M A)
    (Q : A -> writer -> Prop) (E : err -> writer -> Prop) :
  (forall x, triple (P x) m Q E) -> triple (fun w => exists x, P x w) m Q E.
Proof. intros H w [x Hw]. exact (H x w Hw). Qed.
Lemma triple_pre {Srr : Sroar} {A} (P P' : writer -> Prop) (m : M A)
    (Q : A -> writer -> Prop) (E : err -> writer -> Prop) :
  triple P m Q E -> (forall w, P' w -> P w) -> triple P' m Q E.
Proof. intros H HP w Hw. exact (H w (HP w Hw)). Qed.
Lemma triple_post {Srr : Sroar} {A} (P : writer -> Prop) (m : M A)
    (Q Q' : A -> writer -> Prop) (E : err -> writer -> Prop) :
  triple P m Q E -> (forall a w, Q a w -> Q' a w) -> triple P m Q' E.
Proof. intros H HP w Hw. specialize (H w Hw). destruct (m w) as [[?|?|] ?]; auto. Qed.
