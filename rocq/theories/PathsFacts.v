(** Facts about several Writers (C83). *)
From Verif Require Import Machine MachineFacts Encoding FileIO Sroar Writer Spec RunFacts StuckFacts Paths PathsSpec.
From Coq Require Import Lia.

Section Facts.
Context {Srr : Sroar}.
Variable path_of : nat -> nat.
Notation perform := (perform path_of).
Notation perform_all := (perform_all path_of).

Lemma put_same {A} i (x : A) f : put i x f i = x.
Proof. unfold put. rewrite Nat.eqb_refl. reflexivity. Qed.
Lemma put_other {A} i j (x : A) f : j <> i -> put i x f j = f j.
Proof. intros H. unfold put. destruct (Nat.eqb_spec j i); [contradiction|reflexivity]. Qed.
Lemma finding_same w : finding (bytes_of w) w = w.
Proof. destruct w as [[] ? ? ? ? ? ? ?]. reflexivity. Qed.
Lemma estimate_bytes ids vals w : bytes_of (snd (EstimateBlockSize ids vals w)) = bytes_of w.
Proof.
  unfold EstimateBlockSize. destruct (negb _); [reflexivity|]. destruct (_ =? 0); [reflexivity|]. unfold mbind, mget, mlift.
  destruct (encodeIDs _ _) as [[[? ?] ?]|e|]; [|reflexivity|reflexivity]. destruct (encodeValues _ _) as [[[? ?] ?]|e|]; [|reflexivity|reflexivity].
  unfold seek, mfile, file_seek. destruct (f_open (w_file w)); [|reflexivity].
  destruct (f_faults (w_file w)) as [|[|k] fs]; [| |reflexivity];
    (match goal with |- context [if ?b then (Err ErrIO, _) else _] => destruct b end; [reflexivity|]); match goal with |- context [if ?b then _ else _] => destruct b end; reflexivity.
Qed.
Lemma looks_bytes c w : only_looks c = true -> bytes_of (snd (run_call c w)) = bytes_of w.
Proof.
  destruct c as [ids vals|ids vals|now|now|]; intros H; try discriminate; cbn [run_call]; [apply estimate_bytes|].
  unfold mbind. pose proof (close_bytes w) as E. destruct (Close w) as [[u|e|] w']; exact E.
Qed.

(** The Writers of the path that were closed when [i] was created stay closed. *)
Definition still (i : nat) (d0 d : disk) : Prop :=
  forall j, j <> i -> path_of j = path_of i -> retired d0 j -> retired d j.

Lemma other_act i d0 d a : still i d0 d -> who a <> i -> leaves_alone path_of i d0 a ->
  on_path (snd (perform a d)) (path_of i) = on_path d (path_of i) /\ writer_of (snd (perform a d)) i = writer_of d i /\ still i d0 (snd (perform a d)).
Proof.
  intros S N L. destruct a as [j now options faults|j c]; cbn [who] in N; cbn [perform Paths.perform].
  - destruct L as [L|[L _]]; [|discriminate]. cbn [who] in L.
    destruct (NewWriter now options faults) as [[w|e|] f]; cbn [snd on_path writer_of];
      (split; [apply put_other; congruence|]; split; [apply put_other; congruence|]; intros k K1 K2 K3 x Hx; cbn [writer_of] in Hx; rewrite put_other in Hx by congruence; exact (S k K1 K2 K3 x Hx)).
  - destruct (writer_of d j) as [w|] eqn:Ew; cbn [snd]; [|auto].
    destruct (run_call c (finding (on_path d (path_of j)) w)) as [o w'] eqn:ER. cbn [snd on_path writer_of].
    assert (P : path_of j <> path_of i \/ (retired d0 j \/ only_looks c = true)).
    { destruct L as [L|[_ [L|(c' & E & L)]]]; [left; exact L|right; left; exact L|right; right]. cbn [who] in E. injection E as <-. exact L. }
    split; [|split; [apply put_other; congruence|]].
    + destruct (Nat.eq_dec (path_of j) (path_of i)) as [E|E]; [|apply put_other; congruence]. rewrite E, put_same. rewrite E in ER.
      destruct P as [P|[P|P]]; [contradiction| |].
      * pose proof (S j N E P w Ew) as Hc. destruct (run_call_closed c (finding (on_path d (path_of i)) w)) as (e & E2 & _); [exact Hc|].
        rewrite E2 in ER. injection ER as <- <-. reflexivity.
      * pose proof (looks_bytes c (finding (on_path d (path_of i)) w) P) as HB. rewrite ER in HB. exact HB.
    + intros k K1 K2 K3 x Hx. cbn [writer_of] in Hx. destruct (Nat.eq_dec k j) as [->|K]; [|rewrite put_other in Hx by congruence; exact (S k K1 K2 K3 x Hx)].
      rewrite put_same in Hx. assert (w' = x) by congruence. subst x. pose proof (S j K1 K2 K3 w Ew) as Hc.
      destruct (run_call_closed c (finding (on_path d (path_of j)) w)) as (e & E2 & _); [exact Hc|]. rewrite E2 in ER. assert (finding (on_path d (path_of j)) w = w') by congruence. subst w'. exact Hc.
Qed.

Lemma alone_calls i d0 : forall acts d w, undisturbed path_of i d0 acts -> still i d0 d -> writer_of d i = Some w -> on_path d (path_of i) = bytes_of w ->
  forall outs w', run_calls (calls_of i acts) w = (outs, w') ->
  on_path (snd (perform_all acts d)) (path_of i) = bytes_of w' /\ writer_of (snd (perform_all acts d)) i = Some w'
  /\ outcomes_of i acts (fst (perform_all acts d)) = outs.
Proof.
  induction acts as [|a acts IH]; intros d w U S W B outs w' R.
  - cbn in R. assert (outs = [] /\ w' = w) as [-> ->] by (split; congruence). cbn. auto.
  - assert (U' : undisturbed path_of i d0 acts) by (intros x Hx; apply U; right; exact Hx). pose proof (U a (or_introl eq_refl)) as UA.
    cbn [Paths.perform_all]. destruct (Nat.eqb_spec (who a) i) as [E|E].
    + destruct a as [j now options faults|j c]; [discriminate|]. cbn [who] in E. subst j. cbn [calls_of flat_map] in R. rewrite Nat.eqb_refl in R.
      cbn [app run_calls] in R. cbn [Paths.perform]. rewrite W, B, finding_same. destruct (run_call c w) as [o w1] eqn:EC.
      change (flat_map _ acts) with (calls_of i acts) in R. destruct (run_calls (calls_of i acts) w1) as [os w2] eqn:ER.
      assert (w' = w2 /\ outs = o :: os) as [-> ->] by (split; congruence).
      set (d1 := mkDisk _ _). destruct (IH d1 w1 U') with (outs := os) (w' := w2) as (H1 & H2 & H3).
      * intros k K1 K2 K3 x Hx. cbn [writer_of d1] in Hx. unfold d1 in Hx. cbn [writer_of] in Hx. rewrite put_other in Hx by congruence. exact (S k K1 K2 K3 x Hx).
      * unfold d1. cbn [writer_of]. apply put_same.
      * unfold d1. cbn [on_path]. rewrite put_same. reflexivity.
      * exact ER.
      * destruct (perform_all acts d1) as [os' d2]. cbn [fst snd] in *. split; [exact H1|]. split; [exact H2|].
        unfold outcomes_of in *. cbn [combine flat_map]. rewrite Nat.eqb_refl. cbn [app]. rewrite H3. reflexivity.
    + destruct (other_act i d0 d a S E UA) as (P1 & P2 & P3). 
      assert (C : calls_of i (a :: acts) = calls_of i acts).
      { unfold calls_of. cbn [flat_map]. destruct a as [j ? ? ?|j c]; [reflexivity|]. cbn [who] in E. destruct (Nat.eqb_spec j i); [contradiction|reflexivity]. }
      rewrite C in R. destruct (perform a d) as [o d1]. cbn [snd] in P1, P2, P3. destruct (IH d1 w U' P3) with (outs := outs) (w' := w') as (H1 & H2 & H3); [congruence|congruence|exact R|].
      destruct (perform_all acts d1) as [os d2]. cbn [fst snd] in *. split; [exact H1|]. split; [exact H2|]. rewrite <- H3.
      unfold outcomes_of. cbn [combine flat_map]. destruct a as [j ? ? ?|j c]; [reflexivity|]. cbn [who] in E. destruct o; [|reflexivity]. destruct (Nat.eqb_spec j i); [contradiction|reflexivity].
Qed.
Lemma alone_none i d0 : forall acts d, undisturbed path_of i d0 acts -> still i d0 d -> writer_of d i = None ->
  on_path (snd (perform_all acts d)) (path_of i) = on_path d (path_of i).
Proof.
  induction acts as [|a acts IH]; intros d U S W; [reflexivity|].
  assert (U' : undisturbed path_of i d0 acts) by (intros x Hx; apply U; right; exact Hx). pose proof (U a (or_introl eq_refl)) as UA.
  cbn [Paths.perform_all]. destruct (Nat.eqb_spec (who a) i) as [E|E].
  - destruct a as [j now options faults|j c]; [discriminate|]. cbn [who] in E. subst j. cbn [Paths.perform]. rewrite W.
    specialize (IH d U' S W). destruct (perform_all acts d). exact IH.
  - destruct (other_act i d0 d a S E UA) as (P1 & P2 & P3). destruct (perform a d) as [o d1]. cbn [snd] in *.
    specialize (IH d1 U' P3 ltac:(congruence)). destruct (perform_all acts d1). cbn [snd] in *. congruence.
Qed.
Lemma perform_app a b d : snd (perform_all (a ++ b) d) = snd (perform_all b (snd (perform_all a d))).
Proof.
  revert d. induction a as [|x a IH]; intros d; [reflexivity|]. cbn [app Paths.perform_all]. destruct (perform x d) as [o d1]. specialize (IH d1).
  destruct (perform_all (a ++ b) d1), (perform_all a d1). exact IH.
Qed.
Lemma new_file_data now options faults w f : NewWriter now options faults = (Ok w, f) -> f_data f = bytes_of w.
Proof. unfold NewWriter. destruct (writeHeader _ _) as [[u|e|] w1]; intros H; try discriminate. assert (w1 = w /\ f = w_file w1) as [-> ->] by (split; congruence). reflexivity. Qed.

Theorem as_if_alone i now options faults acts d : undisturbed path_of i d acts ->
  let after := perform_all (Create i now options faults :: acts) d in
  match NewWriter now options faults with
  | (Ok w0, _) => forall outs w, run_calls (calls_of i acts) w0 = (outs, w) ->
      on_path (snd after) (path_of i) = bytes_of w /\ writer_of (snd after) i = Some w /\ outcomes_of i acts (tl (fst after)) = outs
  | (_, f) => on_path (snd after) (path_of i) = f_data f
  end.
Proof.
  intros U after. subst after. cbn [Paths.perform_all Paths.perform].
  assert (S : forall x y, still i d (mkDisk x (put i y (writer_of d)))).
  { intros x y k K1 K2 K3 z Hz. cbn [writer_of] in Hz. rewrite put_other in Hz by congruence. exact (K3 z Hz). }
  destruct (NewWriter now options faults) as [[w0|e|] f] eqn:EN.
  - intros outs w R. set (d1 := mkDisk _ _). destruct (alone_calls i d acts d1 w0 U (S _ _)) with (outs := outs) (w' := w) as (H1 & H2 & H3);
      [apply put_same|unfold d1; cbn [on_path]; rewrite put_same; eapply new_file_data; exact EN|exact R|].
    destruct (perform_all acts d1). cbn [fst snd tl] in *. auto.
  - set (d1 := mkDisk _ _). pose proof (alone_none i d acts d1 U (S _ _) (put_same _ _ _)) as H. destruct (perform_all acts d1). cbn [snd] in *. rewrite H. apply put_same.
  - set (d1 := mkDisk _ _). pose proof (alone_none i d acts d1 U (S _ _) (put_same _ _ _)) as H. destruct (perform_all acts d1). cbn [snd] in *. rewrite H. apply put_same.
Qed.

(** A path that nobody writes. *)
Definition all_still (p : nat) (d0 d : disk) : Prop := forall j, path_of j = p -> retired d0 j -> retired d j.
Lemma spared_act p d0 d a : all_still p d0 d -> spares path_of p d0 a ->
  on_path (snd (perform a d)) p = on_path d p /\ all_still p d0 (snd (perform a d)).
Proof.
  intros S L. destruct a as [j now options faults|j c]; cbn [Paths.perform].
  - destruct L as [L|[L _]]; [|discriminate]. cbn [who] in L.
    destruct (NewWriter now options faults) as [[w|e|] f]; cbn [snd on_path writer_of];
      (split; [apply put_other; congruence|]; intros k K1 K2 x Hx; cbn [writer_of] in Hx; rewrite put_other in Hx by congruence; exact (S k K1 K2 x Hx)).
  - destruct (writer_of d j) as [w|] eqn:Ew; cbn [snd]; [|auto].
    destruct (run_call c (finding (on_path d (path_of j)) w)) as [o w'] eqn:ER. cbn [snd on_path writer_of].
    assert (P : path_of j <> p \/ (retired d0 j \/ only_looks c = true)).
    { destruct L as [L|[_ [L|(c' & E & L)]]]; [left; exact L|right; left; exact L|right; right]. cbn [who] in E. injection E as <-. exact L. }
    split.
    + destruct (Nat.eq_dec (path_of j) p) as [E|E]; [|apply put_other; congruence]. rewrite E, put_same. rewrite E in ER.
      destruct P as [P|[P|P]]; [contradiction| |].
      * pose proof (S j E P w Ew) as Hc. destruct (run_call_closed c (finding (on_path d p) w)) as (e & E2 & _); [exact Hc|].
        rewrite E2 in ER. injection ER as <- <-. reflexivity.
      * pose proof (looks_bytes c (finding (on_path d p) w) P) as HB. rewrite ER in HB. exact HB.
    + intros k K1 K2 x Hx. cbn [writer_of] in Hx. destruct (Nat.eq_dec k j) as [->|K]; [|rewrite put_other in Hx by congruence; exact (S k K1 K2 x Hx)].
      rewrite put_same in Hx. assert (w' = x) by congruence. subst x. pose proof (S j K1 K2 w Ew) as Hc.
      destruct (run_call_closed c (finding (on_path d (path_of j)) w)) as (e & E2 & _); [exact Hc|]. rewrite E2 in ER. assert (finding (on_path d (path_of j)) w = w') by congruence. subst w'. exact Hc.
Qed.
Lemma spared p d0 : forall acts d, all_still p d0 d -> (forall a, In a acts -> spares path_of p d0 a) ->
  on_path (snd (perform_all acts d)) p = on_path d p.
Proof.
  induction acts as [|a acts IH]; intros d S U; [reflexivity|]. cbn [Paths.perform_all].
  destruct (spared_act p d0 d a S (U a (or_introl eq_refl))) as [H1 H2]. destruct (perform a d) as [o d1]. cbn [snd] in *.
  specialize (IH d1 H2 (fun x Hx => U x (or_intror Hx))). destruct (perform_all acts d1). cbn [snd] in *. congruence.
Qed.
End Facts.
