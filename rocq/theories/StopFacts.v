(** What is in the file when the process stops at any system call. *)
From Verif Require Import Machine MachineFacts Encoding EncodingFacts Sroar FileIO FileFacts Writer Spec WriterFacts BlockFacts FinalFacts StopSpec.
From Coq Require Import Lia ZifyBool.
Local Open Scope Z_scope.
Ltac Zify.zify_post_hook ::= Z.div_mod_to_equations.

(** ** Relations between earlier and later file contents *)
Definition prefix (d d' : list Z) : Prop := exists x, d' = d ++ x.
Definition tail_prefix (d d' : list Z) : Prop := zlen d <= zlen d' /\ exists x, zdrop 60 d' = zdrop 60 d ++ x.
Definition part (d d' : list Z) : Prop := tail_prefix d d' /\ (zlen d = zlen d' -> d = d').

Lemma prefix_refl d : prefix d d. Proof. exists []. rewrite app_nil_r. reflexivity. Qed.
Lemma prefix_trans a b c : prefix a b -> prefix b c -> prefix a c.
Proof. intros [x ->] [y ->]. exists (x ++ y). rewrite app_assoc. reflexivity. Qed.
Lemma tp_refl d : tail_prefix d d.
Proof. split; [lia|]. exists []. rewrite app_nil_r. reflexivity. Qed.
Lemma tp_trans a b c : tail_prefix a b -> tail_prefix b c -> tail_prefix a c.
Proof. intros [H [x E]] [K [y F]]. split; [lia|]. exists (x ++ y). rewrite F, E, app_assoc. reflexivity. Qed.
Lemma prefix_tail a b : prefix a b -> tail_prefix a b.
Proof.
  intros [x ->]. pose proof (zlen_nonneg x). split; [rewrite zlen_app; lia|]. destruct (Z.le_ge_cases 60 (zlen a)).
  - exists x. apply zdrop_app_l. assumption.
  - exists (zdrop (60 - zlen a) x). rewrite zdrop_app_r by lia. rewrite (zdrop_all 60 a) by lia. reflexivity.
Qed.
Lemma part_refl d : part d d.
Proof. split; [apply tp_refl|]. reflexivity. Qed.
Lemma part_trans a b c : part a b -> part b c -> part a c.
Proof.
  intros [H1 H2] [K1 K2]. split; [eapply tp_trans; eassumption|]. intros E. destruct H1 as [H1 _]. destruct K1 as [K1 _].
  rewrite H2 by lia. apply K2. lia.
Qed.
Lemma prefix_part a b : prefix a b -> part a b.
Proof.
  intros P. split; [apply prefix_tail; assumption|]. destruct P as [x ->]. rewrite zlen_app. intros E. assert (x = []) as ->.
  { destruct x; [reflexivity|]. rewrite zlen_cons in E. pose proof (zlen_nonneg x). lia. }
  rewrite app_nil_r. reflexivity.
Qed.
Lemma strict_part a b : tail_prefix a b -> zlen a < zlen b -> part a b.
Proof. intros H L. split; [exact H|]. lia. Qed.

(** Such a relation: later contents have everything earlier ones have behind the header. *)
Definition order (R : list Z -> list Z -> Prop) : Prop :=
  (forall d, R d d) /\ (forall a b c, R a b -> R b c -> R a c) /\ (forall a b, R a b -> tail_prefix a b).
Lemma prefix_order : order prefix. Proof. split; [apply prefix_refl|]. split; [apply prefix_trans|apply prefix_tail]. Qed.
Lemma tp_order : order tail_prefix. Proof. split; [apply tp_refl|]. split; [apply tp_trans|auto]. Qed.
Lemma part_order : order part. Proof. split; [apply part_refl|]. split; [apply part_trans|]. intros a b [H _]. exact H. Qed.

(** ** A process that stops *)
Section Stop.
Context {Srr : Sroar}.

Definition dead (w : writer) : Prop := exists j, f_faults (w_file w) = repeat (Fault 0) j.
Lemma withf_withf w a b : withf (withf w a) b = withf w b. Proof. reflexivity. Qed.
Lemma withf_id w : withf w (f_faults (w_file w)) = w. Proof. destruct w as [[] ? ? ? ? ? ? ?]. reflexivity. Qed.

(** Nothing happens to a dead file. *)
Definition still {A} (m : M A) : Prop := forall w, dead w -> dead (snd (m w))
  /\ (f_faults (w_file (snd (m w))) <> [] -> f_faults (w_file w) <> [] /\ bytes_of (snd (m w)) = bytes_of w).
Lemma still_ret {A} (a : A) : still (mret a). Proof. intros w D. cbn. auto. Qed.
Lemma still_fail {A} e : still (@mfail _ A e). Proof. intros w D. cbn. auto. Qed.
Lemma still_panic {A} : still (@mpanic _ A). Proof. intros w D. cbn. auto. Qed.
Lemma still_lift {A} (r : res A) : still (mlift r). Proof. intros w D. cbn. auto. Qed.
Lemma still_get : still mget. Proof. intros w D. cbn. auto. Qed.
Lemma still_modify f : (forall w, w_file (f w) = w_file w) -> still (mmodify f).
Proof. intros H w D. cbn. unfold dead, bytes_of. rewrite H. auto. Qed.
Lemma still_bind {A B} (m : M A) (k : A -> M B) : still m -> (forall a, still (k a)) -> still (mbind m k).
Proof.
  intros Hm Hk w D. unfold mbind. specialize (Hm w D). destruct (m w) as [[a|e|] v]; [|exact Hm|exact Hm]. cbn [snd] in Hm. destruct Hm as [D' K].
  destruct (Hk a v D') as [D'' K']. split; [exact D''|]. intros Q. destruct (K' Q) as [Q1 Q2]. destruct (K Q1) as [Q3 Q4]. split; [exact Q3|congruence].
Qed.
Lemma still_get_bind {B} (k : writer -> M B) : (forall a, still (k a)) -> still (mbind mget k).
Proof. intros H. apply still_bind; [apply still_get|exact H]. Qed.
Lemma tl_dead (f : file) j : f_faults f = repeat (Fault 0) j -> tl (f_faults f) = repeat (Fault 0) (pred j).
Proof. intros ->. destruct j; reflexivity. Qed.
Lemma still_seek o wh : still (seek o wh).
Proof.
  intros w [j D]. unfold seek, mfile, file_seek. destruct (f_open (w_file w)); [|cbn; unfold dead; cbn; eauto].
  rewrite D. destruct j as [|j]; cbn.
  - destruct (_ <? 0); unfold dead; cbn; rewrite D; cbn; (split; [exists 0%nat; reflexivity|congruence]).
  - unfold dead; cbn; rewrite D; cbn. split; [exists j; reflexivity|]. intros _. split; [discriminate|reflexivity].
Qed.
Lemma still_sync : still sync.
Proof.
  intros w [j D]. unfold sync, mfile, file_sync. destruct (f_open (w_file w)); [|cbn; unfold dead; cbn; eauto].
  rewrite D. destruct j as [|j]; cbn.
  - unfold dead; cbn; rewrite D; cbn; (split; [exists 0%nat; reflexivity|congruence]).
  - unfold dead; cbn; rewrite D; cbn. split; [exists j; reflexivity|]. intros _. split; [discriminate|reflexivity].
Qed.
Lemma still_close : still closeFile.
Proof.
  intros w [j D]. unfold closeFile, mfile, file_close. destruct (f_open (w_file w)); [|cbn; unfold dead; cbn; eauto].
  rewrite D. destruct j as [|j]; cbn.
  - unfold dead; cbn; (split; [exists 0%nat; reflexivity|congruence]).
  - unfold dead; cbn. split; [exists j; reflexivity|]. intros _. split; [discriminate|reflexivity].
Qed.
Lemma still_write bs : still (write bs).
Proof.
  intros w [j D]. unfold write, mfile, file_write. destruct (f_open (w_file w)); [|cbn; unfold dead; cbn; eauto].
  rewrite D. destruct j as [|j]; cbn.
  - unfold dead; cbn; rewrite D; cbn; (split; [exists 0%nat; reflexivity|congruence]).
  - unfold dead; cbn; rewrite D; cbn. split; [exists j; reflexivity|]. intros _. split; [discriminate|]. reflexivity.
Qed.
Lemma still_writeAll l : forall acc, still (writeAll l acc).
Proof. induction l as [|b l IH]; intros acc; cbn [writeAll]; [apply still_ret|apply still_bind; [apply still_write|intros; apply IH]]. Qed.
Lemma still_if {A} (b : bool) (m n : M A) : still m -> still n -> still (if b then m else n).
Proof. destruct b; auto. Qed.

(** ** Comparing a run that is stopped with the undisturbed one *)
Section Logic.
Variable R : list Z -> list Z -> Prop.
Hypothesis HR : order R.
Let Rrefl : forall d, R d d := proj1 HR.
Let Rtrans : forall a b c, R a b -> R b c -> R a c := proj1 (proj2 HR).
Let Rtail : forall a b, R a b -> tail_prefix a b := proj2 (proj2 HR).

(** [run fs] is what happens with the future [fs]; undisturbed it ends as [fin].  It makes
    [c] system calls; stopping it in call [n < c] after [k] bytes leaves [B n k], which grows
    (as far as it is behind the header) with time, from [b0] to [b1]. *)
Definition stops {X : Type} (fl : X -> file) (run fin : list fault -> X) (b0 b1 : list Z) : Prop :=
  exists c B,
    (forall n k j, (c <= n)%nat -> run (stop n k j) = fin (stop (n - c) k j))
    /\ (forall n k j, (n < c)%nat -> (exists i, f_faults (fl (run (stop n k j))) = repeat (Fault 0) i)
          /\ (f_faults (fl (run (stop n k j))) <> [] -> f_data (fl (run (stop n k j))) = B n k))
    /\ (forall n k, R b0 (B n k) /\ R (B n k) b1)
    /\ (forall n k n' k', earlier n k n' k' -> tail_prefix (B n k) (B n' k')).
(** What follows a dead run changes nothing. *)
Definition inert {X Y : Type} (fl : X -> file) (fl' : Y -> file) (next : X -> Y) : Prop :=
  forall x, (exists i, f_faults (fl x) = repeat (Fault 0) i) -> (exists i, f_faults (fl' (next x)) = repeat (Fault 0) i)
    /\ (f_faults (fl' (next x)) <> [] -> f_faults (fl x) <> [] /\ f_data (fl' (next x)) = f_data (fl x)).
Lemma stops_none {X} (fl : X -> file) run fin b : (forall fs, run fs = fin fs) -> stops fl run fin b b.
Proof using HR.
  intros H. exists 0%nat, (fun _ _ => b). split; [intros n k j _; rewrite Nat.sub_0_r; apply H|]. split; [intros n k j L; inversion L|]. split; intros; auto.
Qed.
Lemma stops_ext {X} (fl : X -> file) run run' fin fin' b0 b1 : (forall fs, run fs = run' fs) -> (forall fs, fin fs = fin' fs) -> stops fl run fin b0 b1 -> stops fl run' fin' b0 b1.
Proof.
  intros H H' (c & B & S1 & S2 & S3 & S4). exists c, B. split; [intros n k j L; rewrite <- H, <- H'; auto|]. split; [intros n k j L; rewrite <- H; auto|]. auto.
Qed.
Lemma stops_seq {X Y} (fl : X -> file) (fl' : Y -> file) run fin (next : X -> Y) fin' b0 b1 b2 :
  stops fl run fin b0 b1 -> inert fl fl' next -> stops fl' (fun fs => next (fin fs)) fin' b1 b2 -> stops fl' (fun fs => next (run fs)) fin' b0 b2.
Proof using HR.
  intros (c & B & S1 & S2 & S3 & S4) HI (c' & B' & T1 & T2 & T3 & T4).
  assert (H01 : R b0 b1) by (destruct (S3 0%nat 0); eauto). assert (H12 : R b1 b2) by (destruct (T3 0%nat 0); eauto).
  exists (c + c')%nat, (fun n k => if (n <? c)%nat then B n k else B' (n - c)%nat k).
  split; [|split; [|split]].
  - intros n k j L. rewrite S1 by lia. rewrite T1 by lia. f_equal. f_equal. lia.
  - intros n k j L. destruct (Nat.ltb_spec n c) as [G|G].
    + destruct (S2 n k j G) as [D1 D2]. destruct (HI _ D1) as [D3 D4]. split; [exact D3|]. intros N. destruct (D4 N) as [N1 N2]. rewrite N2. auto.
    + rewrite S1 by lia. apply T2. lia.
  - intros n k. destruct (n <? c)%nat; [destruct (S3 n k) as [K1 K2]|destruct (T3 (n - c)%nat k) as [K1 K2]]; split; eauto.
  - intros n k n' k' HE. destruct (Nat.ltb_spec n c) as [G|G]; destruct (Nat.ltb_spec n' c) as [G'|G'].
    + apply S4. exact HE.
    + destruct (S3 n k) as [_ K1]. destruct (T3 (n' - c)%nat k') as [K2 _]. eauto.
    + destruct HE as [HE|[HE _]]; lia.
    + apply T4. destruct HE as [HE|[-> HE]]; [left; lia|right; split; [reflexivity|exact HE]].
Qed.
Lemma stops_from {X} (fl : X -> file) run fin b0 b1 : stops fl run fin b0 b1 -> R b0 b1.
Proof using HR. intros (c & B & _ & _ & S3 & _). destruct (S3 0%nat 0). eauto. Qed.

(** What there is at a moment of the run. *)
Lemma stops_part {X} (fl : X -> file) run fin b0 b1 n k j : stops fl run fin b0 b1 -> (forall fs, f_data (fl (fin fs)) = b1) ->
  f_faults (fl (run (stop n k j))) <> [] -> R b0 (f_data (fl (run (stop n k j)))) /\ R (f_data (fl (run (stop n k j)))) b1.
Proof using HR.
  intros (c & B & S1 & S2 & S3 & S4) HF HN. destruct (Nat.ltb_spec n c) as [G|G].
  - destruct (S2 n k j G) as [_ K]. rewrite (K HN). apply S3.
  - rewrite S1 by lia. rewrite HF. destruct (S3 0%nat 0) as [K1 K2]. split; [eauto|apply Rrefl].
Qed.
Lemma stops_later {X} (fl : X -> file) run fin b0 b1 n k j n' k' j' : stops fl run fin b0 b1 -> (forall fs, f_data (fl (fin fs)) = b1) -> earlier n k n' k' ->
  f_faults (fl (run (stop n k j))) <> [] -> f_faults (fl (run (stop n' k' j'))) <> [] -> tail_prefix (f_data (fl (run (stop n k j)))) (f_data (fl (run (stop n' k' j')))).
Proof using HR.
  intros HS HF HE HN HN'. destruct (HS) as (c & B & S1 & S2 & S3 & S4). destruct (Nat.ltb_spec n c) as [G|G]; destruct (Nat.ltb_spec n' c) as [G'|G'].
  - destruct (S2 n k j G) as [_ K]. destruct (S2 n' k' j' G') as [_ K']. rewrite (K HN), (K' HN'). apply S4. exact HE.
  - rewrite (S1 n' k' j') by lia. rewrite HF. apply Rtail. eapply stops_part; eassumption.
  - destruct HE as [HE|[HE _]]; lia.
  - rewrite (S1 n' k' j'), (S1 n k j), !HF by lia. apply Rtail. apply Rrefl.
Qed.

(** A single system call. *)
Lemma stops_call {X} (fl : X -> file) run fin b0 b1 (Bk : Z -> list Z) : (forall fs, run (NoFault :: fs) = fin fs) ->
  (forall k j, f_faults (fl (run (Fault k :: repeat (Fault 0) j))) = repeat (Fault 0) j /\ f_data (fl (run (Fault k :: repeat (Fault 0) j))) = Bk k) ->
  (forall k, R b0 (Bk k) /\ R (Bk k) b1) -> (forall k k', k <= k' -> tail_prefix (Bk k) (Bk k')) -> stops fl run fin b0 b1.
Proof using HR.
  intros H1 H2 H3 H4. assert (H01 : R b0 b1) by (destruct (H3 0); eauto). exists 1%nat, (fun n k => match n with O => Bk k | S _ => b1 end).
  split; [|split; [|split]].
  - intros n k j L. destruct n as [|n]; [lia|]. cbn [stop repeat app Nat.sub]. rewrite Nat.sub_0_r. apply H1.
  - intros n k j L. destruct n as [|n]; [|lia]. destruct (H2 k j) as [K1 K2]. split; [eauto|]. intros _. exact K2.
  - intros n k. destruct n as [|n]; auto.
  - intros n k n' k' HE. destruct n as [|n]; destruct n' as [|n']; [|apply Rtail; apply H3| |apply Rtail; apply Rrefl]; destruct HE as [HE|[HE HE']]; try lia. apply H4. exact HE'.
Qed.
Lemma stops_call0 {X} (fl : X -> file) run fin b : (forall fs, run (NoFault :: fs) = fin fs) ->
  (forall k j, f_faults (fl (run (Fault k :: repeat (Fault 0) j))) = repeat (Fault 0) j /\ f_data (fl (run (Fault k :: repeat (Fault 0) j))) = b) -> stops fl run fin b b.
Proof using HR. intros H1 H2. apply (stops_call fl run fin b b (fun _ => b)); auto. Qed.

Definition wfile {A} (x : res A * writer) : file := w_file (snd x).
Definition crash_at {A} (m : M A) (w : writer) (Q : res A -> writer -> Prop) : Prop :=
  exists r v, m (withf w []) = (r, v) /\ f_faults (w_file v) = [] /\ Q r v
  /\ stops wfile (fun fs => m (withf w fs)) (fun fs => (r, withf v fs)) (bytes_of w) (bytes_of v).

Lemma crash_from {A} (m : M A) w Q : crash_at m w Q -> crash_at m w (fun r v => Q r v /\ R (bytes_of w) (bytes_of v)).
Proof using HR. intros (r & v & E & F & HQ & K). exists r, v. split; [exact E|]. split; [exact F|]. split; [|exact K]. split; [exact HQ|]. eapply stops_from. exact K. Qed.
Lemma crash_post {A} (m : M A) w (Q Q' : res A -> writer -> Prop) : crash_at m w Q -> (forall r v, Q r v -> Q' r v) -> crash_at m w Q'.
Proof. intros (r & v & E & F & HQ & K) H. exists r, v. auto 6. Qed.
Lemma crash_pure {A} (r : res A) w (Q : res A -> writer -> Prop) : Q r (withf w []) -> crash_at (fun w => (r, w)) w Q.
Proof using HR.
  intros HQ. exists r, (withf w []). split; [reflexivity|]. split; [reflexivity|]. split; [exact HQ|]. apply stops_none. reflexivity.
Qed.
Lemma crash_modify f w (Q : res unit -> writer -> Prop) : (forall u fs, f (withf u fs) = withf (f u) fs) -> (forall u, w_file (f u) = w_file u) ->
  Q (Ok tt) (f (withf w [])) -> crash_at (mmodify f) w Q.
Proof using HR.
  intros Hf Hf' HQ. exists (Ok tt), (f (withf w [])). split; [reflexivity|]. rewrite Hf in *. split; [reflexivity|]. split; [exact HQ|].
  replace (bytes_of (withf (f w) [])) with (bytes_of w) by (unfold bytes_of; cbn; rewrite Hf'; reflexivity). apply stops_none. intros fs. unfold mmodify. rewrite Hf. reflexivity.
Qed.
Lemma crash_get {B} (k : writer -> M B) w Q : (forall fs, k (withf w fs) = k (withf w [])) -> crash_at (k (withf w [])) w Q -> crash_at (mbind mget k) w Q.
Proof.
  intros Hk (r & v & E & F & HQ & K). exists r, v. unfold mbind, mget. split; [exact E|]. split; [exact F|]. split; [exact HQ|].
  eapply stops_ext; [| |exact K]; [|reflexivity]. intros fs. cbv beta. rewrite (Hk fs). reflexivity.
Qed.
Lemma crash_next {A B} (m : M A) (next : res A * writer -> res B * writer) w Q1 Q : crash_at m w Q1 -> inert wfile wfile next ->
  (forall r v, Q1 r v -> f_faults (w_file v) = [] -> crash_at (fun u => next (r, u)) v Q) -> crash_at (fun u => next (m u)) w Q.
Proof using HR.
  intros (r & v & E & F & HQ & K) HI Hk. destruct (Hk r v HQ F) as (r' & v' & E' & F' & HQ' & K'). exists r', v'. rewrite E.
  rewrite <- F, withf_id in E'. split; [exact E'|]. split; [exact F'|]. split; [exact HQ'|]. eapply stops_seq; [exact K|exact HI|exact K'].
Qed.
Lemma crash_ext {A} (m m' : M A) w Q : (forall fs, m (withf w fs) = m' (withf w fs)) -> crash_at m' w Q -> crash_at m w Q.
Proof. intros H (r & v & E & F & HQ & K). exists r, v. rewrite H. split; [exact E|]. split; [exact F|]. split; [exact HQ|]. eapply stops_ext; [| |exact K]; [|reflexivity]. intros fs. cbv beta. rewrite H. reflexivity. Qed.
Lemma crash_bind {A B} (m : M A) (k : A -> M B) w Q1 Q : crash_at m w Q1 -> (forall a, still (k a)) ->
  (forall a v, Q1 (Ok a) v -> f_faults (w_file v) = [] -> crash_at (k a) v Q) ->
  (forall e v, Q1 (Err e) v -> Q (Err e) v) -> (forall v, Q1 Panic v -> Q Panic v) -> crash_at (mbind m k) w Q.
Proof using HR.
  intros Hm Hs Hk He Hp. eapply (crash_ext _ (fun u => match m u with (r, v) => match r with Ok a => k a v | Err e => (Err e, v) | Panic => (Panic, v) end end)).
  { intros fs. unfold mbind. destruct (m (withf w fs)) as [[a|e|] v]; reflexivity. }
  eapply (crash_next m (fun '(r, v) => match r with Ok a => k a v | Err e => (Err e, v) | Panic => (Panic, v) end)); [exact Hm| |].
  - intros [[a|e|] v] D; [apply (Hs a v D)|auto|auto].
  - intros [a|e|] v HQ F; [apply Hk; assumption| |].
    + apply (crash_pure (Err e)). apply He. rewrite <- F, withf_id. exact HQ.
    + apply (crash_pure Panic). apply Hp. rewrite <- F, withf_id. exact HQ.
Qed.
End Logic.
End Stop.
