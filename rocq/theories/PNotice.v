(** Which damage is noticed (C36, beside C36_changes_detected_refuted in PReader.v and C79). *)
From Verif Require Import Machine MachineFacts Encoding FileIO Sroar SroarFacts Writer Reader Spec ArbFacts ReproFacts Examples PAggregate PReader.
From Coq Require Import Lia.
Local Open Scope Z_scope.

(** The magic number does not overlap itself. *)
Lemma magic_apart (d : list Z) a k : 0 <= a -> 1 <= k <= 7 ->
  slice d a 8 = le_bytes 8 MagicNumber -> slice d (a + k) 8 = le_bytes 8 MagicNumber -> False.
Proof.
  intros Ha Hk H1 H2. assert (E : slice (slice d a 8) k 1 = slice (slice d (a + k) 8) 0 1) by (rewrite !slice_slice by lia; f_equal; lia).
  rewrite H1, H2 in E. assert (K : k = 1 \/ k = 2 \/ k = 3 \/ k = 4 \/ k = 5 \/ k = 6 \/ k = 7) by lia.
  destruct K as [->|[->|[->|[->|[->|[->| ->]]]]]]; vm_compute in E; discriminate.
Qed.
Lemma refused data : Forall is_byte data -> zlen data < two63 -> (forall r, NewReader data <> Ok r) -> exists e, NewReader data = Err e.
Proof. intros B S H. destruct (NewReader data) as [r|e|] eqn:E; [destruct (H r eq_refl)|eauto|destruct (NewReader_no_panic data B E)]. Qed.
Lemma nth_of_slice (d : list Z) off n p x : 0 <= off <= p -> p < off + n -> slice d off n = x -> nth_error d (Z.to_nat p) = nth_error x (Z.to_nat (p - off)).
Proof.
  intros H1 H2 <-. unfold slice, ztake, zdrop. rewrite nth_error_firstn', nth_error_skipn'. destruct (Nat.ltb_spec (Z.to_nat (p - off)) (Z.to_nat n)); [f_equal; lia|lia].
Qed.

(** Any accepted file.  A change of any of its first 12 bytes (magic number and version) or
    of its last 8 (magic number) is noticed by NewReader, whatever else is changed; and so
    is the loss of up to 7 bytes at the end, and up to 7 bytes more there. *)
Theorem C36_detected : forall data r, Forall is_byte data -> NewReader data = Ok r -> zlen data < two63 - 8 ->
  (forall data' p, Forall is_byte data' -> zlen data' = zlen data ->
     (0 <= p < 12 \/ zlen data - 8 <= p < zlen data) -> nth_error data' (Z.to_nat p) <> nth_error data (Z.to_nat p) ->
     exists e, NewReader data' = Err e)
  /\ (forall k, 1 <= k <= 7 -> exists e, NewReader (ztake (zlen data - k) data) = Err e)
  /\ (forall extra, Forall is_byte extra -> 1 <= zlen extra <= 7 -> exists e, NewReader (data ++ extra) = Err e).
Proof.
  intros data r B H S. assert (S' : zlen data < two63) by (unfold two63 in *; lia).
  destruct (NewReader_accepts data r B S' H) as (L & M1 & V1 & T1 & _). split; [|split].
  - intros data' p B' EL P D. apply refused; [exact B'|lia|]. intros r' H'. destruct (NewReader_accepts data' r' B' ltac:(lia) H') as (_ & M2 & V2 & T2 & _).
    apply D. rewrite EL in T2. destruct (Z_lt_ge_dec p 8) as [P8|P8]; [|destruct (Z_lt_ge_dec p 12) as [P12|P12]].
    + destruct P as [P|P]; rewrite (nth_of_slice data' 0 8 p _ ltac:(lia) ltac:(lia) M2), (nth_of_slice data 0 8 p _ ltac:(lia) ltac:(lia) M1); reflexivity.
    + rewrite (nth_of_slice data' 8 4 p _ ltac:(lia) ltac:(lia) V2), (nth_of_slice data 8 4 p _ ltac:(lia) ltac:(lia) V1); reflexivity.
    + rewrite (nth_of_slice data' (zlen data - 8) 8 p _ ltac:(lia) ltac:(lia) T2), (nth_of_slice data (zlen data - 8) 8 p _ ltac:(lia) ltac:(lia) T1); reflexivity.
  - intros k Hk. assert (ZL : zlen (ztake (zlen data - k) data) = zlen data - k) by (rewrite zlen_ztake; lia).
    assert (B' : Forall is_byte (ztake (zlen data - k) data)) by (apply Forall_ztake; exact B).
    apply refused; [exact B'|lia|]. intros r' H'. destruct (NewReader_accepts _ r' B' ltac:(lia) H') as (L2 & _ & _ & T2 & _). rewrite ZL in T2, L2.
    apply (magic_apart data (zlen data - k - 8) k); [lia|exact Hk| |replace (zlen data - k - 8 + k) with (zlen data - 8) by lia; exact T1].
    rewrite <- T2. rewrite <- (ztake_zdrop (zlen data - k) data) at 1. apply slice_app_l; lia.
  - intros extra BE Hk. assert (B' : Forall is_byte (data ++ extra)) by (apply Forall_app; auto).
    apply refused; [exact B'|rewrite zlen_app; unfold two63 in *; lia|]. intros r' H'.
    destruct (NewReader_accepts _ r' B' ltac:(rewrite zlen_app; unfold two63 in *; lia) H') as (_ & _ & _ & T2 & _). rewrite zlen_app in T2.
    apply (magic_apart (data ++ extra) (zlen data - 8) (zlen extra)); [lia|exact Hk|rewrite slice_app_l by lia; exact T1|].
    replace (zlen data - 8 + zlen extra) with (zlen data + zlen extra - 8) by lia. exact T2.
Qed.
Print Assumptions C36_detected.
Example C36_detected_case : Forall is_byte (bytes_of agg_writer) /\ NewReader (bytes_of agg_writer) = Ok agg_reader /\ zlen (bytes_of agg_writer) = 12428
  /\ NewReader (ztake 12425 (bytes_of agg_writer)) = Err ErrFooter /\ NewReader (bytes_of agg_writer ++ [0]) = Err ErrFooter.
Proof.
  split; [apply bytesb_sound; vm_compute; reflexivity|].
  split; [apply agg_finished|]. split; [vm_compute; reflexivity|]. split; vm_compute; reflexivity.
Qed.
