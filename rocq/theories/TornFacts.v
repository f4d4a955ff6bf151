(** A block that failed half way leaves the writer's position list one longer than its
    block count, for good. *)
From Verif Require Import Machine MachineFacts Encoding Sroar FileIO FileFacts Writer Spec.
From Coq Require Import Lia ZifyBool.
Local Open Scope Z_scope.

Section Torn.
Context {Srr : Sroar}.

Definition book (w : writer) : list Z * Z := (w_positions w, w_blockCount w).
(** [m] leaves the book alone. *)
Definition quiet {A} (m : M A) : Prop := forall w, book (snd (m w)) = book w.
(** [m] leaves the book and the bytes alone. *)
Definition silent {A} (m : M A) : Prop := forall w, book (snd (m w)) = book w /\ bytes_of (snd (m w)) = bytes_of w.
(** [m] leaves the book alone, or enters one block, after which only a sync can fail. *)
Definition enters {A} (m : M A) : Prop := forall w, let '(r, w') := m w in
  (book w' = book w /\ forall a, r <> Ok a) \/ (book w' = (w_positions w, w_blockCount w + 1) /\ ((exists a, r = Ok a) \/ r = Err ErrSync)).

Lemma quiet_ret {A} (a : A) : quiet (mret a). Proof. intros w. reflexivity. Qed.
Lemma quiet_fail {A} e : quiet (@mfail _ A e). Proof. intros w. reflexivity. Qed.
Lemma quiet_panic {A} : quiet (@mpanic _ A). Proof. intros w. reflexivity. Qed.
Lemma quiet_lift {A} (r : res A) : quiet (mlift r). Proof. intros w. reflexivity. Qed.
Lemma quiet_get : quiet mget. Proof. intros w. reflexivity. Qed.
Lemma quiet_file {A} (op : file -> res A * file) : quiet (mfile op).
Proof. intros w. unfold mfile. destruct (op (w_file w)). reflexivity. Qed.
Lemma quiet_bind {A B} (m : M A) (k : A -> M B) : quiet m -> (forall a, quiet (k a)) -> quiet (mbind m k).
Proof.
  intros Hm Hk w. unfold mbind. specialize (Hm w). destruct (m w) as [[a|e|] w']; cbn [snd] in *; [|exact Hm|exact Hm].
  rewrite (Hk a w'). exact Hm.
Qed.
Lemma enters_fail {A} e : enters (@mfail _ A e).
Proof. intros w. left. split; [reflexivity|discriminate]. Qed.
Lemma enters_if {A} (b : bool) (m n : M A) : enters m -> enters n -> enters (if b then m else n).
Proof. destruct b; auto. Qed.
Lemma enters_push size st : enters (mbind (mmodify (fun w => push_block w size st)) (fun _ => sync)).
Proof.
  intros w. unfold mbind, mmodify. destruct (sync (push_block w size st)) as [r w'] eqn:E.
  right. pose proof (quiet_file file_sync (push_block w size st)) as Q. fold sync in Q. rewrite E in Q. cbn [snd] in Q.
  split; [rewrite Q; reflexivity|]. unfold sync, mfile, file_sync in E.
  destruct (f_open _); [|injection E as <- _; auto]. destruct (f_faults _) as [|[|k] fs]; injection E as <- _; eauto.
Qed.
Lemma enters_bind {A B} (m : M A) (k : A -> M B) : quiet m -> (forall a, enters (k a)) -> enters (mbind m k).
Proof.
  intros Hm Hk w. unfold mbind. specialize (Hm w). destruct (m w) as [[a|e|] w']; cbn [snd] in *; [|left; split; [exact Hm|discriminate]|left; split; [exact Hm|discriminate]].
  specialize (Hk a w'). destruct (k a w') as [r w'']. unfold book in *. injection Hm as E1 E2. rewrite E1, E2 in Hk. exact Hk.
Qed.
Lemma quiet_writeAll l : forall acc, quiet (writeAll l acc).
Proof. induction l as [|bs l IH]; intros acc; cbn [writeAll]; [apply quiet_ret|]. apply quiet_bind; [apply quiet_file|auto]. Qed.
Lemma quiet_if {A} (b : bool) (m n : M A) : quiet m -> quiet n -> quiet (if b then m else n).
Proof. destruct b; auto. Qed.

Ltac quiet := repeat first
  [ apply quiet_ret | apply quiet_fail | apply quiet_panic | apply quiet_lift | apply quiet_get | apply quiet_file | apply quiet_writeAll
  | apply quiet_if | (apply quiet_bind; [|intros ?]) ].
Lemma quiet_blockHeader a b c d e f : quiet (writeBlockHeader a b c d e f).
Proof. unfold writeBlockHeader, seek. quiet. Qed.
Lemma quiet_section u l bs : quiet (writeSection u l bs).
Proof. unfold writeSection. quiet. Qed.

Lemma silent_quiet {A} (m : M A) : silent m -> quiet m. Proof. intros H w. apply H. Qed.
Lemma silent_bind {A B} (m : M A) (k : A -> M B) : silent m -> (forall a, silent (k a)) -> silent (mbind m k).
Proof.
  intros Hm Hk w. unfold mbind. specialize (Hm w). destruct (m w) as [[a|e|] w']; cbn [snd] in *; [|exact Hm|exact Hm].
  destruct (Hk a w') as [H1 H2], Hm as [H3 H4]. split; congruence.
Qed.
Lemma silent_seek o wh : silent (seek o wh).
Proof.
  intros w. split; [apply quiet_file|]. unfold seek, mfile, file_seek, bytes_of. destruct (f_open (w_file w)); [|reflexivity].
  destruct (f_faults (w_file w)) as [|[|k] fs]; try reflexivity; destruct (_ <? 0); reflexivity.
Qed.
Lemma silent_estimate ids vals : silent (EstimateBlockSize ids vals).
Proof.
  unfold EstimateBlockSize. destruct (negb _); [split; reflexivity|]. destruct (_ =? 0); [split; reflexivity|].
  apply silent_bind; [split; reflexivity|]. intros w. apply silent_bind; [split; reflexivity|]. intros [[a b] c].
  apply silent_bind; [split; reflexivity|]. intros [[a' b'] c']. apply silent_bind; [apply silent_seek|]. intros p.
  destruct (_ >? 0); split; reflexivity.
Qed.
Lemma silent_optimal ids vals idx : forall o, silent (findOptimal ids vals idx o).
Proof.
  induction idx as [|i idx IH]; intros o w; cbn [findOptimal]; [split; reflexivity|].
  destruct (silent_estimate (ztake i ids) (ztake i vals) w) as [H1 H2].
  destruct (EstimateBlockSize _ _ w) as [[s|e|] w']; cbn [snd] in *; [|auto|auto].
  destruct (s <=? w_target w'); cbn [snd]; [|auto]. destruct (IH i w') as [H3 H4]. split; congruence.
Qed.

(** Writing a block. *)
Definition gap (w : writer) : Z := zlen (w_positions w) - w_blockCount w.
Lemma book_gap w w' : book w' = book w -> gap w' = gap w.
Proof. unfold book, gap. congruence. Qed.
Lemma book_count w w' : book w' = book w -> w_blockCount w' = w_blockCount w.
Proof. unfold book. congruence. Qed.

Lemma internal_gap ids vals w : let '(r, w') := writeBlockInternal ids vals w in
  gap w <= gap w' /\ w_blockCount w <= w_blockCount w'
  /\ (forall u, r = Ok u -> w_blockCount w + 1 <= w_blockCount w')
  /\ (forall e, r = Err e -> e <> ErrSync -> bytes_of w' <> bytes_of w -> gap w + 1 <= gap w').
Proof.
  unfold writeBlockInternal. unfold mbind at 1. cbn [mmodify].
  set (w1 := set_ids w _). assert (B1 : book w1 = book w) by reflexivity. assert (D1 : bytes_of w1 = bytes_of w) by reflexivity.
  unfold mbind at 1. cbn [mget]. set (enc := w_enc w1).
  unfold mbind at 1, mlift at 1. destruct (encodeIDs enc ids) as [[[eids bids] sids]|e|]; cbv zeta.
  2:{ rewrite (book_gap _ _ B1), (book_count _ _ B1). split; [lia|]. split; [lia|]. split; [discriminate|]. intros; congruence. }
  2:{ rewrite (book_gap _ _ B1), (book_count _ _ B1). split; [lia|]. split; [lia|]. split; discriminate. }
  unfold mbind at 1, mlift at 1. destruct (encodeValues enc vals) as [[[evals bvals] svals]|e|]; cbv zeta.
  2:{ rewrite (book_gap _ _ B1), (book_count _ _ B1). split; [lia|]. split; [lia|]. split; [discriminate|]. intros; congruence. }
  2:{ rewrite (book_gap _ _ B1), (book_count _ _ B1). split; [lia|]. split; [lia|]. split; discriminate. }
  destruct (calculateMinMax ids) as [mnI mxI]. destruct (calculateMinMax vals) as [mnV mxV].
  unfold mbind at 1. destruct (silent_seek 0 SeekCurrent w1) as [B2 D2]. destruct (seek 0 SeekCurrent w1) as [[start|e|] w2]; cbn [snd] in *.
  2:{ rewrite (book_gap w1 w2 B2), (book_count w1 w2 B2), (book_gap _ _ B1), (book_count _ _ B1). split; [lia|]. split; [lia|]. split; [discriminate|]. intros; congruence. }
  2:{ rewrite (book_gap w1 w2 B2), (book_count w1 w2 B2), (book_gap _ _ B1), (book_count _ _ B1). split; [lia|]. split; [lia|]. split; discriminate. }
  unfold mbind at 1. cbn [mmodify]. set (w3 := push_position w2 start).
  assert (B3 : gap w3 = gap w + 1 /\ w_blockCount w3 = w_blockCount w).
  { rewrite <- (book_gap _ _ B1), <- (book_gap _ _ B2), <- (book_count _ _ B1), <- (book_count _ _ B2).
    unfold w3, gap, push_position. cbn [w_positions w_blockCount]. rewrite zlen_app. change (zlen [start]) with 1. lia. }
  clearbody w3.
  match goal with |- let '(r, w') := ?m w3 in _ => assert (E : enters m) end.
  { apply enters_bind; [apply quiet_blockHeader|intros hw].
    repeat first [apply enters_push | apply enters_fail | apply enters_if
                 | (apply enters_bind; [first [apply quiet_section | apply quiet_if; apply quiet_file || apply quiet_ret | apply quiet_file | apply quiet_ret | idtac]|intros ?])]. }
  specialize (E w3). match goal with |- let '(r, w') := ?m w3 in _ => destruct (m w3) as [r w'] end.
  destruct E as [[E1 E2]|[E1 E2]].
  - rewrite (book_gap _ _ E1), (book_count _ _ E1). split; [lia|]. split; [lia|]. split; [intros u Hu; destruct (E2 u Hu)|]. intros; lia.
  - unfold book in E1. injection E1 as E3 E4. unfold gap in *. rewrite E3, E4. split; [lia|]. split; [lia|]. split; [intros; lia|].
    intros e He Hs _. destruct E2 as [[a E2]|E2]; congruence.
Qed.

(** Only WriteBlock itself says that a block is full. *)
Definition nofull {A} (m : M A) : Prop := forall w n, fst (m w) <> Err (ErrBlockFull n).
Lemma nofull_ret {A} (a : A) : nofull (mret a). Proof. intros w n. discriminate. Qed.
Lemma nofull_fail {A} e : (forall n, e <> ErrBlockFull n) -> nofull (@mfail _ A e).
Proof. intros H w n E. injection E as E. apply (H n E). Qed.
Lemma nofull_lift {A} (r : res A) : (forall n, r <> Err (ErrBlockFull n)) -> nofull (mlift r). Proof. intros H w n. apply H. Qed.
Lemma nofull_get : nofull mget. Proof. intros w n. discriminate. Qed.
Lemma nofull_modify f : nofull (mmodify f). Proof. intros w n. discriminate. Qed.
Lemma nofull_bind {A B} (m : M A) (k : A -> M B) : nofull m -> (forall a, nofull (k a)) -> nofull (mbind m k).
Proof.
  intros Hm Hk w n. unfold mbind. specialize (Hm w n). destruct (m w) as [[a|e|] w']; cbn [fst] in *; [apply Hk|congruence|discriminate].
Qed.
Lemma nofull_write bs : nofull (write bs).
Proof.
  intros w n. unfold write, mfile, file_write. destruct (f_open _); [|discriminate].
  destruct (f_faults _) as [|[|k] fs]; discriminate.
Qed.
Lemma nofull_seek o wh : nofull (seek o wh).
Proof.
  intros w n. unfold seek, mfile, file_seek. destruct (f_open _); [|discriminate].
  destruct (f_faults _) as [|[|k] fs]; try discriminate; destruct (_ <? 0); discriminate.
Qed.
Lemma nofull_sync : nofull sync.
Proof.
  intros w n. unfold sync, mfile, file_sync. destruct (f_open _); [|discriminate].
  destruct (f_faults _) as [|[|k] fs]; discriminate.
Qed.
Lemma nofull_writeAll l : forall acc, nofull (writeAll l acc).
Proof. induction l as [|bs l IH]; intros acc; cbn [writeAll]; [apply nofull_ret|]. apply nofull_bind; [apply nofull_write|auto]. Qed.
Lemma encode_items_full enc l : forall s n, encode_items enc l s <> Err (ErrBlockFull n).
Proof.
  induction l as [|d l IH]; intros s n; cbn [encode_items]; [discriminate|]. destruct (_ =? 0); [discriminate|].
  specialize (IH (u32 (s + u32 (zlen (enc d)))) n). destruct (encode_items enc l _) as [[a b]|e|]; cbn [rbind]; congruence.
Qed.
Lemma encodeData_full e d f g n : encodeData e d f g <> Err (ErrBlockFull n).
Proof.
  unfold encodeData. destruct (usesDelta e) as [b|]; [|discriminate]. destruct (usesFixedWidth e); [discriminate|].
  pose proof (encode_items_full g (if b then f d else d) 0 n) as H. destruct (encode_items g _ 0) as [[x y]|er|]; cbn [rbind]; [|congruence|discriminate].
  destruct (_ && _); discriminate.
Qed.
Lemma nofull_if {A} (b : bool) (m n : M A) : nofull m -> nofull n -> nofull (if b then m else n).
Proof. destruct b; auto. Qed.
Ltac nofull := repeat first
  [ apply nofull_ret | (apply nofull_fail; discriminate) | apply nofull_get | apply nofull_modify | apply nofull_write | apply nofull_seek
  | apply nofull_sync | apply nofull_writeAll | apply nofull_if
  | (apply nofull_lift; intros ?; first [apply encodeData_full])
  | (apply nofull_bind; [|intros ?]) ].
Lemma nofull_estimate ids vals : nofull (EstimateBlockSize ids vals).
Proof.
  unfold EstimateBlockSize. nofull. destruct a0 as [[? ?] ?]. nofull. destruct a0 as [[? ?] ?]. nofull.
Qed.
Lemma nofull_optimal ids vals idx : forall o, nofull (findOptimal ids vals idx o).
Proof.
  induction idx as [|i idx IH]; intros o w n; cbn [findOptimal]; [discriminate|].
  destruct (EstimateBlockSize _ _ w) as [[s|e|] w']; cbn [fst]; [|discriminate|discriminate].
  destruct (s <=? w_target w'); [apply IH|discriminate].
Qed.
Lemma nofull_internal ids vals : nofull (writeBlockInternal ids vals).
Proof.
  unfold writeBlockInternal. apply nofull_bind; [apply nofull_modify|intros _]. apply nofull_bind; [apply nofull_get|intros w].
  apply nofull_bind; [apply nofull_lift; intros n; apply encodeData_full|intros [[? ?] ?]].
  apply nofull_bind; [apply nofull_lift; intros n; apply encodeData_full|intros [[? ?] ?]].
  destruct (calculateMinMax ids). destruct (calculateMinMax vals). unfold writeBlockHeader, writeSection, writeInt. nofull.
Qed.

Definition written (r : res Z) : Prop := (exists n, r = Ok n) \/ exists n, r = Err (ErrBlockFull n).
Lemma write_gap ids vals w : let '(r, w') := run_call (CWriteBlock ids vals) w in
  gap w <= gap w' /\ w_blockCount w <= w_blockCount w'
  /\ (written r -> w_blockCount w + 1 <= w_blockCount w')
  /\ (forall e, r = Err e -> e <> ErrSync -> (forall n, e <> ErrBlockFull n) -> bytes_of w' <> bytes_of w -> gap w + 1 <= gap w').
Proof.
  cbn [run_call]. unfold WriteBlock.
  assert (N : forall e, (forall n, e <> ErrBlockFull n) -> ~ written (Err e)).
  { intros e He [[n H]|[n H]]; [discriminate|]. injection H as ->. apply (He n). reflexivity. }
  assert (Stop : forall e w', (forall n, e <> ErrBlockFull n) -> book w' = book w -> bytes_of w' = bytes_of w ->
    gap w <= gap w' /\ w_blockCount w <= w_blockCount w' /\ (written (Err e) -> w_blockCount w + 1 <= w_blockCount w')
    /\ (forall e', Err (A := Z) e = Err e' -> e' <> ErrSync -> (forall n, e' <> ErrBlockFull n) -> bytes_of w' <> bytes_of w -> gap w + 1 <= gap w')).
  { intros e w' He Hb Hd. rewrite (book_gap _ _ Hb), (book_count _ _ Hb). split; [lia|]. split; [lia|]. split; [intros K; destruct (N e He K)|congruence]. }
  assert (Crash : forall w', book w' = book w ->
    gap w <= gap w' /\ w_blockCount w <= w_blockCount w' /\ (written Panic -> w_blockCount w + 1 <= w_blockCount w')
    /\ (forall e', @Panic Z = Err e' -> e' <> ErrSync -> (forall n, e' <> ErrBlockFull n) -> bytes_of w' <> bytes_of w -> gap w + 1 <= gap w')).
  { intros w' Hb. rewrite (book_gap _ _ Hb), (book_count _ _ Hb). split; [lia|]. split; [lia|]. split; [intros [[n K]|[n K]]; discriminate|discriminate]. }
  destruct (negb (zlen ids =? zlen vals)); [unfold mbind, mfail; apply Stop; [discriminate|reflexivity|reflexivity]|].
  destruct (zlen ids =? 0); [unfold mbind, mfail; apply Stop; [discriminate|reflexivity|reflexivity]|].
  assert (Inner : forall ids vals w1, book w1 = book w -> bytes_of w1 = bytes_of w ->
    forall r w', writeBlockInternal ids vals w1 = (r, w') ->
      gap w <= gap w' /\ w_blockCount w <= w_blockCount w'
      /\ (forall u, r = Ok u -> w_blockCount w + 1 <= w_blockCount w')
      /\ (forall n, r <> Err (ErrBlockFull n))
      /\ (forall e, r = Err e -> e <> ErrSync -> bytes_of w' <> bytes_of w -> gap w + 1 <= gap w')).
  { intros i v w1 Hb Hd r w' E. pose proof (internal_gap i v w1) as I. pose proof (nofull_internal i v w1) as F. rewrite E in I, F. cbn [fst] in F.
    rewrite (book_gap _ _ Hb), (book_count _ _ Hb), Hd in I. destruct I as (I1 & I2 & I3 & I4). auto. }
  unfold mbind at 1 2. destruct (silent_estimate ids vals w) as [B D]. pose proof (nofull_estimate ids vals w) as F.
  destruct (EstimateBlockSize ids vals w) as [[size|e|] w1]; cbn [fst snd] in *.
  2:{ apply Stop; [intros n E; subst e; apply (F n); reflexivity|exact B|exact D]. }
  2:{ apply Crash. exact B. }
  unfold mbind at 1. cbn [mget]. destruct ((size >? w_target w1) && (zlen ids >? 1)).
  - unfold mbind at 1. destruct (silent_optimal ids vals (tl (zseq (zlen ids))) 1 w1) as [B' D']. pose proof (nofull_optimal ids vals (tl (zseq (zlen ids))) 1 w1) as F'.
    destruct (findOptimal ids vals (tl (zseq (zlen ids))) 1 w1) as [[o|e|] w2]; cbn [fst snd] in *.
    2:{ apply Stop; [intros n E; subst e; apply (F' n); reflexivity|congruence|congruence]. }
    2:{ apply Crash. congruence. }
    unfold mbind at 1. destruct (writeBlockInternal (ztake o ids) (ztake o vals) w2) as [r w'] eqn:E.
    destruct (Inner _ _ w2 ltac:(congruence) ltac:(congruence) r w' E) as (I1 & I2 & I3 & I4 & I5).
    destruct r as [u|e|]; cbn [mfail].
    + split; [exact I1|]. split; [exact I2|]. split; [intros _; apply (I3 u); reflexivity|]. intros e He _ Hn. injection He as <-. destruct (Hn o eq_refl).
    + split; [exact I1|]. split; [exact I2|]. split; [intros K; destruct (N e ltac:(intros n ->; apply (I4 n); reflexivity) K)|].
      intros e' He Hs _ Hd. injection He as <-. apply (I5 e); auto.
    + split; [exact I1|]. split; [exact I2|]. split; [intros [[n K]|[n K]]; discriminate|discriminate].
  - destruct (writeBlockInternal ids vals w1) as [r w'] eqn:E.
    destruct (Inner _ _ w1 B D r w' E) as (I1 & I2 & I3 & I4 & I5).
    destruct r as [u|e|]; cbn [mret].
    + split; [exact I1|]. split; [exact I2|]. split; [intros _; apply (I3 u); reflexivity|discriminate].
    + split; [exact I1|]. split; [exact I2|]. split; [intros K; destruct (N e ltac:(intros n ->; apply (I4 n); reflexivity) K)|].
      intros e' He Hs _ Hd. injection He as <-. apply (I5 e); auto.
    + split; [exact I1|]. split; [exact I2|]. split; [intros [[n K]|[n K]]; discriminate|discriminate].
Qed.

(** ** Other calls *)
Lemma quiet_entries idx : quiet (writeFooterEntries idx).
Proof.
  induction idx as [|i idx IH]; cbn [writeFooterEntries]; [apply quiet_ret|]. apply quiet_bind; [apply quiet_get|intros w].
  destruct (nth_error (w_positions w) _); [|apply quiet_panic]. destruct (nth_error (w_sizes w) _); [|apply quiet_panic].
  destruct (nth_error (w_stats w) _); [|apply quiet_panic]. apply quiet_bind; [|intros _; exact IH]. unfold writeBlockFooter, seek. quiet.
Qed.
Lemma quiet_finalize now : quiet (Finalize now).
Proof.
  unfold Finalize, writeGlobalIDBitmap. apply quiet_bind; [quiet|intros [o s]]. unfold seek, write, writeInt, sync. quiet. apply quiet_entries.
Qed.
Lemma call_gap c w : let '(r, w') := run_call c w in gap w <= gap w' /\ w_blockCount w <= w_blockCount w'.
Proof.
  assert (Q : forall m : M Z, quiet m -> let '(r, w') := m w in gap w <= gap w' /\ w_blockCount w <= w_blockCount w').
  { intros m H. specialize (H w). destruct (m w) as [r w']. cbn [snd] in H. rewrite (book_gap _ _ H), (book_count _ _ H). lia. }
  destruct c as [ids vals|ids vals|now|now|].
  - pose proof (write_gap ids vals w) as G. destruct (run_call _ w). tauto.
  - apply Q. cbn [run_call]. apply silent_quiet, silent_estimate.
  - apply Q. cbn [run_call]. apply quiet_bind; [apply quiet_finalize|intros _; apply quiet_ret].
  - apply Q. cbn [run_call]. apply quiet_bind; [|intros _; apply quiet_ret]. unfold FinalizeAndClose, closeFile. apply quiet_bind; [apply quiet_finalize|intros _; apply quiet_file].
  - apply Q. cbn [run_call]. unfold Close, closeFile. quiet.
Qed.
Lemma calls_gap cs : forall w, let '(outs, w') := run_calls cs w in
  gap w <= gap w' /\ w_blockCount w <= w_blockCount w'
  /\ (forall c ids vals r, In (c, r) (combine cs outs) -> c = CWriteBlock ids vals -> written r -> w_blockCount w + 1 <= w_blockCount w').
Proof.
  induction cs as [|c cs IH]; intros w; cbn [run_calls combine]; [split; [lia|]; split; [lia|]; intros ? ? ? ? []|].
  pose proof (call_gap c w) as G. pose proof (fun ids vals => write_gap ids vals w) as W.
  destruct (run_call c w) as [r w1] eqn:E. specialize (IH w1). destruct (run_calls cs w1) as [rs w2].
  destruct IH as (I1 & I2 & I3). cbn [combine]. split; [lia|]. split; [lia|].
  intros c' ids vals r' [H|H] Hc Hw.
  - injection H as <- <-. subst c. specialize (W ids vals). rewrite E in W. destruct W as (_ & _ & W & _). specialize (W Hw). lia.
  - specialize (I3 c' ids vals r' H Hc Hw). lia.
Qed.

(** A successful Finalize: no block, or as many positions as blocks. *)
Lemma quiet_then {A B} (P : writer -> Prop) (m : M A) (k : A -> M B) w b w' :
  quiet m -> mbind m k w = (Ok b, w') -> (forall a w1, book w1 = book w -> k a w1 = (Ok b, w') -> P w) -> P w.
Proof.
  intros Hm H K. unfold mbind in H. specialize (Hm w). destruct (m w) as [[a|e|] w1]; try discriminate. apply (K a w1); assumption.
Qed.
Lemma finalize_gap now w u w' : Finalize now w = (Ok u, w') -> w_blockCount w <= 0 \/ gap w = 0.
Proof.
  unfold Finalize. intros H.
  assert (G : forall w0, book w0 = book w -> w_blockCount w0 <= 0 \/ gap w0 = 0 -> w_blockCount w <= 0 \/ gap w = 0).
  { intros w0 Hb. rewrite (book_gap _ _ Hb), (book_count _ _ Hb). auto. }
  eapply (quiet_then (fun w => _)); [|exact H|]; [unfold writeGlobalIDBitmap, seek, writeInt, write; quiet|]. clear H. intros [o s] w1 B1 H.
  eapply (quiet_then (fun w => _)); [|exact H|]; [apply quiet_file|]. clear H. intros ? w2 B2 H.
  unfold mbind at 1 in H. cbn [mget] in H.
  eapply (quiet_then (fun w => _)); [|exact H|]; [apply quiet_writeAll|]. clear H. intros ? w3 B3 H.
  eapply (quiet_then (fun w => _)); [|exact H|]; [apply quiet_file|]. clear H. intros ? w4 B4 H.
  eapply (quiet_then (fun w => _)); [|exact H|]; [apply quiet_file|]. clear H. intros p w5 B5 H. cbv zeta in H.
  eapply (quiet_then (fun w => _)); [|exact H|]; [apply quiet_if; [apply quiet_file|apply quiet_ret]|]. clear H. intros ? w6 B6 H.
  eapply (quiet_then (fun w => _)); [|exact H|]; [apply quiet_file|]. clear H. intros ? w7 B7 H.
  eapply (quiet_then (fun w => _)); [|exact H|]; [apply quiet_file|]. clear H. intros ? w8 B8 H.
  apply (G w2); [congruence|]. unfold mbind at 1 in H. destruct (w_blockCount w2 >? 0) eqn:E; [|left; lia].
  destruct (zlen (w_positions w2) =? w_blockCount w2) eqn:E2; cbn [negb] in H; [right; unfold gap; lia|discriminate].
Qed.

Lemma NewWriter_gap now options faults w f : NewWriter now options faults = (Ok w, f) -> gap w = 0.
Proof.
  unfold NewWriter. set (w0 := mkWriter _ _ _ _ _ _ _ _). assert (B : forall o w, book (fold_left applyOption o w) = book w).
  { induction o as [|x o IH]; intros v; [reflexivity|]. cbn [fold_left]. rewrite IH. destruct x; reflexivity. }
  assert (Q : quiet (writeHeader now)) by (unfold writeHeader, seek, write; quiet).
  specialize (Q (fold_left applyOption options w0)). destruct (writeHeader now _) as [[u|e|] w']; try discriminate. cbn [snd] in Q.
  intros H; injection H as <- _. rewrite (book_gap _ _ Q), (book_gap _ _ (B options w0)). reflexivity.
Qed.

Theorem torn_block_poisons now0 options faults w0 f0 cs1 outs1 w1 ids vals e w2 cs2 outs2 w3 fin now n w4 :
  NewWriter now0 options faults = (Ok w0, f0) -> run_calls cs1 w0 = (outs1, w1) ->
  run_call (CWriteBlock ids vals) w1 = (Err e, w2) -> e <> ErrSync -> (forall k, e <> ErrBlockFull k) -> bytes_of w2 <> bytes_of w1 ->
  run_calls cs2 w2 = (outs2, w3) -> finalizing fin now -> run_call fin w3 = (Ok n, w4) ->
  forall c i v r, In (c, r) (combine cs1 outs1 ++ combine cs2 outs2) -> c = CWriteBlock i v -> ~ written r.
Proof.
  intros Hn H1 Hw He1 He2 Hd H2 Hf Hfin. pose proof (NewWriter_gap _ _ _ _ _ Hn) as G0.
  assert (C0 : 0 <= w_blockCount w0).
  { unfold NewWriter in Hn. assert (B : forall o w, w_blockCount (fold_left applyOption o w) = w_blockCount w).
    { induction o as [|x o IH]; intros v; [reflexivity|]. cbn [fold_left]. rewrite IH. destruct x; reflexivity. }
    assert (Q : quiet (writeHeader now0)) by (unfold writeHeader, seek, write; quiet).
    match type of Hn with context[writeHeader now0 ?v] => specialize (Q v); pose proof (B options) as B' end.
    destruct (writeHeader now0 _) as [[u|x|] w']; try discriminate. cbn [snd] in Q. injection Hn as <- _.
    apply book_count in Q. rewrite Q, B'. cbn. lia. }
  pose proof (calls_gap cs1 w0) as K1. rewrite H1 in K1. destruct K1 as (A1 & A2 & A3).
  pose proof (write_gap ids vals w1) as K2. rewrite Hw in K2. destruct K2 as (B1 & B2 & _ & B4). specialize (B4 e eq_refl He1 He2 Hd).
  pose proof (calls_gap cs2 w2) as K3. rewrite H2 in K3. destruct K3 as (D1 & D2 & D3).
  assert (Hz : w_blockCount w3 <= 0).
  { assert (F : exists u w', Finalize now w3 = (Ok u, w')).
    { destruct Hf as [-> | ->]; cbn [run_call] in Hfin; unfold FinalizeAndClose, mbind in Hfin;
      destruct (Finalize now w3) as [[u|x|] w']; try discriminate; eauto. }
    destruct F as (u & w' & F). destruct (finalize_gap _ _ _ _ F) as [F'|F']; lia. }
  intros c i v r Hin Hc Hr. apply in_app_iff in Hin. destruct Hin as [Hin|Hin].
  - specialize (A3 c i v r Hin Hc Hr). lia.
  - specialize (D3 c i v r Hin Hc Hr). lia.
Qed.
End Torn.
