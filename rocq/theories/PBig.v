(** C67: a block whose bytes are more than 2^32.  Statements and cases; proofs in BigFacts.v. *)
From Coq Require Import Lia ZArith.
From Verif Require Import Machine MachineFacts Encoding EncodingFacts FileIO Sroar Writer Spec FileFacts WriterFacts BlockFacts FinalFacts SimpleWriter SimpleSpec Reader ReaderFacts Aggregate BigFacts.
Local Open Scope Z_scope.
Ltac Zify.zify_post_hook ::= Z.div_mod_to_equations.

Lemma big_block ids vals : Forall is_u64 ids -> Forall is_i64 vals -> zlen vals = zlen ids -> 2 ^ 28 <= zlen ids <= 2 ^ 28 + 1015 ->
  large_block ids vals /\ two32 <= zlen ids * 16 + 80 < two32 + 16384 - 63.
Proof. intros Hi Hv Hl Hn. unfold large_block, two32. change (2 ^ 28) with 268435456 in Hn. repeat split; try assumption; lia. Qed.

Section Big.
Context {Srr : Sroar}.
Lemma writes ids vals now0 w f : Forall is_u64 ids -> Forall is_i64 vals -> zlen vals = zlen ids -> 2 ^ 28 <= zlen ids <= 2 ^ 28 + 1015 ->
  NewWriter now0 [] [] = (Ok w, f) ->
  exists w1, WriteBlock ids vals w = (Ok tt, w1) /\ End True (commit_large (new_writer [] (mkFile [] 0 true [])) (initial_data now0 []) ids vals)
     (initial_data now0 [] ++ block_image 0 64 ids vals) w1.
Proof.
  intros Hi Hv Hl Hn HW. destruct (big_block _ _ Hi Hv Hl Hn) as [HL HB].
  pose proof (NewWriter_rule True now0 [] [] (fun _ => nofault_nil)) as T. cbv zeta in T. rewrite HW in T. destruct T as [T _].
  pose proof (WriteBlock_large (new_writer [] (mkFile [] 0 true [])) (initial_data now0 []) ids vals eq_refl HL) as R. rewrite zlen_initial in R.
  specialize (R ltac:(unfold two63; lia)).
  assert (HT : let t := u32 (80 + zlen ids * 16) in t + calculatePadding (64 + t) PageSize <= w_target (new_writer [] (mkFile [] 0 true []))).
  { cbv zeta. change (w_target (new_writer [] (mkFile [] 0 true []))) with 16384. change (2 ^ 28) with 268435456 in Hn. set (t := u32 (80 + zlen ids * 16)).
    assert (Ht : t = 80 + zlen ids * 16 - 4294967296) by (unfold t, u32, two32 in *; lia). clearbody t.
    unfold calculatePadding, PageSize. destruct (Z.eqb_spec ((64 + t) mod 4096) 0); lia. }
  specialize (R HT w T). destruct (WriteBlock ids vals w) as [[[]|e|] w1]; [|contradiction R|contradiction R].
  exists w1. split; [reflexivity|exact R].
Qed.

(** C67: with default options and nothing failing, WriteBlock of 2^28 to 2^28 + 1015 items
    -- more than 4 GiB, although blocks are meant to have at most 16 KiB -- returns nil,
    writing one block: its estimated size has wrapped around.  Finalize returns nil and
    NewReader opens the file; but the block can not be read.  The footer counts all the
    items, a scan none, and neither reports an error. *)
Theorem C67_unreadable_block : forall ids vals now0 now1 w f,
  Forall is_u64 ids -> Forall is_i64 vals -> zlen vals = zlen ids -> 2 ^ 28 <= zlen ids <= 2 ^ 28 + 1015 ->
  NewWriter now0 [] [] = (Ok w, f) ->
  exists w1 w2, WriteBlock ids vals w = (Ok tt, w1) /\ Finalize now1 w1 = (Ok tt, w2)
    /\ (zlen (bytes_of w2) < two63 ->
        exists r counted scanned, NewReader (bytes_of w2) = Ok r /\ BlockCount r = 1 /\ (exists e, GetPairs r 0 = Err e)
          /\ Aggregate r = Ok counted /\ a_count counted = zlen ids
          /\ aggregateSequential r (mkOpts true None None 0) = Ok scanned /\ a_count scanned = 0).
Proof.
  intros ids vals now0 now1 w f Hi Hv Hl Hn HW. destruct (big_block _ _ Hi Hv Hl Hn) as [HL HB].
  destruct (writes ids vals now0 w f Hi Hv Hl Hn HW) as (w1 & E1 & T1). exists w1. rewrite E1.
  set (D := initial_data now0 [] ++ block_image 0 64 ids vals) in *.
  pose proof (Finalize_rule True (commit_large (new_writer [] (mkFile [] 0 true [])) (initial_data now0 []) ids vals) D (zlen D) now1) as R.
  specialize (R ltac:(unfold D; rewrite zlen_app, zlen_initial; pose proof (zlen_nonneg (block_image 0 64 ids vals)); lia) ltac:(change (0 <= 1); lia) eq_refl eq_refl w1 T1).
  destruct (Finalize now1 w1) as [[[]|e|] w2]; [| |contradiction].
  - destruct R as [_ R]. exists w2. split; [reflexivity|]. split; [reflexivity|]. intros HZ.
    destruct (reader_large ids vals _ now1 now0 w2 HL HB eq_refl) as (r & R1 & R2 & R3 & (res & R4 & R5) & R6); [rewrite zlen_initial; exact R|exact HZ|].
    exists r, res, (result_of acc0). rewrite R3. split; [exact R1|]. split; [exact R2|]. split; [eexists; reflexivity|]. split; [exact R4|]. split; [exact R5|]. split; [exact R6|reflexivity].
  - exfalso. destruct R as [[[_ R]|[_ R]] _]; [|tauto]. destruct R as [_ R]. apply R. reflexivity.
Qed.

Lemma closes ids vals now0 now1 w f w1 w2 : Forall is_u64 ids -> Forall is_i64 vals -> zlen vals = zlen ids -> 2 ^ 28 <= zlen ids <= 2 ^ 28 + 1015 ->
  NewWriter now0 [] [] = (Ok w, f) -> WriteBlock ids vals w = (Ok tt, w1) -> Finalize now1 w1 = (Ok tt, w2) ->
  exists w3, closeFile w2 = (Ok tt, w3) /\ bytes_of w3 = bytes_of w2.
Proof.
  intros Hi Hv Hl Hn ENW E1 E2. destruct (writes ids vals now0 w f Hi Hv Hl Hn ENW) as (w1' & E1' & T1). rewrite E1 in E1'. apply (f_equal snd) in E1'. cbn [snd] in E1'. subst w1'.
  set (D := initial_data now0 [] ++ block_image 0 64 ids vals) in *.
  pose proof (Finalize_rule True (commit_large (new_writer [] (mkFile [] 0 true [])) (initial_data now0 []) ids vals) D (zlen D) now1) as R.
  specialize (R ltac:(unfold D; rewrite zlen_app, zlen_initial; pose proof (zlen_nonneg (block_image 0 64 ids vals)); lia) ltac:(change (0 <= 1); lia) eq_refl eq_refl w1 T1).
  rewrite E2 in R. destruct R as [_ (fs & -> & Hfs)]. specialize (Hfs I). clear - Hfs.
  generalize (final_data (commit_large (new_writer [] (mkFile [] 0 true [])) (initial_data now0 []) ids vals) now1 D (zlen D)). intros F.
  generalize (commit_large (new_writer [] (mkFile [] 0 true [])) (initial_data now0 []) ids vals). intros w.
  destruct Hfs as [|x fs <- Hfs]; eexists; split; reflexivity.
Qed.

Lemma SWrite_one srt ids vals w w1 t n : isSorted ids = true -> zlen vals = zlen ids -> 1000 <= zlen ids -> WriteBlock ids vals w = (Ok tt, w1) ->
  SWrite srt ids vals (mkSW w [] [] t false n) = (Ok tt, mkSW w1 [] [] t false (u64 (n + zlen ids))).
Proof.
  intros Hs Hl B E1. unfold SWrite. cbn [sw_closed]. rewrite Hl, Z.eqb_refl. cbn [negb]. destruct (Z.eqb_spec (zlen ids) 0); [lia|]. rewrite Hs. cbn [negb sw_writer sw_pendingIDs sw_pendingValues sw_targetBlockSize sw_totalItems app].
  unfold flush. cbn [sw_pendingIDs flushIfNeeded]. destruct (Z.eqb_spec (zlen ids) 0); [lia|]. destruct (Z.geb_spec (zlen ids) 1000); [|lia].
  cbn [sw_pendingValues sw_writer]. rewrite E1. reflexivity.
Qed.
Lemma SClose_one now1 w1 w2 w3 t n : Finalize now1 w1 = (Ok tt, w2) -> closeFile w2 = (Ok tt, w3) ->
  SClose now1 (mkSW w1 [] [] t false n) = (Ok tt, mkSW w3 [] [] t true n).
Proof. intros E2 E3. unfold SClose. cbn [sw_closed flush sw_pendingIDs length flushIfNeeded zlen Z.of_nat Z.eqb sw_writer]. unfold FinalizeAndClose, mbind. rewrite E2, E3. reflexivity. Qed.

Lemma new_simple_inv now0 options faults sw : NewSimpleWriter now0 options faults = Ok sw -> exists w f, NewWriter now0 options faults = (Ok w, f) /\ sw = mkSW w [] [] 131072 false 0.
Proof.
  unfold NewSimpleWriter. destruct (NewWriter now0 options faults) as [[w|e|] f]; cbn [fst rbind]; intros H; [|discriminate H|discriminate H]. injection H as <-. exists w, f. auto.
Qed.

(** C67: and so a SimpleWriter that is given as many items, with IDs in order, in one Write
    returns nil from Write and Close and counts them all, and none of them can be read. *)
Theorem C67_simple_unreadable : forall srt ids vals now0 now1 sw,
  Forall is_u64 ids -> Forall is_i64 vals -> zlen vals = zlen ids -> 2 ^ 28 <= zlen ids <= 2 ^ 28 + 1015 -> isSorted ids = true ->
  NewSimpleWriter now0 [] [] = Ok sw ->
  exists sw1 sw2, SWrite srt ids vals sw = (Ok tt, sw1) /\ SClose now1 sw1 = (Ok tt, sw2) /\ TotalItems sw2 = zlen ids
    /\ (zlen (file_of sw2) < two63 ->
        exists r, NewReader (file_of sw2) = Ok r /\ BlockCount r = 1 /\ exists e, GetPairs r 0 = Err e).
Proof.
  intros srt ids vals now0 now1 sw Hi Hv Hl Hn Hs HW.
  destruct (new_simple_inv _ _ _ _ HW) as (w & f & ENW & ->). clear HW.
  destruct (C67_unreadable_block ids vals now0 now1 w f Hi Hv Hl Hn ENW) as (w1 & w2 & E1 & E2 & HR).
  assert (B : 1000 <= zlen ids < two64) by (clear - Hn; change (2 ^ 28) with 268435456 in Hn; unfold two64; lia).
  pose proof (closes ids vals now0 now1 w f w1 w2 Hi Hv Hl Hn ENW E1 E2) as HC.
  destruct HC as (w3 & E3 & B3).
  exists (mkSW w1 [] [] 131072 false (u64 (0 + zlen ids))), (mkSW w3 [] [] 131072 true (u64 (0 + zlen ids))).
  split; [apply SWrite_one; [exact Hs|exact Hl|lia|exact E1]|]. split; [apply (SClose_one now1 w1 w2 w3); assumption|].
  split; [change (u64 (0 + zlen ids) = zlen ids); rewrite Z.add_0_l; apply u64_id; unfold is_u64; lia|].
  unfold file_of. cbn [sw_writer]. rewrite B3. intros HZ. destruct (HR HZ) as (r & c & s & R1 & R2 & R3 & _). exists r. auto.
Qed.
Lemma new_ok now options faults : nofault faults -> (exists w f, NewWriter now options faults = (Ok w, f)) /\ exists sw, NewSimpleWriter now options faults = Ok sw.
Proof.
  intros HF. pose proof (NewWriter_rule True now options faults (fun _ => HF)) as T. cbv zeta in T. unfold NewSimpleWriter.
  destruct (NewWriter now options faults) as [[w|e|] f]; [|tauto|contradiction]. split; [exists w, f; reflexivity|eexists; reflexivity].
Qed.
End Big.
Print Assumptions C67_unreadable_block.
Print Assumptions C67_simple_unreadable.

(** A case: the IDs 0, 1, 2, ... *)
Lemma sorted_seq n : forall k, isSorted (map Z.of_nat (seq k n)) = true.
Proof.
  induction n as [|n IH]; intros k; [reflexivity|]. cbn [seq map]. specialize (IH (S k)). destruct n as [|n]; [reflexivity|]. cbn [seq map] in *.
  change (isSorted (Z.of_nat k :: Z.of_nat (S k) :: map Z.of_nat (seq (S (S k)) n))) with (if Z.of_nat (S k) <? Z.of_nat k then false else isSorted (Z.of_nat (S k) :: map Z.of_nat (seq (S (S k)) n))).
  destruct (Z.ltb_spec (Z.of_nat (S k)) (Z.of_nat k)); [lia|exact IH].
Qed.
Lemma ids_upto n : 0 <= n -> exists ids, zlen ids = n /\ (forall z, In z ids -> 0 <= z < n) /\ isSorted ids = true.
Proof.
  intros Hn. exists (map Z.of_nat (seq 0 (Z.to_nat n))). split; [unfold zlen; rewrite map_length, seq_length; lia|]. split; [|apply sorted_seq].
  intros z Hz. apply in_map_iff in Hz. destruct Hz as (k & <- & Hk). apply in_seq in Hk. lia.
Qed.
Example C67_case : exists ids vals, Forall is_u64 ids /\ Forall is_i64 vals /\ zlen vals = zlen ids /\ 2 ^ 28 <= zlen ids <= 2 ^ 28 + 1015 /\ isSorted ids = true
  /\ (exists w f, NewWriter 0 [] [] = (Ok w, f)) /\ exists sw, NewSimpleWriter 0 [] [] = Ok sw.
Proof.
  destruct (ids_upto (2 ^ 28) ltac:(lia)) as (ids & L & R & S). exists ids, ids. rewrite L.
  split; [apply Forall_forall; intros z Hz; apply R in Hz; unfold is_u64, two64; lia|].
  split; [apply Forall_forall; intros z Hz; apply R in Hz; unfold is_i64, two63; lia|].
  split; [reflexivity|]. split; [lia|]. split; [exact S|]. apply new_ok. constructor.
Qed.
