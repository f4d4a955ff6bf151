(** Facts about the load test tool. *)
From Coq Require Import Sorting.Permutation.
From Verif Require Import Machine MachineFacts Encoding Sroar FileIO Writer SimpleWriter Reader Aggregate Parallel Spec SimpleSpec
  WriterFacts RunFacts FinalFacts ReaderFacts HistoryFacts AggFacts AggProps SimpleFacts MultiFacts Loadtest LoadSpec.
Ltac Zify.zify_post_hook ::= Z.div_mod_to_equations.

Section Load.
Context {Srr : Sroar} {Lw : SroarLaws Srr}.
Variable draws : nat -> Z.
Variables maxValue maxID : Z.
Hypothesis mv_typed : is_i64 maxValue.

Lemma u64_typed x : is_u64 (u64 x). Proof. unfold is_u64, u64, two64. lia. Qed.
Lemma i64_typed x : is_i64 (i64 x). Proof. unfold is_i64, i64, two64, two63. lia. Qed.

Lemma nextID_typed prev k id k' : nextID draws maxID prev k = Ok (id, k') -> is_u64 id.
Proof using.
  unfold nextID. destruct prev as [p|]; [destruct (below draws 9 k)|]; destruct (Int63n _ _ _) as [x|e|]; cbn [rbind]; try discriminate;
    intros H; injection H as <- _; apply u64_typed.
Qed.
Lemma nextValue_typed id k v k' : nextValue draws maxValue id k = Ok (v, k') -> is_i64 v.
Proof using mv_typed.
  unfold nextValue. destruct (below draws 7 k).
  - destruct (_ =? 0); [discriminate|]. destruct (Int63n _ _ _) as [x|e|]; cbn [rbind]; try discriminate. intros H. injection H as <- _. apply i64_typed.
  - unfold Int63n. destruct (Z.leb_spec maxValue 0); cbn [rbind]; [discriminate|]. intros H'. injection H' as <- _. unfold is_i64 in *.
    pose proof (Z.mod_pos_bound (draws (k + 1)) maxValue ltac:(lia)). unfold two63 in *. lia.
Qed.
Lemma makeBatch_typed n : forall prev k ids vals k', makeBatch draws maxValue maxID n prev k = Ok (ids, vals, k') ->
  Forall is_u64 ids /\ Forall is_i64 vals /\ zlen ids = Z.of_nat n /\ zlen vals = Z.of_nat n.
Proof using mv_typed.
  induction n as [|n IH]; intros prev k ids vals k' H; cbn [makeBatch] in H.
  - injection H as <- <- _. repeat split; constructor.
  - destruct (nextID draws maxID prev k) as [[id k1]|e|] eqn:E1; cbn [rbind] in H; try discriminate.
    destruct (nextValue draws maxValue id k1) as [[v k2]|e|] eqn:E2; cbn [rbind] in H; try discriminate.
    destruct (makeBatch draws maxValue maxID n (Some id) k2) as [[[ids' vals'] k3]|e|] eqn:E3; cbn [rbind] in H; try discriminate.
    injection H as <- <- _. destruct (IH _ _ _ _ _ E3) as (A & B & C & D). rewrite !zlen_cons. repeat split; try lia; constructor; try assumption.
    + apply (nextID_typed _ _ _ _ E1).
    + apply (nextValue_typed _ _ _ _ E2).
Qed.

(** With sensible parameters the generator works and keeps near its bounds. *)
Definition near (p : Z * Z) : Prop :=
  0 <= fst p < maxID + 100000 /\ - (maxValue / 20) <= snd p < maxValue + maxValue / 20 + 1.
Lemma nextID_ok prev k : 1 <= maxID < two63 -> (forall p, prev = Some p -> 0 <= p < two64 - 10) ->
  exists id k', nextID draws maxID prev k = Ok (id, k') /\ 0 <= id
    /\ (id < maxID \/ exists p, prev = Some p /\ id <= p + 10).
Proof using.
  intros HI HP. unfold nextID, Int63n. rewrite (i64_id maxID) by (unfold is_i64; lia).
  destruct (Z.leb_spec maxID 0); [lia|]. destruct (Z.leb_spec 10 0); [lia|].
  destruct prev as [p|]; [destruct (below draws 9 k)|]; cbn [rbind]; eexists _, _; (split; [reflexivity|]).
  - specialize (HP p eq_refl). pose proof (Z.mod_pos_bound (draws (k + 1)) 10 ltac:(lia)) as B.
    assert (E : u64 (p + u64 (draws (k + 1)%nat mod 10 + 1)) = p + (draws (k + 1)%nat mod 10 + 1)).
    { revert B. generalize (draws (k + 1)%nat mod 10). intros d B. unfold u64, two64 in *. lia. }
    rewrite E. split; [lia|]. right. exists p. split; [reflexivity|lia].
  - pose proof (Z.mod_pos_bound (draws (k + 1)) maxID ltac:(lia)) as B. unfold u64. rewrite Z.mod_small by (unfold two63, two64 in *; lia). split; [lia|left; lia].
  - pose proof (Z.mod_pos_bound (draws k) maxID ltac:(lia)) as B. unfold u64. rewrite Z.mod_small by (unfold two63, two64 in *; lia). split; [lia|left; lia].
Qed.
Lemma nextValue_ok id k : 10 <= maxValue < two63 -> exists v k', nextValue draws maxValue id k = Ok (v, k')
  /\ (maxValue < 2 ^ 62 -> 0 <= id -> - (maxValue / 20) <= v < maxValue + maxValue / 20 + 1).
Proof using.
  intros HM. unfold nextValue, Int63n. replace (Z.quot maxValue 10) with (maxValue / 10) by (symmetry; apply Z.quot_div_nonneg; lia).
  replace (Z.quot maxValue 20) with (maxValue / 20) by (symmetry; apply Z.quot_div_nonneg; lia).
  replace (u64 maxValue) with maxValue by (unfold u64; rewrite Z.mod_small; unfold two63, two64 in *; lia).
  destruct (Z.eqb_spec maxValue 0); [lia|]. destruct (Z.leb_spec (maxValue / 10) 0); [lia|]. destruct (Z.leb_spec maxValue 0); [lia|].
  destruct (below draws 7 k); cbn [rbind]; eexists _, _; (split; [reflexivity|]); intros HB Hid.
  - pose proof (Z.mod_pos_bound id maxValue ltac:(lia)) as B1. pose proof (Z.mod_pos_bound (draws (k + 1)) (maxValue / 10) ltac:(lia)) as B2.
    revert B1 B2. generalize (id mod maxValue), (draws (k + 1)%nat mod (maxValue / 10)). intros a b B1 B2.
    rewrite (i64_id a) by (unfold is_i64, two63 in *; lia). rewrite (i64_id (b - _)) by (unfold is_i64, two63 in *; lia).
    rewrite i64_id by (unfold is_i64, two63 in *; lia). lia.
  - pose proof (Z.mod_pos_bound (draws (k + 1)) maxValue ltac:(lia)) as B. lia.
Qed.
Lemma makeBatch_ok n : sensible maxValue maxID -> forall prev k m,
  (forall p, prev = Some p -> 0 <= p < maxID + m) -> 0 <= m -> m + 10 * Z.of_nat n <= 100000 ->
  exists ids vals k', makeBatch draws maxValue maxID n prev k = Ok (ids, vals, k')
    /\ (maxValue < 2 ^ 62 -> Forall near (combine ids vals)).
Proof using.
  intros [HM HI]. induction n as [|n IH]; intros prev k m HP Hm Hn; cbn [makeBatch].
  - eexists _, _, _. split; [reflexivity|]. constructor.
  - destruct (nextID_ok prev k HI) as (id & k1 & -> & Hid & Hb). { intros p E. specialize (HP p E). unfold two63, two64 in *. lia. }
    cbn [rbind]. destruct (nextValue_ok id k1 HM) as (v & k2 & -> & Hv). cbn [rbind].
    assert (Hid' : 0 <= id < maxID + (m + 10)). { split; [exact Hid|]. destruct Hb as [?|(p & E & ?)]; [lia|]. specialize (HP p E). lia. }
    destruct (IH (Some id) k2 (m + 10)) as (ids & vals & k3 & -> & HN); [intros p E; injection E as <-; exact Hid'|lia|lia|].
    cbn [rbind]. eexists _, _, _. split; [reflexivity|]. intros HB. cbn [combine]. constructor; [|apply HN; exact HB].
    split; cbn [fst snd]; [lia|apply Hv; assumption].
Qed.

(** The batches the loop writes, as the loop computes them. *)
Definition size_of (total : Z) : Z := Z.min 10000 total.
Definition pairs (b : list Z * list Z) : list (Z * Z) := combine (fst b) (snd b).
Inductive plan : Z -> nat -> list (list Z * list Z) -> Prop :=
| plan_none total k : total <= 0 -> plan total k []
| plan_more total k ids vals k' rest : 0 < total ->
    makeBatch draws maxValue maxID (Z.to_nat (size_of total)) None k = Ok (ids, vals, k') ->
    plan (total - size_of total) k' rest -> plan total k ((ids, vals) :: rest).
Lemma plan_generated total k bs : plan total k bs -> generated draws maxValue maxID total k (map pairs bs).
Proof using. induction 1; cbn [map]; [constructor; assumption|]. eapply generated_more; eassumption. Qed.
Lemma generated_plan total k l : generated draws maxValue maxID total k l -> exists bs, plan total k bs /\ l = map pairs bs.
Proof using.
  induction 1 as [total k H|total k ids vals k' rest H HM HG (bs & HP & ->)]; [exists []; split; [constructor; assumption|reflexivity]|].
  exists ((ids, vals) :: bs). split; [econstructor; eassumption|reflexivity].
Qed.
Lemma plan_exists : sensible maxValue maxID -> forall fuel total k, total <= Z.of_nat fuel -> exists bs, plan total k bs.
Proof using.
  intros HS. induction fuel as [|fuel IH]; intros total k Hf; [exists []; constructor; lia|].
  destruct (Z.leb_spec total 0); [exists []; constructor; assumption|].
  destruct (makeBatch_ok (Z.to_nat (size_of total)) HS None k 0) as (ids & vals & k' & HM & _); [discriminate|lia|unfold size_of; lia|].
  destruct (IH (total - size_of total) k') as (bs & HP); [unfold size_of; lia|]. exists ((ids, vals) :: bs). econstructor; eassumption.
Qed.
Definition typed_batch (b : list Z * list Z) : Prop :=
  Forall is_u64 (fst b) /\ Forall is_i64 (snd b) /\ zlen (fst b) = zlen (snd b) /\ 1 <= zlen (fst b) <= 10000.
Lemma plan_typed total k bs : plan total k bs -> Forall typed_batch bs /\ zlen (concat (map pairs bs)) = Z.max 0 total.
Proof using mv_typed.
  induction 1 as [total k H|total k ids vals k' rest H HM HP [I1 I2]]; [split; [constructor|cbn; change (zlen (@nil (Z * Z))) with 0; lia]|].
  destruct (makeBatch_typed _ _ _ _ _ _ HM) as (T1 & T2 & T3 & T4). unfold size_of in *. rewrite Z2Nat.id in T3, T4 by lia.
  split; [constructor; [|exact I1]; unfold typed_batch; cbn [fst snd]; repeat split; try assumption; lia|].
  cbn [map concat]. rewrite zlen_app, I2. unfold pairs. cbn [fst snd]. rewrite zlen_combine by lia. lia.
Qed.
Lemma plan_near : sensible maxValue maxID -> maxValue < 2 ^ 62 -> forall total k bs, plan total k bs -> Forall near (concat (map pairs bs)).
Proof using.
  intros HS HB total k bs. induction 1 as [total k H|total k ids vals k' rest H HM HP IH]; [constructor|].
  cbn [map concat]. apply Forall_app. split; [|exact IH].
  destruct (makeBatch_ok (Z.to_nat (size_of total)) HS None k 0) as (ids' & vals' & k2 & HM' & HN); [discriminate|lia|unfold size_of; lia|].
  rewrite HM in HM'. injection HM' as <- <- _. apply HN. exact HB.
Qed.

Definition writes (bs : list (list Z * list Z)) : list scall := map (fun b => SCWrite (fst b) (snd b)) bs.
Definition fine (bs : list (list Z * list Z)) : list (res unit) := map (fun _ => Ok tt) bs.

Lemma loop_plan srt now n fuel : n + 10000 < two63 -> forall vw k sw v sw', 0 <= vw -> importLoop draws srt fuel now n maxValue maxID vw k sw = (Finished v, sw') ->
  exists bs, plan (n - vw) k bs /\ run_scalls srt (writes bs) sw = (fine bs, sw') /\ v = Z.max vw n.
Proof using.
  intros HN. induction fuel as [|fuel IH]; intros vw k sw v sw' H0; cbn [importLoop]; (destruct (Z.ltb_spec vw n); [|intros H'; injection H' as <- <-;
    exists []; split; [constructor; lia|split; [reflexivity|lia]]]); [discriminate|].
  rewrite (i64_id (vw + 10000)) by (unfold is_i64; clear - HN H0 H; unfold two63 in *; lia).
  replace (if vw + 10000 >? n then n - vw else 10000) with (size_of (n - vw)) by (unfold size_of; destruct (Z.gtb_spec (vw + 10000) n); lia).
  rewrite (i64_id (vw + size_of (n - vw))) by (unfold is_i64, size_of; clear - HN H0 H; unfold two63 in *; lia).
  destruct (makeBatch _ _ _ _ _ _) as [[[ids vals] k']|e|] eqn:EM; try discriminate.
  destruct (SWrite srt ids vals sw) as [[[]|e|] sw1] eqn:EW; try discriminate.
  intros HL. assert (H0' : 0 <= vw + size_of (n - vw)) by (clear - H0 H; unfold size_of; lia). destruct (IH _ _ _ _ _ H0' HL) as (bs & HP & HR & Hv). exists ((ids, vals) :: bs).
  split; [econstructor; [lia|exact EM|]; replace (n - vw - size_of (n - vw)) with (n - (vw + size_of (n - vw))) by lia; exact HP|].
  split; [|unfold size_of in Hv; lia]. cbn [writes map fst snd run_scalls run_scall]. rewrite EW. fold (writes bs). rewrite HR. reflexivity.
Qed.
Lemma plan_loop srt now n fuel : n + 10000 < two63 -> forall vw k sw bs sw', 0 <= vw -> plan (n - vw) k bs -> run_scalls srt (writes bs) sw = (fine bs, sw') ->
  n - vw <= Z.of_nat fuel -> importLoop draws srt fuel now n maxValue maxID vw k sw = (Finished (Z.max vw n), sw').
Proof using.
  intros HN. induction fuel as [|fuel IH]; intros vw k sw bs sw' H0 HP HR Hf; cbn [importLoop]; (destruct (Z.ltb_spec vw n);
    [|inversion HP; subst; [|lia]; cbn in HR; injection HR as <-; rewrite Z.max_l by lia; reflexivity]); [lia|].
  rewrite (i64_id (vw + 10000)) by (unfold is_i64; clear - HN H0 H; unfold two63 in *; lia).
  replace (if vw + 10000 >? n then n - vw else 10000) with (size_of (n - vw)) by (unfold size_of; destruct (Z.gtb_spec (vw + 10000) n); lia).
  rewrite (i64_id (vw + size_of (n - vw))) by (unfold is_i64, size_of; clear - HN H0 H; unfold two63 in *; lia).
  inversion HP as [|total k0 ids vals k' rest H0' HM HP' E1 E2 E3]; subst; [lia|]. rewrite HM.
  cbn [writes map fst snd run_scalls run_scall fine] in HR. destruct (SWrite srt ids vals sw) as [r sw1] eqn:EW. fold (writes rest) in HR.
  destruct (run_scalls srt (writes rest) sw1) as [rs sw2] eqn:ER. injection HR as -> -> ->.
  rewrite (IH (vw + size_of (n - vw)) k' sw1 rest sw'); [f_equal; f_equal; unfold size_of; lia|unfold size_of; lia| |exact ER|unfold size_of; lia].
  replace (n - (vw + size_of (n - vw))) with (n - vw - size_of (n - vw)) by lia. exact HP'.
Qed.
End Load.

Section Commands.
Context {Srr : Sroar}.
Variable draws : nat -> Z.
Variables maxValue maxID : Z.
Hypothesis mv_typed : is_i64 maxValue.
Variable srt : sorter.
Hypothesis Hs : sorts srt.

Definition calls (bs : list (list Z * list Z)) (now : Z) : list scall := writes bs ++ [SCClose now].
Definition import_options (blockSize : Z) : list writerOption := [WithBlockSize (u32 blockSize); WithEncoding EncodingVarIntBoth].
Lemma options_typed blockSize : Forall typed_option (import_options blockSize).
Proof using. repeat constructor; cbn; unfold is_u32, u32, two32, EncodingVarIntBoth; lia. Qed.
Lemma calls_typed bs now : Forall typed_batch bs -> Forall typed_scall (calls bs now).
Proof using.
  intros H. unfold calls. apply Forall_app. split; [|repeat constructor]. unfold writes. apply Forall_map.
  eapply Forall_impl; [|exact H]. intros b (H1 & H2 & H3 & H4). cbn. repeat split; try assumption. lia.
Qed.
Lemma written_calls bs now : written (combine (calls bs now) (fine bs ++ [Ok tt])) = map pairs bs.
Proof using.
  unfold calls. induction bs as [|b bs IH]; [reflexivity|]. cbn. f_equal. exact IH.
Qed.
Lemma submitted_calls bs now : Forall typed_batch bs ->
  submitted (combine (calls bs now) (fine bs ++ [Ok tt])) = zlen (concat (map pairs bs)).
Proof using.
  unfold calls, submitted. induction 1 as [|b bs (H1 & H2 & H3 & H4) _ IH]; [reflexivity|].
  cbn [writes fine map app combine zsum concat]. rewrite zlen_app. unfold pairs at 1. rewrite zlen_combine by exact H3.
  rewrite <- IH. reflexivity.
Qed.
Lemma undisturbed_calls bs now : undisturbed (combine (calls bs now) (fine bs ++ [Ok tt])).
Proof using.
  intros c r H. left. apply in_combine_r in H. apply in_app_iff in H. destruct H as [H|[H|[]]]; [|symmetry; exact H].
  unfold fine in H. apply in_map_iff in H. destruct H as (_ & H & _). symmetry. exact H.
Qed.

Lemma runImport_run now0 now faults n blockSize rep sw : n + 10000 < two63 ->
  runImport draws srt now0 now faults n blockSize maxValue maxID = (Finished rep, Some sw) ->
  exists bs, plan draws maxValue maxID n 0 bs /\ rep = mkImport (Z.max 0 n) (Z.max 0 n) /\ IsClosed sw = true
    /\ simple_run srt (import_options blockSize) faults (combine (calls bs now) (fine bs ++ [Ok tt])) sw.
Proof using Hs mv_typed.
  intros Hn H. unfold runImport in H. fold (import_options blockSize) in H.
  destruct (NewSimpleWriter now0 (import_options blockSize) faults) as [sw0|e|] eqn:E0; try discriminate.
  destruct (importLoop draws srt (Z.to_nat n) now n maxValue maxID 0 0 sw0) as [[v| |] sw1] eqn:EL; try discriminate.
  destruct (SClose now sw1) as [[[]|e|] sw2] eqn:EC; try discriminate. injection H as <- <-.
  destruct (loop_plan draws maxValue maxID srt now n _ Hn _ _ _ _ _ (Z.le_refl 0) EL) as (bs & HP & HR & Hv). rewrite Z.sub_0_r in HP.
  assert (Hc : IsClosed sw2 = true) by (apply (close_closes now sw1); exact EC).
  assert (Hc2 : SClose now sw2 = (Ok tt, sw2)) by (unfold SClose; unfold IsClosed in Hc; rewrite Hc; reflexivity). rewrite Hc2. cbn [snd].
  destruct (plan_typed draws maxValue maxID mv_typed n 0 bs HP) as [HT HL].
  assert (R : simple_run srt (import_options blockSize) faults (combine (calls bs now) (fine bs ++ [Ok tt])) sw2).
  { econstructor; [exact E0|apply options_typed|apply calls_typed; exact HT| |reflexivity].
    unfold calls. rewrite run_scalls_app, HR. cbn [run_scalls run_scall]. rewrite EC. reflexivity. }
  exists bs. split; [exact HP|]. split; [|split; [exact Hc|exact R]].
  destruct (accounting _ _ _ _ _ R Hs) as (_ & _ & HA & HB & _). rewrite submitted_calls, HL in HA by exact HT.
  rewrite (HB Hc) in HA. f_equal; [lia|]. specialize (HA ltac:(unfold two63, two64 in *; lia)). lia.
Qed.

Lemma import_encoding blockSize : encoding_of (import_options blockSize) = EncodingVarIntBoth.
Proof using. reflexivity. Qed.

Theorem import_contents now0 now faults n blockSize rep sw : n + 10000 < two63 ->
  runImport draws srt now0 now faults n blockSize maxValue maxID = (Finished rep, Some sw) ->
  exists batches, generated draws maxValue maxID n 0 batches /\ zlen (concat batches) = Z.max 0 n
    /\ rep = mkImport (Z.max 0 n) (Z.max 0 n)
    /\ (fits (sw_writer sw) (file_of sw) ->
        exists r blocks outs, NewReader (file_of sw) = Ok r /\ view r blocks /\ RVersion r = 1 /\ EncodingType r = EncodingVarIntBoth
          /\ Forall2 arrives batches outs /\ all_pairs blocks = concat outs).
Proof using Hs mv_typed.
  intros Hn H. destruct (runImport_run _ _ _ _ _ _ _ Hn H) as (bs & HP & Hr & Hc & R).
  destruct (plan_typed draws maxValue maxID mv_typed n 0 bs HP) as [HT HL].
  exists (map pairs bs). split; [apply plan_generated; exact HP|]. split; [lia|]. split; [exact Hr|]. intros HF.
  destruct (simple_closed _ _ _ _ _ R Hs (undisturbed_calls bs now) Hc HF) as (t & now2 & L & off & X & HF2 & HL2 & HA).
  rewrite written_calls in HA. eexists _, (map snd L), (map (arrange srt) (map pairs bs)).
  split; [eapply NewReader_finalized; eassumption|]. split; [eapply finalized_view; [eassumption|eassumption|right; right; right; reflexivity]|].
  split; [reflexivity|]. split; [reflexivity|]. split; [|exact HA].
  clear -Hs. induction bs as [|b l IH]; cbn [map]; constructor; [apply arrange_arrives; exact Hs|exact IH].
Qed.

Theorem import_succeeds now0 now faults n blockSize : n + 10000 < two63 -> sensible maxValue maxID -> fault_free faults ->
  exists rep sw, runImport draws srt now0 now faults n blockSize maxValue maxID = (Finished rep, Some sw).
Proof using Hs mv_typed.
  intros Hn HS HF. destruct (plan_exists draws maxValue maxID HS (Z.to_nat n) n 0 ltac:(lia)) as (bs & HP).
  destruct (plan_typed draws maxValue maxID mv_typed n 0 bs HP) as [HT HL].
  destruct (simple_no_errors srt now0 (import_options blockSize) faults (calls bs now) Hs HF (options_typed blockSize)) as (sw0 & outs & sw & E0 & ER & _ & _ & HO).
  { vm_compute. tauto. }
  { apply calls_typed. exact HT. }
  unfold calls in ER. rewrite run_scalls_app in ER. destruct (run_scalls srt (writes bs) sw0) as [o1 sw1] eqn:E1.
  cbn [run_scalls run_scall] in ER. destruct (SClose now sw1) as [rc sw2] eqn:EC. injection ER as <- <-.
  pose proof (run_scalls_length _ _ _ _ _ E1) as Len.
  assert (HC : combine (calls bs now) (o1 ++ [rc]) = combine (writes bs) o1 ++ [(SCClose now, rc)]).
  { unfold calls. clear -Len. revert o1 Len. induction (writes bs) as [|c l IH]; intros [|o o1] Len; try discriminate; [reflexivity|].
    cbn [app combine]. rewrite IH by (cbn in Len; lia). reflexivity. }
  assert (HO1 : o1 = fine bs).
  { assert (G : forall j o, nth_error o1 j = Some o -> o = Ok tt).
    { intros j o Hj. assert (Hlt : (j < length (writes bs))%nat) by (rewrite <- Len; apply nth_error_Some; congruence).
      destruct (nth_error (writes bs) j) as [c|] eqn:Ec; [|apply nth_error_None in Ec; lia].
      assert (Hin : nth_error (combine (writes bs) o1) j = Some (c, o)).
      { clear -Hj Ec. revert j Hj Ec. generalize (writes bs). induction o1 as [|x o1 IH]; intros l j Hj Ec; [destruct j; discriminate|].
        destruct l as [|y l]; [destruct j; discriminate|]. destruct j; cbn in *; [congruence|apply IH; assumption]. }
      apply nth_error_split in Hin. destruct Hin as (l1 & l2 & Hl & _).
      destruct (HO l1 c o (l2 ++ [(SCClose now, rc)])) as [_ H2]; [rewrite HC, Hl, <- app_assoc; reflexivity|].
      destruct H2 as [H2|(ids & vals & Hc & Hne & _)]; [|exact H2|].
      - intros now' r' Hi. assert (Hi2 : In (SCClose now', r') (combine (writes bs) o1)) by (rewrite Hl; apply in_app_iff; left; exact Hi).
        apply in_combine_l in Hi2. unfold writes in Hi2. apply in_map_iff in Hi2. destruct Hi2 as (b & Hb & _). discriminate.
      - exfalso. apply nth_error_In in Ec. unfold writes in Ec. apply in_map_iff in Ec. destruct Ec as (b & Hb & Hin). rewrite Hc in Hb. injection Hb as <- <-.
        rewrite Forall_forall in HT. destruct (HT b Hin) as (_ & _ & K & _). contradiction. }
    unfold fine. unfold writes in Len. rewrite map_length in Len. clear -G Len. revert o1 G Len. induction bs as [|b bs IH]; intros [|o o1] G Len; try discriminate; [reflexivity|].
    cbn [map]. rewrite (G 0%nat o eq_refl). f_equal. apply IH; [intros j x Hj; apply (G (S j) x Hj)|cbn in Len; lia]. }
  subst o1. assert (Hrc : rc = Ok tt).
  { destruct (HO (combine (writes bs) (fine bs)) (SCClose now) rc []) as [H1 _]; [exact HC|]. apply (H1 now eq_refl). }
  subst rc. unfold runImport. fold (import_options blockSize). rewrite E0.
  rewrite (plan_loop draws maxValue maxID srt now n (Z.to_nat n) Hn 0 0 sw0 bs sw1) by (rewrite ?Z.sub_0_r; try assumption; lia).
  rewrite EC. eexists _, _. reflexivity.
Qed.

End Commands.

(** The aggregate command. *)
Section Scan.
Context {Srr : Sroar}.
Lemma fullScan_view r blocks : view r blocks -> zlen (all_pairs blocks) < two63 ->
  fullScan r (zseq (BlockCount r)) 0 = Ok (Some (zlen (all_pairs blocks))).
Proof using.
  intros HV HS. pose proof (v_indexed _ _ HV) as HI. rewrite (v_count _ _ HI). pose proof (v_small _ _ HI) as Hsm.
  assert (G : forall done rest t, blocks = done ++ rest -> 0 <= t -> t + zlen (all_pairs rest) < two63 ->
    fullScan r (map Z.of_nat (seq (length done) (length rest))) t = Ok (Some (t + zlen (all_pairs rest)))).
  { intros done rest. revert done. induction rest as [|b rest IH]; intros done t E Ht Hb; cbn [length seq map fullScan].
    - change (zlen (all_pairs [])) with 0. rewrite Z.add_0_r. reflexivity.
    - assert (Hlen : (length done < length blocks)%nat) by (rewrite E, app_length; cbn; lia).
      rewrite (v_pairs _ _ HV) by (unfold is_u64, zlen, two32, two64 in *; lia). rewrite Nat2Z.id.
      rewrite E at 1. rewrite nth_error_app2, Nat.sub_diag by lia. cbn [nth_error]. destruct b as [ids vals].
      assert (Hg : zlen ids = zlen vals).
      { pose proof (v_good _ _ HI) as G. rewrite E in G. apply Forall_app in G. destruct G as [_ G]. inversion G as [|x l (_ & _ & K & _)]; subst. exact K. }
      assert (Hp : zlen (all_pairs ((ids, vals) :: rest)) = zlen vals + zlen (all_pairs rest)).
      { change (all_pairs ((ids, vals) :: rest)) with (combine ids vals ++ all_pairs rest). rewrite zlen_app, zlen_combine by exact Hg. lia. }
      pose proof (zlen_nonneg vals). pose proof (zlen_nonneg (all_pairs rest)).
      change (t + zlen (all_pairs ((ids, vals) :: rest)) < two63) in Hb. unfold block in *. assert (Hb' : t + (zlen vals + zlen (all_pairs rest)) < two63) by (rewrite <- Hp; exact Hb). clear Hb. rewrite (i64_id (zlen vals)) by (unfold is_i64, two63 in *; lia). rewrite (i64_id (t + zlen vals)) by (unfold is_i64, two63 in *; lia).
      replace (S (length done)) with (length (done ++ [(ids, vals)])) by (rewrite app_length; cbn; lia).
      rewrite IH; [do 2 f_equal; rewrite <- Z.add_assoc; apply f_equal; symmetry; exact Hp|rewrite <- app_assoc; exact E|lia|lia]. }
  specialize (G [] blocks 0 eq_refl ltac:(lia) ltac:(lia)). cbn [length Z.add] in G. unfold zseq, zlen. rewrite Nat2Z.id. exact G.
Qed.

Theorem aggregate_report {Lw : SroarLaws Srr} data r blocks g sched skip parallel x : NewReader data = Ok r -> view r blocks ->
  zlen (all_pairs blocks) < two63 -> skip = true \/ Forall no_min_stat blocks ->
  runAggregate g sched data skip parallel = Some x ->
  exists res, x = Finished (mkReport (RVersion r) (EncodingType r) (zlen blocks) res
      (if parallel =? 0 then None else Some (if parallel <? 0 then g else parallel)) (Some (zlen (all_pairs blocks))))
    /\ aggregate_of (map snd (all_pairs blocks)) res.
Proof using.
  intros HR HV HL HN H. unfold runAggregate in H. rewrite HR in H. pose proof (v_indexed _ _ HV) as HI.
  destruct (AggregateWithOptions g sched r _) as [y|] eqn:EA; [|discriminate].
  apply (parallel_sequential _ _ _ _ _ (indexed_sane r blocks _ HI)) in EA.
  rewrite (sequential_answer r blocks _ HV) in EA.
  2: { intros U. destruct HN as [->|HN]; [|exact HN]. unfold uses_footer in U. cbn in U. rewrite andb_false_r in U. discriminate. }
  subst y. rewrite (fullScan_view r blocks HV HL) in H. injection H as <-. rewrite (v_count _ _ HI).
  eexists. split; [destruct (parallel =? 0); reflexivity|]. pose proof (answer_aggregate r blocks (mkOpts skip None None parallel) HI) as A.
  unfold chosen in A. cbn [o_filter o_deny] in A. replace (filter _ (all_pairs blocks)) with (all_pairs blocks) in A; [exact A|].
  clear. induction (all_pairs blocks) as [|p l IH]; [reflexivity|]. cbn [filter]. change (passes None None (fst p)) with true. cbv iota. f_equal. exact IH.
Qed.
End Scan.

(** Values of moderate size: the footer loses nothing. *)
Lemma sum_bound B vs : 0 <= B -> Forall (fun v => - B <= v <= B) vs -> - (B * zlen vs) <= zsum vs <= B * zlen vs.
Proof.
  intros HB. induction 1 as [|v vs Hv _ IH]; [change (zlen (@nil Z)) with 0; cbn; lia|]. rewrite zlen_cons. cbn [zsum fold_right] in *. unfold zsum in *. cbn [fold_right] in *. nia.
Qed.
Lemma moderate_no_min b : good_block b -> Forall (fun v => - (2 ^ 35) <= v <= 2 ^ 35) (snd b) -> no_min_stat b.
Proof.
  destruct b as [ids vals]. intros (_ & _ & HE & HL) HV. unfold no_min_stat. cbn [fst snd] in *.
  pose proof (sum_bound (2 ^ 35) vals ltac:(lia) HV) as HS. unfold max_items in HL.
  assert (HB : - 2 ^ 63 < zsum vals < 2 ^ 63) by (change (2 ^ 35) with 34359738368 in HS; change (2 ^ 63) with 9223372036854775808; lia).
  split; [intros Hin; rewrite Forall_forall in HV; specialize (HV _ Hin); unfold min_int64 in HV; cbn in HV; lia|].
  rewrite i64_id by (unfold is_i64, two63; lia). unfold min_int64. lia.
Qed.
Lemma moderate_blocks r blocks (batches outs : list (list (Z * Z))) : indexed r blocks -> Forall2 arrives batches outs ->
  all_pairs blocks = concat outs -> Forall (fun p : Z * Z => - (2 ^ 35) <= snd p <= 2 ^ 35) (concat batches) -> Forall no_min_stat blocks.
Proof.
  intros HI HA HE HV.
  assert (HP : Permutation (concat batches) (concat outs)).
  { clear -HA. induction HA as [|b o bs os [H _] _ IH]; [constructor|]. cbn [concat]. apply Permutation_app; assumption. }
  rewrite <- HE in HP. apply (Permutation_Forall _ _ _ HP) in HV. apply Forall_forall. intros b Hb.
  pose proof (v_good _ _ HI) as G. rewrite Forall_forall in G. specialize (G b Hb). apply moderate_no_min; [exact G|].
  apply Forall_forall. intros v Hv. rewrite Forall_forall in HV. destruct b as [ids vals]. cbn [snd] in Hv.
  destruct G as (_ & _ & K & _). cbn [fst snd] in K.
  assert (exists i, In (i, v) (combine ids vals)) as (i & Hi).
  { clear -Hv K. revert ids K. induction vals as [|y vals IH]; intros ids K; [destruct Hv|].
    destruct ids as [|x ids]; [rewrite zlen_cons in K; change (zlen (@nil Z)) with 0 in K; pose proof (zlen_nonneg vals); lia|].
    destruct Hv as [->|Hv]; [exists x; left; reflexivity|]. destruct (IH Hv ids) as (i & Hi); [rewrite !zlen_cons in K; lia|]. exists i. right. exact Hi. }
  apply (HV (i, v)). unfold all_pairs. apply in_flat_map. exists (ids, vals). split; assumption.
Qed.

Section Both.
Context {Srr : Sroar} {Lw : SroarLaws Srr}.

Theorem import_complete draws srt maxValue maxID now0 now faults n blockSize rep sw : sorts srt -> is_i64 maxValue -> n + 10000 < two63 ->
  runImport draws srt now0 now faults n blockSize maxValue maxID = (Finished rep, Some sw) ->
  exists batches, generated draws maxValue maxID n 0 batches /\ zlen (concat batches) = Z.max 0 n /\ rep = mkImport (Z.max 0 n) (Z.max 0 n)
    /\ (fits (sw_writer sw) (file_of sw) ->
        exists r blocks outs, NewReader (file_of sw) = Ok r /\ BlockCount r = zlen blocks
          /\ (forall i, is_u64 i -> GetPairs r i = match nth_error blocks (Z.to_nat i) with Some b => Ok b | None => Err ErrIndex end)
          /\ Forall2 arrives batches outs /\ all_pairs blocks = concat outs
          /\ forall gomaxprocs sched skip parallel x,
               skip = true \/ (sensible maxValue maxID /\ maxValue <= 2 ^ 34) ->
               runAggregate gomaxprocs sched (file_of sw) skip parallel = Some x ->
               exists res, x = Finished (mkReport 1 EncodingVarIntBoth (zlen blocks) res
                   (if parallel =? 0 then None else Some (if parallel <? 0 then gomaxprocs else parallel)) (Some (Z.max 0 n)))
                 /\ aggregate_of (map snd (concat batches)) res).
Proof.
  intros Hs HM Hn H. destruct (import_contents draws maxValue maxID HM srt Hs _ _ _ _ _ _ _ Hn H) as (batches & HG & HL & HR & HC).
  exists batches. split; [exact HG|]. split; [exact HL|]. split; [exact HR|]. intros HF.
  destruct (HC HF) as (r & blocks & outs & R1 & R2 & R3 & R4 & R5 & R6).
  assert (HP : Permutation (concat outs) (concat batches)).
  { clear -R5. induction R5 as [|b o bs os [H _] _ IH]; [constructor|]. cbn [concat]. apply Permutation_app; [symmetry; exact H|exact IH]. }
  assert (HZ : zlen (all_pairs blocks) = Z.max 0 n) by (rewrite R6; rewrite <- HL; unfold zlen; rewrite (Permutation_length HP); reflexivity).
  exists r, blocks, outs. split; [exact R1|]. split; [apply (v_count _ _ (v_indexed _ _ R2))|]. split; [apply (v_pairs _ _ R2)|].
  split; [exact R5|]. split; [exact R6|]. intros g sched skip parallel x HN HX.
  destruct (aggregate_report _ _ _ _ _ _ _ _ R1 R2 ltac:(rewrite HZ; clear - Hn; unfold two63 in *; lia) ltac:(destruct HN as [HN|[HN1 HN2]]; [left; exact HN|right;
    apply (moderate_blocks r blocks batches outs (v_indexed _ _ R2) R5 R6);
    destruct (generated_plan _ _ _ _ _ _ HG) as (bs & HB & ->);
    eapply Forall_impl; [|apply (plan_near draws maxValue maxID HN1 ltac:(lia) n 0 bs HB)];
    intros q (_ & Hq); destruct HN1 as [HN1 _]; lia]) HX) as (res & -> & A).
  exists res. rewrite R3, R4, HZ. split; [reflexivity|]. eapply aggregate_perm; [|exact A]. rewrite R6. apply Permutation_map. exact HP.
Qed.

Theorem generated_near draws maxValue maxID n k batches : sensible maxValue maxID -> maxValue < 2 ^ 62 ->
  generated draws maxValue maxID n k batches -> Forall (near maxValue maxID) (concat batches).
Proof. intros HS HB HG. destruct (generated_plan _ _ _ _ _ _ HG) as (bs & HP & ->). eapply plan_near; eassumption. Qed.

(** No IDs to draw from. *)
Theorem no_ids_crash draws srt now0 now faults n blockSize maxValue maxID : 1 <= n -> i64 maxID <= 0 ->
  fst (runImport draws srt now0 now faults n blockSize maxValue maxID) <> Stopped ->
  fst (runImport draws srt now0 now faults n blockSize maxValue maxID) = Crash.
Proof.
  intros Hn HI. unfold runImport. destruct (NewSimpleWriter _ _ _) as [sw|e|]; cbn [fst]; [|congruence|reflexivity]. intros _.
  destruct (Z.to_nat n) as [|fuel] eqn:EF; [lia|]. cbn [importLoop]. destruct (Z.ltb_spec 0 n); [|lia].
  change (i64 (0 + 10000)) with (0 + 10000).
  replace (if 0 + 10000 >? n then n - 0 else 10000) with (size_of n) by (unfold size_of; destruct (Z.gtb_spec (0 + 10000) n); lia).
  destruct (Z.to_nat (size_of n)) as [|m] eqn:EM; [unfold size_of in EM; lia|]. cbn [makeBatch].
  unfold nextID, Int63n. destruct (Z.leb_spec (i64 maxID) 0); [|lia]. reflexivity.
Qed.

Theorem small_max_crash maxValue : 1 <= maxValue < 10 ->
  exists draws, forall srt now0 now n blockSize maxID, sorts srt -> 1 <= n ->
    fst (runImport draws srt now0 now [] n blockSize maxValue maxID) = Crash.
Proof using.
  intros HM. exists (fun _ => 0). intros srt now0 now n blockSize maxID Hs Hn.
  destruct (simple_no_errors srt now0 (import_options blockSize) [] [] Hs (Forall_nil _) (options_typed blockSize)) as (sw0 & outs & sw & E0 & _).
  { vm_compute. tauto. }
  { constructor. }
  unfold runImport. fold (import_options blockSize). rewrite E0.
  destruct (Z.to_nat n) as [|fuel] eqn:EF; [lia|]. cbn [importLoop]. destruct (Z.ltb_spec 0 n); [|lia].
  change (i64 (0 + 10000)) with (0 + 10000).
  replace (if 0 + 10000 >? n then n - 0 else 10000) with (size_of n) by (unfold size_of; destruct (Z.gtb_spec (0 + 10000) n); lia).
  destruct (Z.to_nat (size_of n)) as [|m] eqn:EM; [unfold size_of in EM; lia|]. cbn [makeBatch].
  unfold nextID, Int63n. destruct (Z.leb_spec (i64 maxID) 0); [reflexivity|]. cbn [rbind].
  unfold nextValue. change (below (fun _ => 0) 7 _) with true. cbv iota.
  destruct (u64 maxValue =? 0); [reflexivity|]. unfold Int63n. replace (Z.quot maxValue 10) with 0 by (symmetry; apply Z.quot_small; lia). reflexivity.
Qed.
End Both.
