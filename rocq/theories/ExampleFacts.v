(** Facts about the example programs. *)
From Verif Require Import Machine MachineFacts Sroar FileIO Writer Reader Aggregate Spec ExampleTools ExampleSpec.
Ltac Zify.zify_post_hook ::= Z.div_mod_to_equations.

Lemma bread_ok n data p x q : bread n data p = Ok (x, q) -> q = p + n /\ x = le_val (slice data p n) /\ n <= zlen (slice data p n).
Proof. unfold bread. destruct (Z.ltb_spec (zlen (slice data p n)) n); [discriminate|]. intros H'. injection H' as <- <-. repeat split; lia. Qed.
Lemma bread_some n data p : 0 <= n -> 0 <= p -> p + n <= zlen data -> bread n data p = Ok (le_val (slice data p n), p + n).
Proof. intros Hn Hp Hl. unfold bread. rewrite zlen_slice by lia. destruct (Z.ltb_spec (Z.max 0 (Z.min n (zlen data - p))) n); [lia|]. reflexivity. Qed.
Lemma bread_room n data p x q : bread n data p = Ok (x, q) -> 0 < n -> 0 <= p -> p + n <= zlen data.
Proof. intros H Hn Hp. apply bread_ok in H. destruct H as (_ & _ & H). rewrite zlen_slice in H by lia. lia. Qed.

(** Both formats start with a magic number, and the numbers differ. *)
Lemma exReader_magic data r : exNewReader data = Ok r -> le_val (slice data 0 8) = ExMagic /\ 8 <= zlen data.
Proof.
  unfold exNewReader, exReadHeader. destruct (bread 8 data 0) as [[magic p]|e|] eqn:E; cbn [rbind]; try discriminate.
  pose proof (bread_room _ _ _ _ _ E ltac:(lia) ltac:(lia)) as HR. apply bread_ok in E. destruct E as (_ & -> & _).
  destruct (Z.eqb_spec (le_val (slice data 0 8)) ExMagic); cbn [negb]; [intros _; split; [assumption|lia]|discriminate].
Qed.
Lemma reader_magic {Srr : Sroar} data r : NewReader data = Ok r -> 8 <= zlen data -> le_val (slice data 0 8) = MagicNumber.
Proof.
  unfold NewReader. intros H HL. destruct (readHeader data) as [h|e|] eqn:EH; cbn [rbind] in H; try discriminate. clear H. unfold readHeader in EH.
  destruct (readBytesAt data true 0 headerSize) as [buf|e|] eqn:EB; cbn [rbind] in EH; try discriminate.
  destruct (readBufferedUint64 buf 0) as [m|e|] eqn:EM; cbn [rbind] in EH; try discriminate.
  assert (Hm : m = MagicNumber).
  { repeat (match type of EH with rbind ?m _ = _ => destruct m as [?|?|]; cbn [rbind] in EH; try discriminate end).
    destruct (Z.eqb_spec m MagicNumber); cbn [negb] in EH; [assumption|discriminate]. }
  subst m. unfold readBytesAt in EB. change (headerSize <? 0) with false in EB. change (0 <? 0) with false in EB. change (headerSize =? 0) with false in EB.
  cbn [negb] in EB. change (0 + headerSize >? max_int64) with false in EB. cbv iota in EB. injection EB as <-.
  unfold readBufferedUint64, readBuffered in EM. destruct (_ || _); [discriminate|]. injection EM as EM. rewrite <- EM. f_equal.
  unfold slice, ztake, zdrop. change (Z.to_nat 0) with 0%nat. change (Z.to_nat 8) with 8%nat. change (Z.to_nat headerSize) with 64%nat. rewrite !skipn_O.
  unfold zlen in HL. set (d := firstn 64 data). assert (HF : (8 <= length d)%nat) by (unfold d; rewrite firstn_length; lia).
  rewrite firstn_app. replace (8 - length d)%nat with 0%nat by lia. rewrite firstn_O, app_nil_r. unfold d. rewrite firstn_firstn. reflexivity.
Qed.
Theorem formats_disjoint {Srr : Sroar} data r x : ~ (NewReader data = Ok r /\ exNewReader data = Ok x).
Proof.
  intros [H1 H2]. destruct (exReader_magic _ _ H2) as [M L]. rewrite (reader_magic _ _ H1 L) in M. discriminate.
Qed.

(** Entries. *)
Lemma exReadEntry_ok data p e q : exReadEntry data p = Ok (e, q) -> 0 <= p -> q = p + 56 /\ q <= zlen data.
Proof.
  unfold exReadEntry. intros H Hp.
  repeat (match type of H with context [rbind (bread ?n ?d ?p) _] => let E := fresh "E" in destruct (bread n d p) as [[? ?]|?|] eqn:E; cbn [rbind] in H; [|discriminate..] end).
  injection H as _ <-.
  repeat match goal with E : bread ?n ?d ?p = Ok _ |- _ => pose proof (bread_room _ _ _ _ _ E ltac:(lia)); apply bread_ok in E; destruct E as (? & _ & _); subst end. lia.
Qed.
Lemma exReadEntries_ok n : forall data p es, exReadEntries n data p = Ok es -> 0 <= p ->
  length es = n /\ (p + 56 * Z.of_nat n <= zlen data \/ n = 0%nat).
Proof.
  induction n as [|n IH]; intros data p es H Hp; cbn [exReadEntries] in H; [injection H as <-; split; [reflexivity|right; reflexivity]|].
  destruct (exReadEntry data p) as [[e q]|e|] eqn:E; cbn [rbind] in H; try discriminate.
  destruct (exReadEntries n data q) as [es'|e'|] eqn:E2; cbn [rbind] in H; try discriminate. injection H as <-.
  destruct (exReadEntry_ok _ _ _ _ E Hp) as [-> Hq]. destruct (IH _ _ _ E2 ltac:(lia)) as [I1 I2]. split; [cbn; lia|left].
  destruct I2 as [I2| ->]; lia.
Qed.
Theorem accepted_entries data r : Forall is_byte data -> exNewReader data = Ok r ->
  x_data r = data /\ zlen (x_entries r) = le_val (slice data 320 4) /\ 324 + 56 * zlen (x_entries r) <= zlen data
  /\ le_val (slice data (zlen data - 8) 8) = ExMagic.
Proof.
  intros HB. unfold exNewReader. destruct (exReadHeader data) as [[v c]|e|]; cbn [rbind]; try discriminate.
  destruct (exReadFooter data) as [es|e|] eqn:EF; cbn [rbind]; try discriminate. intros H0. injection H0 as <-. cbn [x_data x_entries].
  unfold exReadFooter in EF. destruct (Z.ltb_spec (zlen data - 8) 0); [discriminate|].
  destruct (bread 8 data (zlen data - 8)) as [[m p]|e|] eqn:E1; cbn [rbind] in EF; try discriminate. apply bread_ok in E1. destruct E1 as (_ & -> & _).
  destruct (Z.eqb_spec (le_val (slice data (zlen data - 8) 8)) ExMagic) as [Em|]; cbn [negb] in EF; [|discriminate].
  destruct (bread 4 data 320) as [[n q]|e|] eqn:E2; cbn [rbind] in EF; try discriminate.
  pose proof (bread_room _ _ _ _ _ E2 ltac:(lia) ltac:(lia)) as HR. apply bread_ok in E2. destruct E2 as (-> & -> & _).
  destruct (exReadEntries_ok _ _ _ _ EF ltac:(lia)) as [L1 L2]. split; [reflexivity|]. unfold zlen at 1 2. rewrite L1.
  destruct (Z.leb_spec 0 (le_val (slice data 320 4))) as [Hn|Hn].
  - rewrite Z2Nat.id by lia. split; [reflexivity|]. split; [|exact Em]. rewrite Z2Nat.id in L2 by lia. lia.
  - exfalso. pose proof (le_val_range (slice data 320 4) (Forall_slice _ _ _ _ HB)). lia.
Qed.

(** The dump. *)
Lemma bread64s_ok n data p : 0 <= p -> p + 8 * Z.of_nat n <= zlen data ->
  bread64s n data p = Ok (map (fun i => le_val (slice data (p + 8 * Z.of_nat i) 8)) (seq 0 n)).
Proof.
  intros Hp Hl. assert (G : forall m k, (k + m = n)%nat ->
    bread64s m data (p + 8 * Z.of_nat k) = Ok (map (fun i => le_val (slice data (p + 8 * Z.of_nat i) 8)) (seq k m))).
  { induction m as [|m IH]; intros k Hk; cbn [bread64s seq map]; [reflexivity|]. rewrite bread_some by lia. cbn [rbind].
    replace (p + 8 * Z.of_nat k + 8) with (p + 8 * Z.of_nat (S k)) by lia. rewrite (IH (S k)) by lia. reflexivity. }
  specialize (G n 0%nat eq_refl). rewrite Z.add_0_r in G. exact G.
Qed.
Theorem dump_accepted data r : Forall is_byte data -> exNewReader data = Ok r ->
  exDumpKVPairs r = Ok (mkDump (combine (cells data 160) (map i64 (cells data 240))) 10 (minOf (cells data 160)) (maxOf (cells data 160))
    (minOf (map i64 (cells data 240))) (maxOf (map i64 (cells data 240))) (sumOf (map i64 (cells data 240)))).
Proof.
  intros HB H. destruct (accepted_entries data r HB H) as (HD & _ & HL & _). pose proof (zlen_nonneg (x_entries r)) as HN. unfold exDumpKVPairs. rewrite HD. cbv zeta.
  repeat (rewrite bread_some by lia; cbn [rbind]). rewrite !bread64s_ok by lia. reflexivity.
Qed.

Lemma minOf_minimum l : l <> [] -> is_minimum (minOf l) l.
Proof.
  destruct l as [|x l]; [congruence|]. intros _. unfold minOf. cbn [nth fold_left]. rewrite Z.ltb_irrefl.
  assert (G : forall l m, let m' := fold_left (fun m x => if x <? m then x else m) l m in (m' = m \/ In m' l) /\ m' <= m /\ Forall (fun y => m' <= y) l).
  { clear. induction l as [|y l IH]; intros m; cbn [fold_left]; [split; [left; reflexivity|split; [lia|constructor]]|].
    destruct (IH (if y <? m then y else m)) as (I1 & I2 & I3). cbv zeta. set (m' := fold_left _ l _) in *. clearbody m'.
    destruct (Z.ltb_spec y m); (split; [destruct I1 as [->|I1]; cbn; auto|split; [lia|constructor; [lia|exact I3]]]). }
  destruct (G l x) as (G1 & G2 & G3). split; [destruct G1 as [->|G1]; [left; reflexivity|right; exact G1]|].
  intros y [<-|Hy]; [exact G2|]. rewrite Forall_forall in G3. apply G3, Hy.
Qed.
Lemma maxOf_maximum l : l <> [] -> is_maximum (maxOf l) l.
Proof.
  destruct l as [|x l]; [congruence|]. intros _. unfold maxOf. cbn [nth fold_left]. rewrite Z.gtb_ltb, Z.ltb_irrefl.
  assert (G : forall l m, let m' := fold_left (fun m x => if x >? m then x else m) l m in (m' = m \/ In m' l) /\ m <= m' /\ Forall (fun y => y <= m') l).
  { clear. induction l as [|y l IH]; intros m; cbn [fold_left]; [split; [left; reflexivity|split; [lia|constructor]]|].
    destruct (IH (if y >? m then y else m)) as (I1 & I2 & I3). cbv zeta. set (m' := fold_left _ l _) in *. clearbody m'.
    destruct (Z.gtb_spec y m); (split; [destruct I1 as [->|I1]; cbn; auto|split; [lia|constructor; [lia|exact I3]]]). }
  destruct (G l x) as (G1 & G2 & G3). split; [destruct G1 as [->|G1]; [left; reflexivity|right; exact G1]|].
  intros y [<-|Hy]; [exact G2|]. rewrite Forall_forall in G3. apply G3, Hy.
Qed.
Lemma sumOf_sum l : sumOf l = i64 (zsum l).
Proof.
  unfold sumOf. assert (G : forall l s, i64 (s + zsum l) = i64 (fold_left (fun s x => i64 (s + x)) l s)).
  { clear. induction l as [|x l IH]; intros s; cbn [fold_left]; [unfold zsum; cbn; f_equal; lia|]. rewrite <- IH. unfold zsum. cbn [fold_right].
    rewrite i64_add_l. f_equal. lia. }
  destruct l as [|x l]; [reflexivity|]. specialize (G (x :: l) 0). rewrite Z.add_0_l in G. rewrite G.
  assert (T : forall l s, is_i64 s -> is_i64 (fold_left (fun s x => i64 (s + x)) l s)).
  { clear. induction l as [|x l IH]; intros s H; cbn [fold_left]; [exact H|]. apply IH. unfold is_i64, i64, two63, two64. lia. }
  symmetry. apply i64_id. apply T. unfold is_i64, two63. lia.
Qed.

(** The file write_example writes. *)
Definition exBytes (time c1 c2 : list Z) : list Z :=
  concat (exHeader time) ++ concat exBlockHeader ++ c1 ++ concat (tl exLayout) ++ concat exData ++ concat (exFooter 256) ++ c2 ++ le_bytes 8 ExMagic.
Lemma write_symbolic t0 t1 t2 t3 t4 t5 t6 t7 (a0 a1 a2 a3 a4 a5 a6 a7 : list Z -> Z) :
  let crc l := [a0 l; a1 l; a2 l; a3 l; a4 l; a5 l; a6 l; a7 l] in
  let time := [t0; t1; t2; t3; t4; t5; t6; t7] in
  (let (r, f) := writeFileBytes time crc (mkFile [] 0 true []) in (r, f_data f)) = (Ok 396, exBytes time (crc (concat exData)) (crc (ztake 380 (exBytes time (crc (concat exData)) [])))).
Proof. vm_compute. reflexivity. Qed.
Definition byte (k : nat) (x : Z) : Z := nth k (le_bytes 8 x) 0.
Lemma write_closed now crc : exists c1 c2,
  c1 = le_bytes 8 (crc (concat exData)) /\ c2 = le_bytes 8 (crc (ztake 380 (exBytes (le_bytes 8 now) c1 [])))
  /\ writeExample now crc [] = (Ok 396, exBytes (le_bytes 8 now) c1 c2).
Proof.
  eexists _, _. split; [reflexivity|]. split; [reflexivity|]. unfold writeExample.
  exact (write_symbolic (byte 0 now) (byte 1 now) (byte 2 now) (byte 3 now) (byte 4 now) (byte 5 now) (byte 6 now) (byte 7 now)
    (fun l => byte 0 (crc l)) (fun l => byte 1 (crc l)) (fun l => byte 2 (crc l)) (fun l => byte 3 (crc l))
    (fun l => byte 4 (crc l)) (fun l => byte 5 (crc l)) (fun l => byte 6 (crc l)) (fun l => byte 7 (crc l))).
Qed.
Definition exEntry1 : exEntry := mkExEntry 64 256 1 45 100 1000 5500 10.
Lemma read_symbolic t0 t1 t2 t3 t4 t5 t6 t7 a0 a1 a2 a3 a4 a5 a6 a7 b0 b1 b2 b3 b4 b5 b6 b7 :
  let data := exBytes [t0; t1; t2; t3; t4; t5; t6; t7] [a0; a1; a2; a3; a4; a5; a6; a7] [b0; b1; b2; b3; b4; b5; b6; b7] in
  exNewReader data = Ok (mkExReader data 1 1 [exEntry1])
  /\ exDumpKVPairs (mkExReader data 1 1 [exEntry1]) = Ok (mkDump (combine exIDs exValues) 10 1 45 100 1000 5500).
Proof. split; vm_compute; reflexivity. Qed.
Theorem example_round_trip now crc : exists data, writeExample now crc [] = (Ok 396, data)
  /\ exists r, exNewReader data = Ok r /\ x_version r = 1 /\ x_blockCount r = 1
    /\ exDumpKVPairs r = Ok (mkDump (combine exIDs exValues) 10 1 45 100 1000 5500)
    /\ exAggregate r = mkAgg 10 100 1000 5500 (f64_of_Z 550).
Proof.
  destruct (write_closed now crc) as (c1 & c2 & H1 & H2 & H). eexists. split; [exact H|].
  assert (E : forall z, exists a0 a1 a2 a3 a4 a5 a6 a7, le_bytes 8 z = [a0; a1; a2; a3; a4; a5; a6; a7]) by (intros z; repeat eexists).
  destruct (E now) as (t0 & t1 & t2 & t3 & t4 & t5 & t6 & t7 & ->).
  clear H. destruct (E (crc (concat exData))) as (a0 & a1 & a2 & a3 & a4 & a5 & a6 & a7 & Ea). rewrite Ea in H1.
  match type of H2 with c2 = le_bytes 8 ?z => destruct (E z) as (b0 & b1 & b2 & b3 & b4 & b5 & b6 & b7 & Eb) end. rewrite Eb in H2. subst c1 c2.
  destruct (read_symbolic t0 t1 t2 t3 t4 t5 t6 t7 a0 a1 a2 a3 a4 a5 a6 a7 b0 b1 b2 b3 b4 b5 b6 b7) as [R1 R2]. cbv zeta in R1, R2.
  eexists. split; [exact R1|]. split; [reflexivity|]. split; [reflexivity|]. split; [exact R2|]. vm_compute. reflexivity.
Qed.

Lemma fold_u32 (es : list exEntry) : fold_left (fun a e => u32 (a + x_count e)) es 0 = u32 (zsum (map x_count es)).
Proof.
  assert (G : forall es a, u32 a = a -> fold_left (fun a e => u32 (a + x_count e)) es a = u32 (a + zsum (map x_count es))).
  { clear. induction es as [|e es IH]; intros a Ha; cbn [fold_left map]; unfold zsum in *; cbn [fold_right]; [rewrite Z.add_0_r; symmetry; exact Ha|].
    rewrite IH by (unfold u32, two32; lia). unfold u32. rewrite Zplus_mod_idemp_l. f_equal. lia. }
  apply (G es 0). reflexivity.
Qed.
Lemma fold_sum (es : list exEntry) : fold_left (fun a e => i64 (a + x_sum e)) es 0 = i64 (zsum (map x_sum es)).
Proof.
  assert (G : forall es a, i64 a = a -> fold_left (fun a e => i64 (a + x_sum e)) es a = i64 (a + zsum (map x_sum es))).
  { clear. induction es as [|e es IH]; intros a Ha; cbn [fold_left map]; unfold zsum in *; cbn [fold_right]; [rewrite Z.add_0_r; symmetry; exact Ha|].
    rewrite IH by (apply i64_id; unfold is_i64, i64, two63, two64; lia). rewrite i64_add_l. f_equal. lia. }
  apply (G es 0). reflexivity.
Qed.
Lemma fold_min (es : list exEntry) : Forall (fun e => x_minValue e <= max_int64) es -> es <> [] ->
  is_minimum (fold_left (fun a e => if x_minValue e <? a then x_minValue e else a) es max_int64) (map x_minValue es).
Proof.
  intros HT HN.
  assert (G : forall es m, let m' := fold_left (fun a e => if x_minValue e <? a then x_minValue e else a) es m in
    (m' = m \/ In m' (map x_minValue es)) /\ m' <= m /\ Forall (fun y => m' <= x_minValue y) es).
  { clear. induction es as [|y es IH]; intros m; cbn [fold_left]; [split; [left; reflexivity|split; [lia|constructor]]|].
    destruct (IH (if x_minValue y <? m then x_minValue y else m)) as (I1 & I2 & I3). cbv zeta. set (m' := fold_left _ es _) in *. clearbody m'.
    destruct (Z.ltb_spec (x_minValue y) m); (split; [destruct I1 as [->|I1]; cbn; auto|split; [lia|constructor; [lia|exact I3]]]). }
  destruct (G es max_int64) as (G1 & G2 & G3). set (m' := fold_left _ es _) in *. clearbody m'. cbv zeta in *. clear G. split.
  - destruct G1 as [->|G1]; [|exact G1]. destruct es as [|e es]; [congruence|]. inversion HT; subst. inversion G3; subst. left. lia.
  - intros y Hy. apply in_map_iff in Hy. destruct Hy as (e & <- & He). rewrite Forall_forall in G3. apply G3, He.
Qed.
Lemma fold_max (es : list exEntry) : Forall (fun e => min_int64 <= x_maxValue e) es -> es <> [] ->
  is_maximum (fold_left (fun a e => if x_maxValue e >? a then x_maxValue e else a) es min_int64) (map x_maxValue es).
Proof.
  intros HT HN.
  assert (G : forall es m, let m' := fold_left (fun a e => if x_maxValue e >? a then x_maxValue e else a) es m in
    (m' = m \/ In m' (map x_maxValue es)) /\ m <= m' /\ Forall (fun y => x_maxValue y <= m') es).
  { clear. induction es as [|y es IH]; intros m; cbn [fold_left]; [split; [left; reflexivity|split; [lia|constructor]]|].
    destruct (IH (if x_maxValue y >? m then x_maxValue y else m)) as (I1 & I2 & I3). cbv zeta. set (m' := fold_left _ es _) in *. clearbody m'.
    destruct (Z.gtb_spec (x_maxValue y) m); (split; [destruct I1 as [->|I1]; cbn; auto|split; [lia|constructor; [lia|exact I3]]]). }
  destruct (G es min_int64) as (G1 & G2 & G3). set (m' := fold_left _ es _) in *. clearbody m'. cbv zeta in *. clear G. split.
  - destruct G1 as [->|G1]; [|exact G1]. destruct es as [|e es]; [congruence|]. inversion HT; subst. inversion G3; subst. left. lia.
  - intros y Hy. apply in_map_iff in Hy. destruct Hy as (e & <- & He). rewrite Forall_forall in G3. apply G3, He.
Qed.
Lemma entries_typed n : forall data p es, exReadEntries n data p = Ok es -> Forall (fun e => is_i64 (x_minValue e) /\ is_i64 (x_maxValue e)) es.
Proof.
  induction n as [|n IH]; intros data p es H; cbn [exReadEntries] in H; [injection H as <-; constructor|].
  destruct (exReadEntry data p) as [[e q]|e|] eqn:E; cbn [rbind] in H; try discriminate.
  destruct (exReadEntries n data q) as [es'|e'|] eqn:E2; cbn [rbind] in H; try discriminate. injection H as <-.
  constructor; [|apply (IH _ _ _ E2)]. unfold exReadEntry in E.
  repeat (match type of E with rbind ?m _ = _ => destruct m as [[? ?]|?|]; cbn [rbind] in E; [|discriminate..] end).
  injection E as <- _. cbn [x_minValue x_maxValue]. unfold is_i64, i64, two63, two64. lia.
Qed.
Theorem aggregate_entries data r : exNewReader data = Ok r -> of_entries (x_entries r) (exAggregate r).
Proof.
  intros H. unfold exNewReader in H. destruct (exReadHeader data) as [[v c]|e|]; cbn [rbind] in H; try discriminate.
  destruct (exReadFooter data) as [es|e|] eqn:EF; cbn [rbind] in H; try discriminate. injection H as <-.
  assert (T : Forall (fun e => is_i64 (x_minValue e) /\ is_i64 (x_maxValue e)) es).
  { unfold exReadFooter in EF. destruct (_ <? 0); [discriminate|]. destruct (bread 8 _ _) as [[m p]|e|]; cbn [rbind] in EF; try discriminate.
    destruct (negb _); [discriminate|]. destruct (bread 4 _ _) as [[m' p']|e|]; cbn [rbind] in EF; try discriminate. apply (entries_typed _ _ _ _ EF). }
  unfold of_entries, exAggregate. cbn [x_entries a_count a_sum a_min a_max]. split; [apply fold_u32|]. split; [apply fold_sum|]. intros HN. split.
  - apply fold_min; [|exact HN]. eapply Forall_impl; [|exact T]. unfold is_i64, max_int64, two63. intros e [A B]. lia.
  - apply fold_max; [|exact HN]. eapply Forall_impl; [|exact T]. unfold is_i64, min_int64, two63. intros e [A B]. lia.
Qed.

(** Where the pieces of the written file are. *)
Theorem footer_size_lost now crc : exists data, writeExample now crc [] = (Ok 396, data)
  /\ zlen data = 396 /\ slice data 380 8 = le_bytes 8 (crc (ztake 380 data)) /\ slice data 388 8 = le_bytes 8 ExMagic
  /\ le_val (slice data 320 4) = 1 /\ le_val (slice data 324 8) = 64 /\ slice data 68 40 = concat (map (le_bytes 8) [1; 45; 100; 1000; 5500])
  /\ le_val (slice data 372 8) <> 60.
Proof.
  destruct (write_closed now crc) as (c1 & c2 & H1 & H2 & H). eexists. split; [exact H|]. clear H.
  assert (E : forall z, exists a0 a1 a2 a3 a4 a5 a6 a7, le_bytes 8 z = [a0; a1; a2; a3; a4; a5; a6; a7]) by (intros z; repeat eexists).
  assert (G : forall t c d, length t = 8%nat -> length c = 8%nat -> length d = 8%nat ->
    ztake 380 (exBytes t c []) = ztake 380 (exBytes t c d) /\ zlen (exBytes t c d) = 396 /\ slice (exBytes t c d) 380 8 = d
    /\ slice (exBytes t c d) 388 8 = le_bytes 8 ExMagic
    /\ le_val (slice (exBytes t c d) 320 4) = 1 /\ le_val (slice (exBytes t c d) 324 8) = 64
    /\ slice (exBytes t c d) 68 40 = concat (map (le_bytes 8) [1; 45; 100; 1000; 5500])
    /\ le_val (slice (exBytes t c d) 372 8) = 42949672960).
  { clear. intros t c d Ht Hc Hd. do 8 (destruct t as [|? t]; [discriminate Ht|]). destruct t; [|discriminate Ht].
    do 8 (destruct c as [|? c]; [discriminate Hc|]). destruct c; [|discriminate Hc]. do 8 (destruct d as [|? d]; [discriminate Hd|]). destruct d; [|discriminate Hd].
    repeat (split; [vm_compute; reflexivity|]). vm_compute. reflexivity. }
  assert (L : forall z, length (le_bytes 8 z) = 8%nat) by reflexivity.
  assert (Lc1 : length c1 = 8%nat) by (subst; apply L). assert (Lc2 : length c2 = 8%nat) by (subst c2; apply L).
  destruct (G (le_bytes 8 now) c1 c2 (L now) Lc1 Lc2) as (G1 & G2 & G3 & G4 & G5 & G6 & G7 & G8).
  split; [exact G2|]. split; [rewrite G3, <- G1; exact H2|]. split; [exact G4|]. split; [exact G5|]. split; [exact G6|]. split; [exact G7|]. rewrite G8. lia.
Qed.

Lemma full_disk_symbolic time (crc : list Z -> list Z) :
  (let (r, f) := writeFileBytes time crc (mkFile [] 0 true full_disk) in (r, f_data f)) = (Ok 0, []).
Proof. vm_compute. reflexivity. Qed.
Theorem full_disk_reported_fine now crc : writeExample now crc full_disk = (Ok 0, []) /\ exNewReader [] = Err ErrIO.
Proof. split; [exact (full_disk_symbolic (le_bytes 8 now) (fun l => le_bytes 8 (crc l)))|reflexivity]. Qed.

Theorem dump_spec data r : Forall is_byte data -> exNewReader data = Ok r -> exists d, exDumpKVPairs r = Ok d /\ dump_of data d.
Proof.
  intros HB H. rewrite (dump_accepted _ _ HB H). eexists. split; [reflexivity|]. unfold dump_of. cbn [d_pairs d_count d_minID d_maxID d_minValue d_maxValue d_sum].
  assert (N1 : cells data 160 <> []) by discriminate. assert (N2 : map i64 (cells data 240) <> []) by discriminate.
  split; [reflexivity|]. split; [reflexivity|]. split; [apply minOf_minimum; exact N1|]. split; [apply maxOf_maximum; exact N1|].
  split; [apply minOf_minimum; exact N2|]. split; [apply maxOf_maximum; exact N2|]. apply sumOf_sum.
Qed.
