(** What a call reads: accepted files, finished files, several files. *)
From Coq Require Import Permutation.
From Verif Require Import Machine MachineFacts Encoding EncodingFacts FileIO FileFacts Sroar Writer Reader Aggregate Parallel Multi Shared Spec MultiSpec AnySpec DamageSpec Racing RacingSpec
  ArbFacts WriterFacts BlockFacts FinalFacts ReaderFacts DecodeFacts HistoryFacts RunFacts ReachFacts WriterProps AggFacts ParallelFacts AggProps CloseFacts PowerFacts AnyFacts DamageFacts RacingFacts TracedFacts.
From Verif Require Import Traced TracedSpec.
From Coq Require Import Lia ZifyBool.
Ltac Zify.zify_post_hook ::= Z.div_mod_to_equations.
Local Open Scope Z_scope.

Lemma open_after data r : NewReader data = Ok r -> r_open r = true /\ r_globalIDs r = None /\ r_cacheGlobalIDs r = false.
Proof.
  unfold NewReader. destruct (readHeader data) as [h| |]; cbn [rbind]; try discriminate.
  destruct (readFooter data h) as [[[h' m] ix]| |]; cbn [rbind]; try discriminate. intros H. injection H as <-. auto.
Qed.

Section Any.
Context {Srr : Sroar}.
Definition counted (r : reader) : Prop := Forall (fun e => 0 <= e_count e < two32) (r_index r).
Lemma typed_counted r : Forall entry_typed (r_index r) -> counted r.
Proof. apply Forall_impl. intros e (_ & _ & _ & _ & _ & _ & _ & H). unfold is_u32 in H. lia. Qed.
Lemma counted_counts r : counted r -> Forall (fun e => 0 <= e_count e) (r_index r).
Proof. apply Forall_impl. intros e H. lia. Qed.
Lemma taken_bound r f d i : counted r -> zlen (taken r f d i) <= 2 ^ 32.
Proof.
  intros HT. assert (N0 : zlen (@nil Z) <= 2 ^ 32) by (cbn; lia). unfold taken. destruct (GetPairs r i) as [[ids vals]| |] eqn:E; try exact N0.
  destruct (readBlock_len r _ ids vals (counted_counts _ HT) E) as (_ & e & He & L & _). apply nth_error_In in He.
  unfold counted in HT. rewrite Forall_forall in HT. pose proof (HT e He) as HC. unfold two32 in HC.
  assert (F : forall P, zlen (map snd (filter P (combine ids vals))) <= 2 ^ 32).
  { intros P. rewrite zlen_map. transitivity (zlen (combine ids vals)); [clear; induction (combine ids vals) as [|y l IH]; cbn [filter]; [lia|]; destruct (P y); rewrite ?zlen_cons; lia|].
    unfold zlen in *. rewrite combine_length. lia. }
  destruct f, d; try (destruct (claimed_in_range _ _ _); [apply F|exact N0]). lia.
Qed.
Lemma all_bound r f d : counted r -> BlockCount r < 2 ^ 31 -> zlen (all_taken r f d) < two63.
Proof.
  intros HT HB. assert (G : zlen (all_taken r f d) <= 2 ^ 32 * zlen (zseq (BlockCount r))).
  { unfold all_taken. induction (zseq (BlockCount r)) as [|i l IH]; [cbn; lia|]. cbn [flat_map]. rewrite zlen_app, zlen_cons. pose proof (taken_bound r f d i HT). lia. }
  rewrite zlen_zseq in G. unfold two63. destruct (Z.max_spec 0 (BlockCount r)) as [[? M]|[? M]]; rewrite M in G; lia.
Qed.

Theorem any_reads data r opts g sched x rs : Forall is_byte data -> NewReader data = Ok r ->
  Forall (fun e => 80 <= e_size e) (r_index r) -> BlockCount r < 2 ^ 31 -> reads_data r opts ->
  AggregateWithOptionsT g sched r opts = (Some x, rs) ->
  Permutation rs (flat_map (fun i => snd (GetPairsT r i)) (candidates r opts))
  /\ (o_parallel opts = 0 -> rs = flat_map (fun i => snd (GetPairsT r i)) (candidates r opts)).
Proof.
  intros HB HR HS HN HU HX. pose proof (NewReader_index data r HB HR) as HL. destruct (open_after data r HR) as (Ho & _).
  pose proof (NewReader_typed data r HB HR) as HT. pose proof (typed_counts _ HT) as HC.
  apply (aggregate_reads r opts Ho HC HS HL) with (g := g) (sched := sched) (x := x); try assumption; [lia|]. apply all_bound; [apply typed_counted|]; assumption.
Qed.

(** ** Several files *)
Lemma bitmap_reads_load r h : r_cacheGlobalIDs r = false -> snd (GetGlobalIDBitmapT r h) = snd (loadGlobalIDBitmapT r).
Proof. intros H. unfold GetGlobalIDBitmapT. rewrite H. destruct (loadGlobalIDBitmapT r) as [[b| |] t]; destruct (r_globalIDs r); reflexivity. Qed.
Lemma loop_reads opts : forall rs deny result h res rs' h' ts, Forall fresh_file rs ->
  multiLoopT opts rs deny result h = ((Ok res, rs', h'), ts) ->
  ts = map (fun r => flat_map (fun i => snd (GetPairsT r i)) (candidates r (mkOpts (mo_skip opts) (mo_filter opts) None 0)) ++ snd (loadGlobalIDBitmapT r)) rs.
Proof.
  induction rs as [|r rs IH]; intros deny result h res rs' h' ts HF H; cbn [multiLoopT map] in *; [injection H as _ _ _ <-; reflexivity|].
  inversion HF as [|? ? (data & HB & HR & HS & HN) HF']; subst. destruct (open_after data r HR) as (Ho & _ & Hc).
  set (o := mkOpts (mo_skip opts) (mo_filter opts) (Some deny) 0) in *.
  assert (ES : snd (aggregateSequentialT r o) = flat_map (fun i => snd (GetPairsT r i)) (candidates r o)).
  { apply (any_reads data r o 0 [] (fst (aggregateSequentialT r o)) (snd (aggregateSequentialT r o)) HB HR HS HN); [right; left; discriminate|reflexivity|reflexivity]. }
  destruct (aggregateSequentialT r o) as [m t]. cbn [snd] in ES. destruct m as [x| |]; try discriminate H.
  pose proof (bitmap_reads_load r h Hc) as EB. destruct (GetGlobalIDBitmapT r h) as [[[[p|e|] r'] h1] t']; try discriminate H. cbn [snd] in EB.
  destruct (nth_error h1 p) as [b|]; [|discriminate H].
  destruct (multiLoopT opts rs (bm_or deny b) _ h1) as [[[x2 rs2] h2] ts2] eqn:EM. injection H as -> _ _ <-.
  rewrite (IH _ _ _ _ _ _ _ HF' EM), ES, EB. reflexivity.
Qed.
Theorem multi_reads opts readers h res rs' h' ts : Forall fresh_file readers ->
  MultiAggregateT opts readers h = ((Ok res, rs', h'), ts) ->
  ts = map (fun r => flat_map (fun i => snd (GetPairsT r i)) (candidates r (mkOpts (mo_skip opts) (mo_filter opts) None 0)) ++ snd (loadGlobalIDBitmapT r)) (rev readers).
Proof.
  intros HF. unfold MultiAggregateT. destruct (Z.eqb_spec (zlen readers) 0) as [E|_].
  - intros H. injection H as _ _ _ <-. destruct readers as [|r l]; [reflexivity|]. rewrite zlen_cons in E. pose proof (zlen_nonneg l). lia.
  - destruct (multiLoopT opts (rev readers) bm_new zeroResult h) as [[[x rs2] h2] ts2] eqn:EM. intros H. injection H as -> _ _ <-.
    eapply loop_reads; [|exact EM]. apply Forall_rev. exact HF.
Qed.
End Any.

(** ** Finished files *)
Section Finished.
Context {Srr : Sroar}.
Record shape (data : list Z) (r : reader) (stop : Z) : Prop := {
  sh_blocks : contiguous 64 (r_index r) stop;
  sh_stop : 64 <= stop <= h_bitmapOffset (r_header r);
  sh_size : 4 <= h_bitmapSize (r_header r);
  sh_len : le_val (slice data (h_bitmapOffset (r_header r)) 4) = h_bitmapSize (r_header r) - 4;
  sh_footer : h_bitmapOffset (r_header r) + h_bitmapSize (r_header r) <= footer_start r;
  sh_file : zlen data = footer_start r + 4 + 56 * zlen (r_index r) + 24;
  sh_max : zlen data < two63;
  sh_count : BlockCount r = zlen (r_index r);
  sh_few : 56 * zlen (r_index r) < two32;
  sh_counted : counted r
}.
Lemma finished_shape options faults h now w : finished_run options faults h now w -> never_finalized h ->
  exists r stop, NewReader (bytes_of w) = Ok r /\ shape (bytes_of w) r stop.
Proof.
  intros H Hn. destruct (layout options faults h now w H Hn) as (r & stop & fs & HR & HC & _ & Hst & Hbm & _ & Hlen).
  destruct (finished_facts options faults h now w H) as (blocks & A & X & L & off & Hef & HL & HF & Hlim & HX & _ & HR2).
  rewrite HR in HR2. apply ok_inj in HR2.
  pose proof (lim_file _ _ _ _ _ Hlim) as LF. pose proof (lim_index _ _ _ _ _ Hlim) as LI. pose proof (lim_bitmap _ _ _ _ _ Hlim) as LB.
  destruct (fz_off _ _ _ _ _ _ _ _ HF) as [O1 O2]. pose proof (fz_data _ _ _ _ _ _ _ _ HF) as HD. pose proof (fz_bitmap _ _ _ _ _ _ _ _ HF) as HB.
  set (b := fold_left bm_set A bm_new) in *. pose proof (zlen_nonneg L) as NL. pose proof (zlen_nonneg (bm_ser b)) as NB.
  assert (EI : zlen (r_index r) = zlen L) by (rewrite HR2; cbn [the_reader r_index]; apply zlen_map).
  assert (EO : h_bitmapOffset (r_header r) = off) by (rewrite HR2; reflexivity).
  assert (ES : h_bitmapSize (r_header r) = 4 + zlen (bm_ser b)) by (rewrite HR2; reflexivity).
  assert (EC : BlockCount r = zlen L) by (rewrite HR2; reflexivity).
  assert (EM : fm_size (r_meta r) = 4 + 56 * zlen L) by (rewrite HR2; reflexivity).
  assert (ED : r_data r = bytes_of w) by (rewrite HR2; reflexivity).
  assert (LX : zlen (bytes_of w) = zlen X + 28 + 56 * zlen L) by (rewrite HD, zlen_app, zlen_footer; unfold pblock; lia).
  assert (LBB : zlen (bitmap_bytes b) = 4 + zlen (bm_ser b)) by (unfold bitmap_bytes; rewrite zlen_app, zlen_le_bytes; lia).
  clear HR2. rewrite EO in Hst, Hbm. rewrite ES in Hbm. rewrite EI in Hlen.
  assert (FS : footer_start r = fs).
  { unfold footer_start. rewrite ED, EM, (i64_id (4 + 56 * zlen L)) by (unfold is_i64, two63, two32 in *; lia).
    rewrite i64_id by (unfold is_i64, two63, two32 in *; lia). lia. }
  assert (CN : counted r).
  { destruct (finished_indexed options faults h now w H) as (r2 & bs & HR2 & _ & HI & _). rewrite HR in HR2. apply ok_inj in HR2. subst r2.
    pose proof (v_index _ _ HI) as X1. pose proof (v_good _ _ HI) as X2. unfold counted. clear - X1 X2. revert X2.
    induction X1 as [|e b l l' H1 _ IH]; intros X2; constructor; inversion X2 as [|? ? G X3]; subst; [|apply IH; exact X3].
    destruct H1 as (_ & _ & _ & _ & _ & -> & _). destruct G as (_ & _ & G0 & G). unfold two32. split; [apply zlen_nonneg|]. unfold max_items in *. lia. }
  exists r, stop. split; [exact HR|]. pose proof (contiguous_range _ _ _ HC) as [Hge _].
  constructor; rewrite ?EO, ?ES, ?FS, ?EI, ?EC; try assumption; try lia; try reflexivity.
  assert (E4 : slice (bytes_of w) off 4 = le_bytes 4 (u32 (zlen (bm_ser b)))).
  { rewrite HD, slice_app_l by lia.
    transitivity (slice (slice X off (zlen (bitmap_bytes b))) 0 4); [rewrite slice_slice by lia; f_equal; lia|].
    rewrite HB. unfold bitmap_bytes. rewrite slice_app_l by (rewrite ?zlen_le_bytes; lia). apply slice_all; [reflexivity|]. rewrite zlen_le_bytes. reflexivity. }
  rewrite E4, le_val_4, !u32_id; [lia| |]; rewrite ?u32_id; unfold is_u32; lia.
Qed.

Section Shaped.
Variable data : list Z.
Variable r : reader.
Variable stop : Z.
Hypothesis HR : NewReader data = Ok r.
Hypothesis HS : shape data r stop.

Lemma shaped_entry e : In e (r_index r) -> 64 <= e_offset e /\ 80 < e_size e /\ e_offset e + e_size e <= stop.
Proof.
  intros He. destruct HS as [HC _ _ _ _ _ _ _ _ _]. pose proof (contiguous_range _ _ _ HC) as [_ G]. rewrite Forall_forall in G. specialize (G e He). lia.
Qed.
Lemma shaped_max : stop < two63 /\ footer_start r < two63 /\ 64 <= footer_start r /\ stop <= h_bitmapOffset (r_header r) /\ zlen (r_data r) = zlen data.
Proof.
  pose proof (zlen_nonneg (r_index r)). destruct HS as [_ ? ? _ ? ? ? _ _ _]. rewrite (NewReader_data _ _ HR). lia.
Qed.
Lemma shaped_block i : 0 <= i < BlockCount r -> snd (GetPairsT r i) = sections_of r i
  /\ exists e, nth_error (r_index r) (Z.to_nat i) = Some e /\ Forall (within (e_offset e) (e_offset e + e_size e)) (sections_of r i).
Proof.
  intros Hi. destruct (open_after data r HR) as (Ho & _). rewrite (sh_count _ _ _ HS) in Hi. pose proof (sh_few _ _ _ HS) as HF.
  assert (X : exists e, nth_error (r_index r) (Z.to_nat i) = Some e).
  { destruct (nth_error (r_index r) (Z.to_nat i)) eqn:E; [eauto|]. apply nth_error_None in E. unfold zlen in Hi. lia. }
  destruct X as [e He]. pose proof (shaped_entry e (nth_error_In _ _ He)) as (E1 & E2 & E3). destruct shaped_max as (M & _).
  split.
  - unfold GetPairsT. rewrite block_reads, i64_id by (unfold is_i64, two63, two32 in *; lia). unfold sections_of. rewrite He.
    destruct (Z.ltb_spec i 0); [lia|]. destruct (Z.geb_spec i (zlen (r_index r))); [lia|]. cbn [orb]. cbv zeta.
    rewrite (i64_id (e_offset e)) by (unfold is_i64; lia). rewrite i64_id by (unfold is_i64; lia). rewrite Ho.
    destruct (Z.leb_spec 0 (e_offset e + 64)); [|lia]. destruct (Z.ltb_spec 0 (e_size e - 64)); [|lia]. reflexivity.
  - exists e. split; [exact He|]. unfold sections_of. rewrite He. constructor; [|constructor]. unfold within. cbn [fst snd]. lia.
Qed.
Lemma shaped_candidates opts : flat_map (fun i => snd (GetPairsT r i)) (candidates r opts) = flat_map (sections_of r) (candidates r opts).
Proof.
  apply flat_map_same. intros i Hi. apply shaped_block. unfold candidates in Hi. apply filter_In in Hi. destruct Hi as [Hi _]. apply in_zseq in Hi. exact Hi.
Qed.
Lemma shaped_bitmap : snd (loadGlobalIDBitmapT r) = bitmap_reads r.
Proof.
  destruct (open_after data r HR) as (Ho & _). destruct shaped_max as (M1 & M2 & M3 & M4 & M5).
  unfold loadGlobalIDBitmapT, bitmap_reads. pose proof (sh_stop _ _ _ HS) as S1. pose proof (sh_size _ _ _ HS) as S2. pose proof (sh_len _ _ _ HS) as S3. pose proof (sh_footer _ _ _ HS) as S4.
  pose proof (sh_file _ _ _ HS) as S5. pose proof (sh_max _ _ _ HS) as S6. pose proof (zlen_nonneg (r_index r)) as NI.
  set (off := h_bitmapOffset (r_header r)) in *. set (size := h_bitmapSize (r_header r)) in *.
  destruct (Z.eqb_spec off 0); [lia|]. destruct (Z.eqb_spec size 0); [lia|]. cbn [orb]. cbv zeta.
  rewrite (i64_id off) by (unfold is_i64; lia). rewrite (i64_id (off + 4)) by (unfold is_i64; lia). rewrite (NewReader_data _ _ HR), Ho.
  assert (L4 : zlen (slice data off 4) = 4) by (rewrite zlen_slice by lia; lia).
  assert (E : readBytesAt data true off 4 = Ok (slice data off 4)).
  { unfold readBytesAt. cbn [Z.ltb Z.compare]. destruct (Z.ltb_spec off 0); [lia|]. cbn [Z.eqb negb].
    destruct (Z.gtb_spec (off + 4) max_int64); [unfold max_int64, two63 in *; lia|]. cbn zeta. rewrite L4.
    change (zeros (4 - 4)) with (@nil Z). f_equal. apply app_nil_r. }
  assert (E2 : readBufferedUint32 (slice data off 4) 0 = Ok (size - 4)).
  { unfold readBufferedUint32, readBuffered. rewrite L4. change ((0 <? 0) || (0 + 4 >? 4)) with false. cbn iota. rewrite <- S3. f_equal. f_equal.
    apply slice_all; [reflexivity|]. rewrite L4. reflexivity. }
  unfold tbind at 1. unfold readBytesT at 1. cbn [fst snd]. rewrite E. unfold tbind at 1. cbn [plain fst snd]. rewrite E2.
  unfold tbind at 1. cbn [plain fst snd]. unfold readBytesT. cbn [fst snd app].
  replace (0 <=? off) with true by (symmetry; apply Z.leb_le; lia). replace (0 <=? off + 4) with true by (symmetry; apply Z.leb_le; lia). cbn [Z.ltb Z.compare andb app]. f_equal.
  assert (EE : (if (0 <? size - 4) && true then [(off + 4, size - 4)] else []) = if size - 4 =? 0 then [] else [(off + 4, size - 4)]).
  { destruct (Z.ltb_spec 0 (size - 4)), (Z.eqb_spec (size - 4) 0); try lia; reflexivity. }
  rewrite snd_quiet by reflexivity. exact EE.
Qed.

Lemma all_sections (l : list footerEntry) : forall k pre, length pre = k ->
  flat_map (fun i => match nth_error (pre ++ l) (Z.to_nat i) with Some e => [(e_offset e + 64, e_size e - 64)] | None => [] end) (map Z.of_nat (seq k (length l)))
  = map (fun e => (e_offset e + 64, e_size e - 64)) l.
Proof using.
  induction l as [|e l IH]; intros k pre Hk; [reflexivity|]. cbn [length seq map flat_map]. rewrite Nat2Z.id, nth_error_app2 by lia.
  rewrite Hk, Nat.sub_diag. cbn [nth_error app]. f_equal. rewrite <- (IH (S k) (pre ++ [e])) by (rewrite app_length; cbn; lia). rewrite <- app_assoc. reflexivity.
Qed.
Lemma sections_map : flat_map (sections_of r) (zseq (BlockCount r)) = map (fun e => (e_offset e + 64, e_size e - 64)) (r_index r).
Proof. rewrite (sh_count _ _ _ HS). unfold zseq, zlen. rewrite Nat2Z.id. apply (all_sections (r_index r) 0 []). reflexivity. Qed.
Lemma FOP_app {A} (R : A -> A -> Prop) l1 l2 : ForallOrdPairs R l1 -> ForallOrdPairs R l2 -> (forall x y, In x l1 -> In y l2 -> R x y) -> ForallOrdPairs R (l1 ++ l2).
Proof using.
  induction l1 as [|a l1 IH]; intros H1 H2 HX; cbn [app]; [exact H2|]. inversion H1; subst. constructor.
  - apply Forall_app. split; [assumption|]. apply Forall_forall. intros y Hy. apply HX; [left; reflexivity|exact Hy].
  - apply IH; [assumption|assumption|]. intros x y Hx Hy. apply HX; [right; exact Hx|exact Hy].
Qed.
Lemma contiguous_parts p es q : contiguous p es q ->
  ForallOrdPairs apart (map (fun e => (e_offset e + 64, e_size e - 64)) es)
  /\ bytes_read (map (fun e => (e_offset e + 64, e_size e - 64)) es) = q - p - 64 * zlen es.
Proof using.
  induction 1 as [p|p e es q E1 E2 _ HC [I1 I2]]; [split; [constructor|cbn; lia]|]. cbn [map]. split.
  - constructor; [|exact I1]. pose proof (contiguous_range _ _ _ HC) as [_ G]. apply Forall_forall. intros x Hx. apply in_map_iff in Hx.
    destruct Hx as (e' & <- & He). rewrite Forall_forall in G. specialize (G e' He). unfold apart. cbn [fst snd]. lia.
  - unfold bytes_read in *. cbn [map zsum fold_right snd]. rewrite zlen_cons. unfold zsum in I2. rewrite I2. lia.
Qed.
Lemma bytes_app l1 l2 : bytes_read (l1 ++ l2) = bytes_read l1 + bytes_read l2.
Proof using. unfold bytes_read. rewrite map_app. induction (map snd l1) as [|x l IH]; [reflexivity|]. cbn [app zsum fold_right] in *. unfold zsum in *. cbn [fold_right]. lia. Qed.
Lemma shaped_parts : Forall (within 0 (zlen data)) (all_parts r) /\ ForallOrdPairs apart (all_parts r) /\ bytes_read (all_parts r) <= zlen data.
Proof.
  destruct shaped_max as (M1 & M2 & M3 & M4 & M5). pose proof (sh_stop _ _ _ HS) as S1. pose proof (sh_size _ _ _ HS) as S2. pose proof (sh_footer _ _ _ HS) as S4.
  pose proof (sh_file _ _ _ HS) as S5. pose proof (sh_blocks _ _ _ HS) as SB. pose proof (zlen_nonneg (r_index r)) as NI.
  destruct (contiguous_parts _ _ _ SB) as [P1 P2].
  unfold all_parts. rewrite sections_map. set (secs := map _ (r_index r)) in *.
  assert (IS : forall x, In x secs -> 64 <= fst x /\ 0 < snd x /\ fst x + snd x <= stop).
  { intros x Hx. apply in_map_iff in Hx. destruct Hx as (e & <- & He). pose proof (shaped_entry e He). cbn [fst snd]. lia. }
  assert (IB : forall x, In x (bitmap_reads r) -> stop <= fst x /\ 0 < snd x /\ fst x + snd x <= footer_start r).
  { intros x Hx. unfold bitmap_reads in Hx. cbn zeta in Hx. destruct Hx as [<-|Hx]; [cbn [fst snd]; lia|].
    destruct (Z.eqb_spec (h_bitmapSize (r_header r) - 4) 0); [destruct Hx|]. destruct Hx as [<-|[]]. cbn [fst snd]. lia. }
  assert (IO : forall x, In x (opening_reads r) -> 0 < snd x /\ (x = (0, 64) \/ footer_start r <= fst x) /\ 0 <= fst x /\ fst x + snd x <= zlen data).
  { intros x Hx. unfold opening_reads in Hx. rewrite M5 in Hx. cbn [app] in Hx.
    destruct Hx as [<-|[<-|[<-|Hx]]]; cbn [fst snd]; try (split; [lia|split; [auto; right; lia|lia]]).
    destruct (r_index r) as [|e l] eqn:EI; [destruct Hx|]. destruct Hx as [<-|[]]. cbn [fst snd]. rewrite zlen_cons in *. pose proof (zlen_nonneg l). split; [lia|]. split; [right; lia|lia]. }
  split; [|split].
  - apply Forall_app. split; [|apply Forall_app; split]; apply Forall_forall; intros x Hx; unfold within.
    + specialize (IO x Hx). lia.
    + specialize (IS x Hx). lia.
    + specialize (IB x Hx). lia.
  - apply FOP_app; [|apply FOP_app; [exact P1| |]|].
    + unfold opening_reads. rewrite M5. cbn [app]. destruct (r_index r) as [|e l] eqn:EI.
      * repeat match goal with |- ForallOrdPairs _ _ => constructor | |- Forall _ _ => constructor end; unfold apart; cbn [fst snd]; lia.
      * rewrite zlen_cons in *. pose proof (zlen_nonneg l).
        repeat match goal with |- ForallOrdPairs _ _ => constructor | |- Forall _ _ => constructor end; unfold apart; cbn [fst snd]; lia.
    + unfold bitmap_reads. cbn zeta. destruct (_ =? 0);
        repeat match goal with |- ForallOrdPairs _ _ => constructor | |- Forall _ _ => constructor end; unfold apart; cbn [fst snd]; lia.
    + intros x y Hx Hy. specialize (IS x Hx). specialize (IB y Hy). unfold apart. lia.
    + intros x y Hx Hy. destruct (IO x Hx) as (O1 & O2 & O3 & O4). unfold apart. apply in_app_or in Hy. destruct Hy as [Hy|Hy].
      * specialize (IS y Hy). destruct O2 as [->|O2]; cbn [fst snd] in *; lia.
      * specialize (IB y Hy). destruct O2 as [->|O2]; cbn [fst snd] in *; lia.
  - rewrite !bytes_app, P2.
    assert (EB : bytes_read (bitmap_reads r) = h_bitmapSize (r_header r)).
    { unfold bitmap_reads, bytes_read. cbn zeta. destruct (Z.eqb_spec (h_bitmapSize (r_header r) - 4) 0); cbn [map snd zsum fold_right]; unfold zsum; cbn [fold_right]; lia. }
    assert (EO : bytes_read (opening_reads r) = 92 + 56 * zlen (r_index r)).
    { unfold opening_reads. destruct (r_index r) as [|e l]; unfold bytes_read; cbn [app map snd]; unfold zsum; cbn [fold_right]; [unfold zlen; cbn [length]; lia|lia]. }
    rewrite EB, EO. lia.
Qed.
End Shaped.

Theorem finished_reads options faults h now w : finished_run options faults h now w -> never_finalized h ->
  exists r, NewReader (bytes_of w) = Ok r
    /\ snd (NewReaderT (bytes_of w)) = opening_reads r
    /\ (forall i, 0 <= i < BlockCount r -> snd (GetPairsT r i) = sections_of r i
          /\ exists e, nth_error (r_index r) (Z.to_nat i) = Some e /\ Forall (within (e_offset e) (e_offset e + e_size e)) (sections_of r i))
    /\ (forall hp, snd (GetGlobalIDBitmapT r hp) = bitmap_reads r)
    /\ (forall opts gomaxprocs sched x rs, AggregateWithOptionsT gomaxprocs sched r opts = (Some x, rs) ->
          (reads_data r opts -> Permutation rs (flat_map (sections_of r) (candidates r opts)))
          /\ (~ reads_data r opts -> rs = []))
    /\ Forall (within 0 (zlen (bytes_of w))) (all_parts r) /\ ForallOrdPairs apart (all_parts r)
    /\ bytes_read (all_parts r) <= zlen (bytes_of w).
Proof.
  intros H Hn. destruct (finished_shape options faults h now w H Hn) as (r & stop & HR & HS). exists r. split; [exact HR|].
  split; [apply opening; exact HR|]. split; [intros i Hi; eapply shaped_block; eassumption|].
  split. { intros hp. destruct (open_after _ r HR) as (_ & _ & Hc). rewrite bitmap_reads_load by exact Hc. eapply shaped_bitmap; eassumption. }
  split.
  - intros opts g sched x rs HX. split.
    + intros HU. rewrite <- (shaped_candidates _ r stop HR HS). destruct (open_after _ r HR) as (Ho & _).
      assert (FW : BlockCount r < 2 ^ 31) by (rewrite (sh_count _ _ _ HS); pose proof (sh_few _ _ _ HS); unfold two32 in *; lia).
      apply (aggregate_reads r opts Ho (counted_counts r (sh_counted _ _ _ HS))) with (g := g) (sched := sched) (x := x); try assumption.
      * apply Forall_forall. intros e He. pose proof (shaped_entry _ r stop HS e He). lia.
      * rewrite (sh_count _ _ _ HS). lia.
      * lia.
      * apply all_bound; [exact (sh_counted _ _ _ HS)|exact FW].
    + intros HU. pose proof (footer_reads_nothing r opts g sched HU) as E. rewrite HX in E. exact E.
  - eapply shaped_parts; eassumption.
Qed.
End Finished.
