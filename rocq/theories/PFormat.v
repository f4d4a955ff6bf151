(** C71, C72: the format document, column_format_spec.md. *)
From Verif Require Import Machine MachineFacts Encoding EncodingFacts FileIO Sroar SroarFacts Writer Spec Reader Aggregate Parallel
  FormatSpec FormatFacts FormatProps Examples PWriter.
Ltac Zify.zify_post_hook ::= Z.div_mod_to_equations.

(** C71: what the Writer leaves behind is a file as the document describes it, for the four
    encodings under which blocks read back (C07); no documented checksum is ever computed, the
    fields hold zero. *)
Theorem C71_files_follow_the_format : forall {Srr : Sroar} {Laws : SroarLaws Srr} options faults h now w,
  finished_run options faults h now w -> faithful (encoding_of options) ->
  exists b blocks, stored h blocks
    /\ conforms (bytes_of w) (target_of options) (encoding_of options) (u64 now) b blocks
    /\ format_limits (bytes_of w) blocks
    /\ (no_torn_block h -> forall id, is_u64 id -> bm_contains b id = true -> In id (flat_map fst blocks))
    /\ slice (bytes_of w) (zlen (bytes_of w) - 16) 8 = zeros 8
    /\ exists r, NewReader (bytes_of w) = Ok r /\ Forall (fun e => slice (bytes_of w) (e_offset e + 52) 8 = zeros 8) (r_index r).
Proof. exact @writer_follows_document. Qed.
Print Assumptions C71_files_follow_the_format.
Example C71_case : forall e, In e [0; 3; 4; 7] -> SroarLaws list_sroar
  /\ finished_run (sample_options e) [] (hist (sample_options e) [] sample_calls2) 12 (final (sample_options e) [] sample_calls2 12)
  /\ faithful (encoding_of (sample_options e)).
Proof.
  intros e He. split; [exact list_sroar_laws|]. split; [apply sample_finished; cbn in *; tauto|].
  destruct He as [<-|[<-|[<-|[<-|[]]]]]; vm_compute; tauto.
Qed.

(** C72: the Reader reads every such file, whoever wrote it: with the sections of a block in
    either order and with gaps, with varints longer than necessary, the bitmap anywhere, any
    bytes in the places that mean nothing. *)
Theorem C72_reads_every_conforming_file : forall {Srr : Sroar} {Laws : SroarLaws Srr} F target encoding time b blocks,
  conforms F target encoding time b blocks -> format_limits F blocks -> In encoding [0; 1; 2; 3; 4; 7] ->
  exists r, NewReader F = Ok r
    /\ RVersion r = 1 /\ EncodingType r = encoding /\ h_blockSizeTarget (r_header r) = target
    /\ h_creationTime (r_header r) = time /\ BlockCount r = zlen blocks
    /\ (forall i, is_u64 i ->
          GetPairs r i = match nth_error blocks (Z.to_nat i) with Some x => Ok x | None => Err ErrIndex end)
    /\ (forall hp, exists p r' hp' b', GetGlobalIDBitmap r hp = (Ok p, r', hp') /\ nth_error hp' p = Some b' /\ bm_equiv b' b)
    /\ forall gomaxprocs sched opts x, AggregateWithOptions gomaxprocs sched r opts = Some x ->
         (o_filter opts = None -> o_deny opts = None -> o_skip opts = false -> Forall no_min_stat blocks) ->
         exists res, x = Ok res /\ aggregate_of (chosen (o_filter opts) (o_deny opts) blocks) res.
Proof. exact @reader_follows_document. Qed.
Print Assumptions C72_reads_every_conforming_file.

(** ** Files made by hand *)
Definition fieldb (F : list Z) (f : Z * Z * Z) : bool :=
  let '(n, o, v) := f in (0 <=? o) && (o + n <=? zlen F) && (0 <=? v) && (v <? 2 ^ (8 * n)) && (le_val (slice F o n) =? v).
Lemma fieldb_sound F n o v : fieldb F (n, o, v) = true -> field n F o v.
Proof. unfold fieldb, field. rewrite !andb_true_iff. lia. Qed.

(** The fields of a file with one block and the bitmap [b]. *)
Definition one_block_fields (F : list Z) (target encoding time boff : Z) (b : list Z) (start : Z) (e : footerEntry) (io isz vo vsz : Z) : list (Z * Z * Z) :=
  [(8, 0, format_magic); (4, 8, 1); (4, 12, 0); (8, 16, 1); (4, 24, target); (4, 28, 0); (4, 32, encoding); (8, 36, time);
   (8, 44, boff); (8, 52, 4 + 8 * zlen b); (4, boff, 8 * zlen b);
   (8, e_offset e, e_minID e); (8, e_offset e + 8, e_maxID e); (8, e_offset e + 16, e_minValue e); (8, e_offset e + 24, e_maxValue e);
   (8, e_offset e + 32, e_sum e); (4, e_offset e + 40, e_count e); (4, e_offset e + 44, encoding); (4, e_offset e + 48, 0);
   (4, e_offset e + 64, io); (4, e_offset e + 68, isz); (4, e_offset e + 72, vo); (4, e_offset e + 76, vsz);
   (4, start, 1); (8, start + 4, e_offset e); (4, start + 4 + 8, e_size e); (8, start + 4 + 12, e_minID e); (8, start + 4 + 20, e_maxID e);
   (8, start + 4 + 28, e_minValue e); (8, start + 4 + 36, e_maxValue e); (8, start + 4 + 44, e_sum e); (4, start + 4 + 52, e_count e);
   (8, zlen F - 24, 60); (8, zlen F - 8, format_magic)].
Definition one_block_okb (F : list Z) (target encoding time boff : Z) (b : list Z) (start : Z) (e : footerEntry) (io isz vo vsz : Z) : bool :=
  forallb (fieldb F) (one_block_fields F target encoding time boff b start e io isz vo vsz)
  && (64 <=? boff) && (boff + (4 + 8 * zlen b) <=? zlen F)
  && (if list_eq_dec Z.eq_dec (slice F (boff + 4) (8 * zlen b)) (flat_map (le_bytes 8) b) then true else false)
  && (64 <=? start) && (zlen F =? start + 84)
  && (64 <=? e_offset e) && (e_offset e + e_size e <=? zlen F) && (80 + io + isz <=? e_size e) && (80 + vo + vsz <=? e_size e).
Lemma ser_len b : zlen (flat_map (le_bytes 8) b) = 8 * zlen b.
Proof. induction b as [|x b IH]; [reflexivity|]. cbn [flat_map]. rewrite zlen_app, zlen_le_bytes, zlen_cons, IH. lia. Qed.
Lemma one_block_sound F target encoding time boff b start e io isz vo vsz x :
  one_block_okb F target encoding time boff b start e io isz vo vsz = true ->
  id_section encoding (fst x) (slice F (e_offset e + 80 + io) isz) -> val_section encoding (snd x) (slice F (e_offset e + 80 + vo) vsz) ->
  true_entry x e -> (forall id, In id (fst x) -> In id b) -> Forall is_u64 b ->
  @conforms list_sroar F target encoding time b [x].
Proof.
  unfold one_block_okb. rewrite !andb_true_iff, !Z.leb_le, Z.eqb_eq.
  intros (((((((((HF & H1) & H2) & H3) & H4) & H5) & H6) & H7) & H8) & H9) SI SV T HB HU.
  assert (HF' : forall n o v, In (n, o, v) (one_block_fields F target encoding time boff b start e io isz vo vsz) -> field n F o v).
  { intros n o v Hin. apply fieldb_sound. rewrite forallb_forall in HF. apply HF. exact Hin. }
  clear HF. unfold one_block_fields in HF'.
  destruct (list_eq_dec Z.eq_dec (slice F (boff + 4) (8 * zlen b)) (flat_map (le_bytes 8) b)) as [HS|]; [|discriminate H3].
  assert (Ls : zlen (@bm_ser list_sroar b) = 8 * zlen b) by apply ser_len.
  pose proof (zlen_nonneg b) as Nb.
  exists boff, (4 + 8 * zlen b), start, [e]. split; [|split; [|split; [|split]]].
  - constructor; try (apply HF'; cbn [In]; tauto). lia.
  - unfold bitmap_at. rewrite Ls. split; [lia|]. split; [lia|]. split; [lia|]. split; [apply HF'; cbn [In]; tauto|exact HS].
  - cbn [flat_map]. rewrite app_nil_r. intros id Hid. apply HB in Hid. cbn [bm_contains list_sroar]. apply existsb_exists. exists id.
    split; [exact Hid|]. rewrite u64_id by (rewrite Forall_forall in HU; apply HU; exact Hid). apply Z.eqb_refl.
  - constructor.
    + lia.
    + change (zlen [e]) with 1. lia.
    + change (zlen [e]) with 1. apply HF'; cbn [In]; tauto.
    + intros i en Hi. destruct i as [|[|i]]; cbn in Hi; [|discriminate|discriminate]. injection Hi as <-. rewrite Z.add_0_r.
      constructor; apply HF'; cbn [In]; tauto.
    + change (4 + 56 * zlen [e]) with 60. apply HF'; cbn [In]; tauto.
    + apply HF'; cbn [In]; tauto.
  - constructor; [|constructor]. split; [exact T|]. split; [constructor; apply HF'; cbn [In]; tauto|].
    unfold block_at. split; [lia|]. split; [lia|]. exists io, isz, vo, vsz.
    repeat (split; [apply HF'; cbn [In]; tauto|]). split; [lia|]. split; [lia|]. split; assumption.
Qed.

(** Such a file, made of the given sections: the bitmap comes first, in each block the values come
    first, then three bytes that mean nothing, then the IDs. *)
Definition foreign_entry (ids idb vb : list Z) (mn mx sum : Z) : footerEntry :=
  mkEntry (68 + 8 * zlen ids) (83 + zlen idb + zlen vb) (fst (calculateMinMax ids)) (snd (calculateMinMax ids)) mn mx sum (zlen ids).
Definition foreign (encoding : Z) (ids idb vb : list Z) (mn mx sum : Z) : list Z :=
  le_bytes 8 format_magic ++ le_bytes 4 1 ++ le_bytes 4 0 ++ le_bytes 8 1 ++ le_bytes 4 0 ++ le_bytes 4 0 ++ le_bytes 4 encoding
  ++ le_bytes 8 99 ++ le_bytes 8 64 ++ le_bytes 8 (4 + 8 * zlen ids) ++ [7; 7; 7; 7]
  ++ le_bytes 4 (8 * zlen ids) ++ flat_map (le_bytes 8) ids
  ++ le_bytes 8 (fst (calculateMinMax ids)) ++ le_bytes 8 (snd (calculateMinMax ids)) ++ le_bytes 8 mn ++ le_bytes 8 mx ++ le_bytes 8 sum
  ++ le_bytes 4 (zlen ids) ++ le_bytes 4 encoding ++ le_bytes 4 0 ++ [1; 2; 3; 4; 5; 6; 7; 8; 9; 10; 11; 12]
  ++ le_bytes 4 (zlen vb + 3) ++ le_bytes 4 (zlen idb) ++ le_bytes 4 0 ++ le_bytes 4 (zlen vb) ++ vb ++ [255; 255; 255] ++ idb
  ++ le_bytes 4 1 ++ le_bytes 8 (68 + 8 * zlen ids) ++ le_bytes 4 (83 + zlen idb + zlen vb)
  ++ le_bytes 8 (fst (calculateMinMax ids)) ++ le_bytes 8 (snd (calculateMinMax ids)) ++ le_bytes 8 mn ++ le_bytes 8 mx ++ le_bytes 8 sum ++ le_bytes 4 (zlen ids)
  ++ le_bytes 8 60 ++ [8; 7; 6; 5; 4; 3; 2; 1] ++ le_bytes 8 format_magic.
Definition foreign_okb (encoding : Z) (ids idb vb : list Z) (mn mx sum : Z) : bool :=
  let F := foreign encoding ids idb vb mn mx sum in
  one_block_okb F 0 encoding 99 64 ids (zlen F - 84) (foreign_entry ids idb vb mn mx sum) (zlen vb + 3) (zlen idb) 0 (zlen vb)
  && (if list_eq_dec Z.eq_dec (slice F (68 + 8 * zlen ids + 80 + (zlen vb + 3)) (zlen idb)) idb then true else false)
  && (if list_eq_dec Z.eq_dec (slice F (68 + 8 * zlen ids + 80 + 0) (zlen vb)) vb then true else false).
Lemma foreign_sound encoding ids vals idb vb mn mx sum : foreign_okb encoding ids idb vb mn mx sum = true ->
  id_section encoding ids idb -> val_section encoding vals vb ->
  true_entry (ids, vals) (foreign_entry ids idb vb mn mx sum) -> Forall is_u64 ids ->
  @conforms list_sroar (foreign encoding ids idb vb mn mx sum) 0 encoding 99 ids [(ids, vals)].
Proof.
  unfold foreign_okb. cbv zeta. rewrite !andb_true_iff. intros [[H1 H2] H3] SI SV T HU.
  destruct (list_eq_dec Z.eq_dec _ idb) as [E1|]; [|discriminate H2]. destruct (list_eq_dec Z.eq_dec _ vb) as [E2|]; [|discriminate H3].
  eapply one_block_sound; [exact H1| | |exact T|auto|exact HU]; cbn [fst snd foreign_entry e_offset].
  - rewrite E1. exact SI.
  - rewrite E2. exact SV.
Qed.

(** The block [3; 7], [10; -30]: what its index entry must say. *)
Lemma foreign_true idb vb : true_entry ([3; 7], [10; -30]) (foreign_entry [3; 7] idb vb (two63 + 30) 10 (two63 + 20)).
Proof.
  unfold true_entry, foreign_entry. cbn [fst snd e_minID e_maxID e_minValue e_maxValue e_sum e_count].
  split; [split; [vm_compute; tauto|]|]. { intros y [<-|[<-|[]]]; vm_compute; discriminate. }
  split; [split; [vm_compute; tauto|]|]. { intros y [<-|[<-|[]]]; vm_compute; discriminate. }
  split; [exists (-30); split; [split; [vm_compute; tauto|]|reflexivity]|]. { intros y [<-|[<-|[]]]; lia. }
  split; [exists 10; split; [split; [vm_compute; tauto|]|reflexivity]|]. { intros y [<-|[<-|[]]]; lia. }
  split; [reflexivity|]. split; reflexivity.
Qed.
Lemma base128_2 low v bs x : x = 128 + low -> 0 <= low < 128 -> base128 v bs -> base128 (low + 128 * v) (x :: bs).
Proof. intros ->. apply base128_more. Qed.
(** 3 and 7, the first with a group too many; then the differences 3 and 4; then the zigzag
    numbers of 10 and -30. *)
Lemma varints_3_7 : varints [3; 7] [131; 0; 7].
Proof.
  exists [[131; 0]; [7]]. split; [reflexivity|]. split; [|repeat constructor; vm_compute; discriminate].
  constructor; [|constructor; [|constructor]]; [|apply base128_last; lia].
  change 3 with (3 + 128 * 0). apply base128_2; [reflexivity|lia|]. apply base128_last. lia.
Qed.
Lemma varints_3_4 : varints [3; 4] [3; 4].
Proof.
  exists [[3]; [4]]. split; [reflexivity|]. split; [|repeat constructor; vm_compute; discriminate].
  repeat constructor; lia.
Qed.
Lemma varints_20_59 : varints [20; 59] [20; 187; 128; 0].
Proof.
  exists [[20]; [187; 128; 0]]. split; [reflexivity|]. split; [|repeat constructor; vm_compute; discriminate].
  constructor; [apply base128_last; lia|constructor; [|constructor]].
  change 59 with (59 + 128 * (0 + 128 * 0)). apply base128_2; [reflexivity|lia|]. apply base128_2; [reflexivity|lia|]. apply base128_last. lia.
Qed.
Lemma foreign_limits F : zlen F < 2 ^ 63 -> format_limits F [([3; 7], [10; -30])].
Proof.
  intros H. split; [exact H|]. split; [reflexivity|]. constructor; [|constructor]. split; [|split; [reflexivity|discriminate]].
  unfold typed_block, is_u64, is_i64, two64, two63, max_items. cbn [fst snd]. repeat split; repeat constructor; try lia; vm_compute; discriminate.
Qed.

Example C72_case : exists F, @conforms list_sroar F 0 EncodingVarInt 99 [3; 7] [([3; 7], [10; -30])]
  /\ format_limits F [([3; 7], [10; -30])] /\ In EncodingVarInt [0; 1; 2; 3; 4; 7].
Proof.
  exists (foreign EncodingVarInt [3; 7] [131; 0; 7] [20; 187; 128; 0] (two63 + 30) 10 (two63 + 20)).
  split; [|split; [apply foreign_limits; vm_compute; reflexivity|cbn; tauto]].
  apply foreign_sound; [vm_compute; reflexivity|exact varints_3_7|exact varints_20_59|apply foreign_true|].
  repeat constructor; vm_compute; discriminate || reflexivity.
Qed.

(** The other two encodings: the Reader does not read them as documented.  A conforming file with
    one block is opened without an error, and another block is read. *)
Definition half_file (e : Z) : list Z :=
  if e =? 5 then foreign 5 [3; 7] [3; 4] (concat (map (le_bytes 8) [10; -30])) (two63 + 30) 10 (two63 + 20)
  else foreign 6 [3; 7] (concat (map (le_bytes 8) [3; 7])) [20; 79] (two63 + 30) 10 (two63 + 20).
Definition misread (F : list Z) (b : list Z * list Z) : bool :=
  match NewReader F with Ok r => differs (GetPairs r 0) b | _ => false end.
Lemma misread_sound F b : misread F b = true -> exists r got, NewReader F = Ok r /\ GetPairs r 0 = Ok got /\ got <> b.
Proof.
  unfold misread. destruct (NewReader F) as [r| |]; try discriminate. destruct (GetPairs r 0) as [got| |] eqn:E; cbn [differs]; try discriminate.
  intros H. exists r, got. split; [reflexivity|]. split; [exact E|]. intros ->. unfold differs in H. destruct b as [i v]. cbn [fst snd] in H.
  destruct (list_eq_dec Z.eq_dec i i) as [_|N]; [|contradiction]. destruct (list_eq_dec Z.eq_dec v v) as [_|N]; [|contradiction]. discriminate.
Qed.
Theorem C72_half_varint_refuted : forall e, e = EncodingVarIntID \/ e = EncodingVarIntValue ->
  exists F b blocks, @conforms list_sroar F 0 e 99 b blocks /\ format_limits F blocks
    /\ exists x r got, nth_error blocks 0 = Some x /\ NewReader F = Ok r /\ GetPairs r 0 = Ok got /\ got <> x.
Proof.
  intros e He. exists (half_file e), [3; 7], [([3; 7], [10; -30])]. split; [|split].
  - assert (U : Forall is_u64 [3; 7]) by (repeat constructor; vm_compute; discriminate || reflexivity).
    destruct He as [-> | ->]; (apply foreign_sound; [vm_compute; reflexivity| | |apply foreign_true|exact U]).
    + exact varints_3_4.
    + reflexivity.
    + reflexivity.
    + exists [[20]; [79]]. split; [reflexivity|]. split; [|repeat constructor; vm_compute; discriminate].
      constructor; [apply base128_last; lia|constructor; [|constructor]]. apply base128_last. vm_compute. split; [discriminate|reflexivity].
  - apply foreign_limits. destruct He as [-> | ->]; vm_compute; reflexivity.
  - destruct (misread_sound (half_file e) ([3; 7], [10; -30])) as (r & got & H1 & H2 & H3).
    + destruct He as [-> | ->]; vm_compute; reflexivity.
    + exists ([3; 7], [10; -30]), r, got. split; [reflexivity|]. split; [exact H1|]. split; [exact H2|exact H3].
Qed.
Print Assumptions C72_half_varint_refuted.

(** ... and the Writer does not write delta-ID and delta-value as documented: a file that follows
    the document holds no block in which that would show. *)
Theorem C71_single_delta_shows : forall {Srr : Sroar} {Laws : SroarLaws Srr} options faults h now w,
  finished_run options faults h now w -> 
  encoding_of options = EncodingDeltaID \/ encoding_of options = EncodingDeltaValue ->
  exists blocks, stored h blocks
    /\ forall target time b, conforms (bytes_of w) target (encoding_of options) time b blocks ->
         Forall (fun x => Forall (fun n => n = 0)
                   (removelast (if encoding_of options =? EncodingDeltaID then snd x else fst x))) blocks.
Proof. exact @single_delta_shows. Qed.
Print Assumptions C71_single_delta_shows.
Theorem C71_single_delta_refuted : forall e, e = EncodingDeltaID \/ e = EncodingDeltaValue ->
  exists h now w, finished_run [WithEncoding e] [] h now w /\ h = [(CWriteBlock [1; 2] [10; 30], Ok 0)]
    /\ forall blocks target time b, stored h blocks -> ~ @conforms list_sroar (bytes_of w) target e time b blocks.
Proof.
  intros e He.
  assert (HF : check_finished [WithEncoding e] [] [CWriteBlock [1; 2] [10; 30]] 5 = true) by (destruct He as [-> | ->]; vm_compute; reflexivity).
  assert (HH : hist [WithEncoding e] [] [CWriteBlock [1; 2] [10; 30]] = [(CWriteBlock [1; 2] [10; 30], Ok 0)])
    by (destruct He as [-> | ->]; vm_compute; reflexivity).
  apply check_finished_sound in HF. rewrite HH in HF. generalize dependent (final [WithEncoding e] [] [CWriteBlock [1; 2] [10; 30]] 5). intros w HF.
  eexists _, 5, w. split; [exact HF|]. split; [reflexivity|]. intros blocks target time b Hs HC.
  assert (Ee : encoding_of [WithEncoding e] = e) by reflexivity.
  destruct (C71_single_delta_shows _ _ _ _ _ HF) as (blocks' & Hs' & HN).
  { rewrite Ee. exact He. }
  assert (U : forall bl, stored [(CWriteBlock [1; 2] [10; 30], Ok 0)] bl -> bl = [([1; 2], [10; 30])]).
  { intros bl H. inversion H as [|c r h' b1 b2 H1 H2]; subst. inversion H2; subst. inversion H1; subst; [reflexivity|]. exfalso. congruence. }
  apply U in Hs. apply U in Hs'. subst blocks blocks'. apply HN in HC. inversion HC as [|x l HX _]; subst. rewrite Ee in HX.
  destruct He as [-> | ->]; cbn in HX; inversion HX; discriminate.
Qed.
Print Assumptions C71_single_delta_refuted.
