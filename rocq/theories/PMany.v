(** Several files read together, whatever they contain (C75).  Only statements and
    concrete cases; proofs are in ManyFacts.v. *)
From Verif Require Import Machine Encoding FileIO Sroar SroarFacts Writer Reader Aggregate Multi Spec SimpleSpec MultiSpec AnySpec FormatSpec ManySpec
  MachineFacts ArbFacts AnyFacts ManyFacts Examples PAggregate PReader PMulti PFormat PAny.

(** C75: readers on any bytes that the reader accepts, oldest first, whose bitmaps can be
    read, in any state of their caches: Aggregate succeeds with the aggregate of exactly
    those pairs of the readable blocks whose ID is in the allow set (if there is one) and in
    no newer file's bitmap - leaving out only blocks whose ID range in the index does not
    meet the allow set. *)
Theorem C75_any_files : forall {Srr : Sroar} {Laws : SroarLaws Srr} datas rs0 bitmaps rs hp own opts,
  Forall2 opened_on datas rs0 -> Forall2 announces rs0 bitmaps -> session rs0 rs hp own ->
  zlen (flat_map (counted_pairs (mo_filter opts)) rs0) < two63 ->
  exists res rs' hp' new, MultiAggregate opts rs hp = (Ok res, rs', hp') /\ hp' = hp ++ new
    /\ aggregate_of (map snd (filter (allowed (mo_filter opts)) (shown (combine (map (counted_pairs (mo_filter opts)) rs0) bitmaps)))) res.
Proof. exact @many_files. Qed.
Print Assumptions C75_any_files.

(** If there is no allow set, or the ID ranges in the indexes are true of the readable
    blocks, no readable block is left out. *)
Theorem C75_exact : forall {Srr : Sroar} {Laws : SroarLaws Srr} datas rs0 bitmaps rs hp own opts,
  Forall2 opened_on datas rs0 -> Forall2 announces rs0 bitmaps -> session rs0 rs hp own ->
  mo_filter opts = None \/ Forall ranges_true rs0 ->
  zlen (flat_map (counted_pairs (mo_filter opts)) rs0) < two63 ->
  exists res rs' hp' new, MultiAggregate opts rs hp = (Ok res, rs', hp') /\ hp' = hp ++ new
    /\ aggregate_of (map snd (filter (allowed (mo_filter opts)) (shown (combine (map readable_pairs rs0) bitmaps)))) res.
Proof. exact @many_files_exact. Qed.
Print Assumptions C75_exact.

(** If the bitmap of some file cannot be read, there is no answer. *)
Theorem C75_needs_every_bitmap : forall {Srr : Sroar} datas rs0 rs hp own opts res,
  Forall2 opened_on datas rs0 -> session rs0 rs hp own ->
  fst (fst (MultiAggregate opts rs hp)) = Ok res -> Forall (fun r => exists b, announces r b) rs0.
Proof. exact @many_need_bitmaps. Qed.
Print Assumptions C75_needs_every_bitmap.

(** Files written by this library may be mixed with files that follow the format document,
    whoever wrote them: the newest file wins. *)
Theorem C75_mixed_files : forall {Srr : Sroar} {Laws : SroarLaws Srr} rs0 files rs hp own opts,
  Forall2 (fun r pairs => file_with r pairs \/ foreign_with r pairs) rs0 files -> session rs0 rs hp own -> zlen (concat files) < two63 ->
  exists res rs' hp' new, MultiAggregate opts rs hp = (Ok res, rs', hp') /\ hp' = hp ++ new
    /\ aggregate_of (map snd (filter (allowed (mo_filter opts)) (visible files))) res.
Proof. exact @mixed_newest_wins. Qed.
Print Assumptions C75_mixed_files.

(** ** Cases *)
Definition announcesb (r : reader) (b : list Z) : bool :=
  match GetGlobalIDBitmap r [] with
  | (Ok p, _, hp) => match nth_error hp p with Some b' => if list_eq_dec Z.eq_dec b' b then true else false | None => false end
  | _ => false
  end.
Lemma announcesb_sound r b : announcesb r b = true -> @announces list_sroar r b.
Proof.
  unfold announcesb, announces. destruct (GetGlobalIDBitmap r []) as [[[p| |] r'] hp]; try discriminate.
  intros H. exists p, r', hp. split; [reflexivity|]. destruct (nth_error hp p) as [b'|]; [|discriminate].
  destruct (list_eq_dec Z.eq_dec b' b) as [->|]; [reflexivity|discriminate].
Qed.
(** A file with the pair (7, 9), a bitmap after its block, and a header that places the
    bitmap where one likes. *)
Definition crafted_with (bitmapOffset : Z) (bitmap : list Z) : list Z :=
  let body := craft_block (le_bytes 8 7) (le_bytes 8 9) in
  let footer := craft_footer [craft_claim 64 96 7 7 9 9 9 1] in
  let b := le_bytes 4 (zlen bitmap) ++ bitmap in
  le_bytes 8 MagicNumber ++ le_bytes 4 Version ++ le_bytes 4 0 ++ le_bytes 8 1 ++ le_bytes 4 4096 ++ le_bytes 4 0 ++ le_bytes 4 0 ++ le_bytes 8 0
  ++ le_bytes 8 bitmapOffset ++ le_bytes 8 (zlen b) ++ zeros 4 ++ body ++ b ++ footer.
Definition lying_file : list Z := crafted_with 160 (@bm_ser list_sroar [5]).
Definition lying_reader : reader := opened (NewReader lying_file).
Definition broken_file : list Z := crafted_with (2 ^ 63) (@bm_ser list_sroar [5]).
Definition broken_reader : reader := opened (NewReader broken_file).

Lemma opened_onb data r : bytesb data = true -> NewReader data = Ok r -> sizesb r = true -> BlockCount r <=? 2 ^ 42 = true -> opened_on data r.
Proof.
  intros H1 H2 H3 H4. split; [apply bytesb_sound; exact H1|]. split; [exact H2|]. split; [apply sizesb_sound; exact H3|]. apply Z.leb_le. exact H4.
Qed.
(** Oldest first: the file with odd claims, which has no bitmap, and a file that holds ID 7
    but announces ID 5.  The older 7s are not hidden. *)
Example C75_case :
  Forall2 opened_on [odd_file; lying_file] [odd_reader; lying_reader]
  /\ Forall2 (@announces list_sroar) [odd_reader; lying_reader] [[]; [5]]
  /\ shown (combine (map (@counted_pairs list_sroar None) [odd_reader; lying_reader]) [[]; [5]]) = [(7, 9); (7, 9); (7, 9)]
  /\ shown (combine (map (@counted_pairs list_sroar (Some [7])) [odd_reader; lying_reader]) [[]; [5]]) = [(7, 9); (7, 9)]
  /\ counts (fst (fst (MultiAggregate (mkMOpts false None) [odd_reader; lying_reader] []))) = Some (3, 9, 9, 27)
  /\ counts (fst (fst (MultiAggregate (mkMOpts false (Some [7])) [odd_reader; lying_reader] []))) = Some (2, 9, 9, 18).
Proof.
  split.
  { constructor; [|constructor; [|constructor]]; (apply opened_onb; [vm_compute; reflexivity| |vm_compute; reflexivity|vm_compute; reflexivity]).
    - unfold odd_reader. apply opened_ok. vm_compute. reflexivity.
    - unfold lying_reader. apply opened_ok. vm_compute. reflexivity. }
  split; [constructor; [|constructor; [|constructor]]; apply announcesb_sound; vm_compute; reflexivity|].
  split; [vm_compute; reflexivity|]. split; [vm_compute; reflexivity|]. split; vm_compute; reflexivity.
Qed.

(** The claim that the newest file wins on all files that the reader accepts is therefore
    false: a file need not have a bitmap, nor a true one. *)
Theorem C75_newest_wins_refuted : exists datas rs res, Forall2 opened_on datas rs
  /\ fst (fst (MultiAggregate (mkMOpts false None) rs [])) = Ok res
  /\ a_count res <> zlen (visible (map readable_pairs rs)).
Proof.
  destruct C75_case as (A & _). exists [odd_file; lying_file], [odd_reader; lying_reader]. eexists. split; [exact A|].
  split; [vm_compute; reflexivity|]. vm_compute. discriminate.
Qed.
Print Assumptions C75_newest_wins_refuted.

(** One file with an unreadable bitmap spoils every answer. *)
Example C75_needs_case : Forall2 opened_on [odd_file; broken_file] [odd_reader; broken_reader]
  /\ counts (fst (fst (MultiAggregate (mkMOpts false None) [odd_reader; broken_reader] []))) = None
  /\ counts (aggregateSequential broken_reader (mkOpts true None None 0)) = Some (1, 9, 9, 9).
Proof.
  split; [|split; vm_compute; reflexivity].
  constructor; [|constructor; [|constructor]]; (apply opened_onb; [vm_compute; reflexivity| |vm_compute; reflexivity|vm_compute; reflexivity]).
  - unfold odd_reader. apply opened_ok. vm_compute. reflexivity.
  - unfold broken_reader. apply opened_ok. vm_compute. reflexivity.
Qed.

(** A foreign varint file with longer varints than this library writes, between the two of
    C27_case. *)
Definition foreign_file : list Z := foreign EncodingVarInt [3; 7] [131; 0; 7] [20; 187; 128; 0] (two63 + 30) 10 (two63 + 20).
Definition foreign_reader : reader := opened (NewReader foreign_file).
Lemma foreign_file_with : @foreign_with list_sroar foreign_reader [(3, 10); (7, -30)].
Proof.
  exists foreign_file, 0, EncodingVarInt, 99, [3; 7], [([3; 7], [10; -30])].
  split; [|split; [apply foreign_limits; vm_compute; reflexivity|split; [cbn; tauto|split; [|split; [|reflexivity]]]]].
  - apply foreign_sound; [vm_compute; reflexivity|exact varints_3_7|exact varints_20_59|apply foreign_true|].
    repeat constructor; vm_compute; discriminate || reflexivity.
  - intros id _ H. apply contains_in in H. exact H.
  - unfold foreign_reader. apply opened_ok. vm_compute. reflexivity.
Qed.
Lemma Forall2_two {A B} (R : A -> B -> Prop) a a' b b' : Forall2 R [a; a'] [b; b'] -> R a b /\ R a' b'.
Proof. intros H. inversion H as [|? ? ? ? H1 H2]; subst. inversion H2; subst. split; assumption. Qed.
Example C75_mixed_case :
  Forall2 (fun r pairs => file_with r pairs \/ foreign_with r pairs) [agg_reader; foreign_reader; s_reader]
    [[(5, 10); (2, -3); (7, 4)]; [(3, 10); (7, -30)]; [(9, -5); (2, 7); (4, 1); (4, max_int64)]]
  /\ visible [[(5, 10); (2, -3); (7, 4)]; [(3, 10); (7, -30)]; [(9, -5); (2, 7); (4, 1); (4, max_int64)]]
     = [(5, 10); (3, 10); (7, -30); (9, -5); (2, 7); (4, 1); (4, max_int64)]
  /\ counts (fst (fst (MultiAggregate (mkMOpts false (Some [2; 3; 5; 7])) [agg_reader; foreign_reader; s_reader] []))) = Some (4, -30, 10, -3).
Proof.
  destruct (Forall2_two _ _ _ _ _ two_readers) as [T1 T3].
  split; [|split; [reflexivity|vm_compute; reflexivity]].
  constructor; [left; exact T1|]. constructor; [right; exact foreign_file_with|]. constructor; [left; exact T3|constructor].
Qed.
