(** Readers and MultiReaders shared by goroutines (C76).  Only statements and concrete
    cases; proofs are in SharedMultiFacts.v. *)
From Verif Require Import Machine MachineFacts Encoding FileIO Sroar SroarFacts Writer Reader Aggregate Multi Shared SharedMulti
  Spec SimpleSpec MultiSpec SharedSpec AnySpec FormatSpec ManySpec SharedMultiSpec
  ArbFacts MultiFacts ManyFacts SharedFacts SharedMultiFacts Examples PAggregate PMulti PMerge PShared.

Section Props.
Context {Srr : Sroar}.

Lemma all_open datas rs : Forall2 (fun data r => NewReader data = Ok r) datas rs -> Forall (fun r => r_open r = true) rs /\ Forall fresh rs.
Proof.
  intros F. induction F as [|data r l l' H _ [IH1 IH2]]; [split; constructor|]. destruct (opens_fresh _ _ H) as (H1 & _).
  split; constructor; auto. eapply opened_fresh. exact H.
Qed.
Lemma may_all cl dis en programs : (cl = true \/ nobody closes programs) -> (dis = true \/ nobody disables programs) -> (en = true \/ nobody enables programs) ->
  Forall (mmay cl dis en) (concat programs).
Proof.
  intros H1 H2 H3. apply Forall_forall. intros c Hc. split; [|split]; intros X; [destruct H1 as [E|E]|destruct H2 as [E|E]|destruct H3 as [E|E]];
    try exact E; destruct (E c Hc X).
Qed.
Lemma answers_of rs cl dis en programs sched ts w : Forall (fun r => r_open r = true) rs -> Forall fresh rs ->
  Forall (mmay cl dis en) (concat programs) -> all_together rs programs sched = (ts, w) ->
  forall t c a, In t ts -> In (c, a) (m_log t) -> right_manswer rs (w_heap w) c a \/ disturbed rs cl dis en c a.
Proof.
  intros H1 H2 H3 HT t c a Ht Hc. pose proof (all_answers rs H1 H2 cl dis en programs sched H3) as T. rewrite HT in T.
  rewrite Forall_forall in T. specialize (T t Ht). rewrite Forall_forall in T. exact (T (c, a) Hc).
Qed.

(** Any number of goroutines make any calls - methods of any of the readers, or Aggregate
    of MultiReaders over any of them, which may have readers in common - interleaved in
    any way at every access to what they share: every answer is the one the call gets when
    it is made alone on newly opened readers, and the bitmaps that were returned still hold
    what the files hold. *)
Theorem C76_shared_readers datas rs programs sched ts w :
  Forall2 (fun data r => NewReader data = Ok r) datas rs -> nobody closes programs -> nobody disables programs ->
  all_together rs programs sched = (ts, w) ->
  forall t c a, In t ts -> In (c, a) (m_log t) -> right_manswer rs (w_heap w) c a.
Proof.
  intros HN HC HD HT t c a Ht Hc. destruct (all_open _ _ HN) as [Ho Hf].
  destruct (answers_of rs false false true programs sched ts w Ho Hf (may_all false false true programs (or_intror HC) (or_intror HD) (or_introl eq_refl)) HT t c a Ht Hc)
    as [R|D]; [exact R|]. exfalso. destruct c as [i c|which opts|which]; cbn [disturbed] in D.
  - destruct D as (r & x & _ & _ & [[X _]|[X _]]); discriminate.
  - destruct D as (x & _ & [X|[X _]]); discriminate.
  - exact D.
Qed.

(** Nobody waits for anybody, and the answers come in the order of the calls. *)
Theorem C76_wait_free rs programs n p : nth_error programs n = Some p ->
  exists bound, forall sched, (bound <= count_occ Nat.eq_dec sched n)%nat ->
  exists t, nth_error (fst (all_together rs programs sched)) n = Some t /\ map fst (m_log t) = p.
Proof. exact (mwait_free rs programs n p). Qed.
Theorem C76_in_order rs programs sched n p : nth_error programs n = Some p ->
  exists t rest, nth_error (fst (all_together rs programs sched)) n = Some t /\ p = map fst (m_log t) ++ rest.
Proof. exact (min_order rs programs sched n p). Qed.

(** A Close that races with a MultiReader's Aggregate: as long as no goroutine switches
    caching on or off and every file has a bitmap, Aggregate gives the right result or an
    error, never a result of a part of the values.  (A single Reader's Aggregate may give a
    part, C51.) *)
Theorem C76_racing_close datas rs programs sched ts w :
  Forall2 (fun data r => NewReader data = Ok r) datas rs -> nobody disables programs -> nobody enables programs ->
  all_together rs programs sched = (ts, w) ->
  forall t which opts a, In t ts -> In (MAggregate which opts, a) (m_log t) -> Forall has_bitmap (chosen_readers rs which) ->
  right_manswer rs (w_heap w) (MAggregate which opts) a \/ exists e, a = MResult (Err e).
Proof.
  intros HN HD HE HT t which opts a Ht Hc HB. destruct (all_open _ _ HN) as [Ho Hf].
  destruct (answers_of rs true false false programs sched ts w Ho Hf (may_all true false false programs (or_introl eq_refl) (or_intror HD) (or_intror HE)) HT t _ a Ht Hc)
    as [R|D]; [left; exact R|right]. cbn [disturbed] in D. destruct D as (x & -> & [X|[_ D]]); [discriminate|].
  destruct (D eq_refl HB) as [e ->]. eauto.
Qed.

(** Calls on single readers while other goroutines close readers, directly or through a
    MultiReader, or switch caching off: as in C51. *)
Theorem C76_close_and_disable datas rs programs sched ts w :
  Forall2 (fun data r => NewReader data = Ok r) datas rs -> all_together rs programs sched = (ts, w) ->
  forall t i r c a, In t ts -> In (OnReader i c, a) (m_log t) -> nth_error rs i = Some r ->
  exists x, a = OneAnswer x
    /\ (right_answer r (w_heap w) c x \/ cut_short r c x \/ c = OGetGlobalIDBitmap /\ x = ABitmap (Ok None)).
Proof.
  intros HN HT t i r c a Ht Hc Hi. destruct (all_open _ _ HN) as [Ho Hf].
  destruct (answers_of rs true true true programs sched ts w Ho Hf (may_all true true true programs (or_introl eq_refl) (or_introl eq_refl) (or_introl eq_refl)) HT t _ a Ht Hc)
    as [R|D].
  - cbn [right_manswer] in R. rewrite Hi in R. destruct R as (x & -> & R). eauto.
  - cbn [disturbed] in D. destruct D as (r' & x & E & -> & D). rewrite Hi in E. injection E as <-.
    exists x. split; [reflexivity|]. right. destruct D as [[_ D]|[_ D]]; auto.
Qed.
(** Nobody closes: calls on single readers are right, or get a nil bitmap when another
    goroutine disables caching.  Nobody disables: the bitmap is never nil. *)
Theorem C76_disable datas rs programs sched ts w :
  Forall2 (fun data r => NewReader data = Ok r) datas rs -> nobody closes programs -> all_together rs programs sched = (ts, w) ->
  forall t i r c a, In t ts -> In (OnReader i c, a) (m_log t) -> nth_error rs i = Some r ->
  exists x, a = OneAnswer x /\ (right_answer r (w_heap w) c x \/ c = OGetGlobalIDBitmap /\ x = ABitmap (Ok None)).
Proof.
  intros HN HC HT t i r c a Ht Hc Hi. destruct (all_open _ _ HN) as [Ho Hf].
  destruct (answers_of rs false true true programs sched ts w Ho Hf (may_all false true true programs (or_intror HC) (or_introl eq_refl) (or_introl eq_refl)) HT t _ a Ht Hc)
    as [R|D].
  - cbn [right_manswer] in R. rewrite Hi in R. destruct R as (x & -> & R). eauto.
  - cbn [disturbed] in D. destruct D as (r' & x & E & -> & D). rewrite Hi in E. injection E as <-.
    exists x. split; [reflexivity|]. destruct D as [[X _]|[_ D]]; [discriminate|auto].
Qed.
End Props.
Print Assumptions C76_shared_readers.
Print Assumptions C76_wait_free.
Print Assumptions C76_in_order.
Print Assumptions C76_racing_close.
Print Assumptions C76_close_and_disable.
Print Assumptions C76_disable.

(** The files of the readers numbered [which]. *)
Definition chosen_files (files : list (list (Z * Z))) (which : list nat) : list (list (Z * Z)) :=
  flat_map (fun i => match nth_error files i with Some f => [f] | None => [] end) which.

Section Files.
Context {Srr : Sroar}.
Lemma chosen_both (P : reader -> list (Z * Z) -> Prop) rs files which : Forall2 P rs files -> Forall2 P (chosen_readers rs which) (chosen_files files which).
Proof.
  intros F. induction which as [|i which IH]; [constructor|]. unfold chosen_readers, chosen_files in *. cbn [flat_map]. apply Forall2_app; [|exact IH].
  clear IH. revert i. induction F as [|r f l l' H _ IHF]; intros [|i]; cbn [nth_error]; [constructor|constructor|constructor; [exact H|constructor]|apply IHF].
Qed.
Lemma mixed_opened rs files :
  Forall2 (fun r pairs => file_with r pairs \/ foreign_with r pairs) rs files ->
  exists datas, Forall2 (fun data r => NewReader data = Ok r) datas rs.
Proof.
  intros F. induction F as [|r pairs l l' H _ [datas IH]]; [exists []; constructor|].
  assert (X : exists data, NewReader data = Ok r).
  { destruct H as [H|H].
    - destruct H as [? ? ? ? ? ? ? ? ? H|? ? ? ? ? ? ? ? ? ? ? H]; eauto.
    - destruct H as (F & a & b & c & d & e & _ & _ & _ & _ & H & _). eauto. }
  destruct X as [data X]. exists (data :: datas). constructor; assumption.
Qed.
Lemma file_has_bitmap r pairs : file_with r pairs -> has_bitmap r.
Proof.
  intros [options faults h now w blocks H He Hnt HR _ _|srt options faults h sw H Hs Hu Hc Hfit He HR _].
  - destruct (ReachFacts.finished_facts options faults h now w H) as (bl & A & X & L & off & Hef & HL & HF & Hlim & HX & HC & HR').
    rewrite HR in HR'. apply Ok_inj in HR'. subst r. destruct (ReaderFacts.fz_off _ _ _ _ _ _ _ _ HF) as [O1 _].
    split; cbn [ReaderFacts.the_reader r_header h_bitmapOffset h_bitmapSize]; [lia|].
    match goal with |- context[bm_ser ?b] => pose proof (zlen_nonneg (bm_ser b)) end. lia.
  - destruct (SimpleFacts.simple_closed _ _ _ _ _ H Hs Hu Hc Hfit) as (t & now & L & off & X & HF & HL & HP).
    pose proof (ReaderFacts.NewReader_finalized _ _ _ _ _ _ _ _ HF HL) as HR'. rewrite HR in HR'. apply Ok_inj in HR'. subst r.
    destruct (ReaderFacts.fz_off _ _ _ _ _ _ _ _ HF) as [O1 _].
    split; cbn [ReaderFacts.the_reader r_header h_bitmapOffset h_bitmapSize]; [lia|].
    match goal with |- context[bm_ser ?b] => pose proof (zlen_nonneg (bm_ser b)) end. lia.
Qed.

(** Files of this library, mixed with files of other programs that follow the format
    document: whatever the goroutines do short of Close and DisableGlobalIDBitmapCaching,
    Aggregate of any MultiReader over some of the files gives the aggregate of the values
    that its newer files leave visible. *)
Theorem C76_newest_wins {Laws : SroarLaws Srr} rs files programs sched ts w :
  Forall2 (fun r pairs => file_with r pairs \/ foreign_with r pairs) rs files ->
  nobody closes programs -> nobody disables programs -> all_together rs programs sched = (ts, w) ->
  forall t which opts a, In t ts -> In (MAggregate which opts, a) (m_log t) -> zlen (concat (chosen_files files which)) < two63 ->
  exists res, a = MResult (Ok res)
    /\ aggregate_of (map snd (filter (allowed (mo_filter opts)) (visible (chosen_files files which)))) res.
Proof.
  intros HF HC HD HT t which opts a Ht Hc HL. destruct (mixed_opened _ _ HF) as [datas HN].
  pose proof (C76_shared_readers _ _ _ _ _ _ HN HC HD HT _ _ _ Ht Hc) as R. cbn [right_manswer] in R.
  destruct (mixed_newest_wins (chosen_readers rs which) (chosen_files files which) (chosen_readers rs which) [] [] opts) as (res & rs' & hp' & new & E & _ & G).
  - apply chosen_both. exact HF.
  - apply s_start. intros p [].
  - exact HL.
  - rewrite E in R. exists res. split; [exact R|exact G].
Qed.

(** Files of this library, and goroutines that also close readers and MultiReaders at any
    time, but leave caching alone: Aggregate of a MultiReader gives that aggregate or an
    error. *)
Theorem C76_newest_wins_or_error {Laws : SroarLaws Srr} rs files programs sched ts w :
  Forall2 file_with rs files -> nobody disables programs -> nobody enables programs -> all_together rs programs sched = (ts, w) ->
  forall t which opts a, In t ts -> In (MAggregate which opts, a) (m_log t) -> zlen (concat (chosen_files files which)) < two63 ->
  (exists res, a = MResult (Ok res)
    /\ aggregate_of (map snd (filter (allowed (mo_filter opts)) (visible (chosen_files files which)))) res)
  \/ exists e, a = MResult (Err e).
Proof.
  intros HF HD HE HT t which opts a Ht Hc HL.
  assert (HF' : Forall2 (fun r pairs => file_with r pairs \/ foreign_with r pairs) rs files).
  { eapply Forall2_impl; [|exact HF]. auto. }
  destruct (mixed_opened _ _ HF') as [datas HN].
  assert (HB : Forall has_bitmap (chosen_readers rs which)).
  { pose proof (chosen_both _ rs files which HF) as C. clear - C. induction C as [|r f l l' H _ IH]; constructor; [eapply file_has_bitmap; exact H|exact IH]. }
  destruct (C76_racing_close _ _ _ _ _ _ HN HD HE HT _ _ _ _ Ht Hc HB) as [R|R]; [left|right; exact R]. cbn [right_manswer] in R.
  destruct (mixed_newest_wins (chosen_readers rs which) (chosen_files files which) (chosen_readers rs which) [] [] opts) as (res & rs' & hp' & new & E & _ & G).
  - apply chosen_both. exact HF'.
  - apply s_start. intros p [].
  - exact HL.
  - rewrite E in R. exists res. split; [exact R|exact G].
Qed.
End Files.
Print Assumptions C76_newest_wins.
Print Assumptions C76_newest_wins_or_error.

(** ** Cases *)
Definition mcounts (x : manswer) : option (Z * Z * Z * Z) := match x with MResult a => counts a | _ => None end.
Definition failed (x : manswer) : bool := match x with MResult (Err _) => true | _ => false end.
Definition mlogs {A : Type} (f : manswer -> A) (x : list mthread * world) : list (list A) :=
  map (fun t => map (fun p => f (snd p)) (m_log t)) (fst x).
Definition both : list nat := [0%nat; 1%nat].
Definition mshare_programs : list (list mop) :=
  [ [OnReader 0 OEnable; MAggregate both (mkMOpts false None); OnReader 1 OGetGlobalIDBitmap];
    [OnReader 1 OEnable; MAggregate both (mkMOpts false (Some [2; 5; 7; 9])); MAggregate [0%nat] (mkMOpts false None)] ].
Definition mclose_programs : list (list mop) := [ [MAggregate both (mkMOpts false None)]; [MCloseAll [0%nat]] ].
Ltac nobody_tac := intros c H; cbn in H; repeat destruct H as [<-|H]; try contradiction; intros X; exact X.

(** Two goroutines on the two files of C27_case, switching at every step. *)
Example C76_case : Forall2 file_with [agg_reader; s_reader] two_files
  /\ nobody closes mshare_programs /\ nobody disables mshare_programs
  /\ mlogs mcounts (all_together [agg_reader; s_reader] mshare_programs (alternate 80))
     = [[None; Some (6, -5, 9223372036854775807, -9223372036854775792); None]; [None; Some (4, -5, 10, 16); Some (3, -3, 10, 11)]]
  /\ nobody disables mclose_programs /\ nobody enables mclose_programs
  /\ mlogs failed (all_together [agg_reader; s_reader] mclose_programs (repeat 0%nat 6 ++ repeat 1%nat 9 ++ repeat 0%nat 60)) = [[true]; [false]].
Proof.
  split; [exact two_readers|]. split; [nobody_tac|]. split; [nobody_tac|]. split; [vm_compute; reflexivity|].
  split; [nobody_tac|]. split; [nobody_tac|]. vm_compute. reflexivity.
Qed.

(** "A MultiReader's Aggregate is right or fails when another goroutine closes a reader" is
    false once caching is on: the file holds three values, Aggregate reports two, and no
    error, because the bitmap comes from the cache. *)
Definition mentry (ts : list mthread) (n k : nat) : option (mop * manswer) :=
  match nth_error ts n with Some t => nth_error (m_log t) k | None => None end.
Lemma mlogged ts n k x : mentry ts n k = Some x -> exists t, In t ts /\ In x (m_log t).
Proof.
  unfold mentry. destruct (nth_error ts n) as [t|] eqn:E; [|discriminate]. intros H.
  exists t. split; eapply nth_error_In; eassumption.
Qed.
Definition first_file (x : option (mop * manswer)) : option (Z * Z * Z * Z) :=
  match x with
  | Some (MAggregate [O] (mkMOpts false None), a) => mcounts a
  | _ => None
  end.
Lemma first_file_sound x c : first_file x = Some c ->
  exists a, x = Some (MAggregate [0%nat] (mkMOpts false None), a) /\ mcounts a = Some c.
Proof. destruct x as [[[i o|[|[] []] [[] []]|w] a]|]; cbn [first_file]; try discriminate. eauto. Qed.
Definition mpart_programs : list (list mop) :=
  [ [OnReader 0 OEnable; OnReader 0 OGetGlobalIDBitmap; MAggregate [0%nat] (mkMOpts false None)]; [OnReader 0 OClose] ].
Theorem C76_racing_close_refuted : exists r pairs programs sched,
  file_with r pairs /\ nobody disables programs
  /\ counts (fst (fst (MultiAggregate (mkMOpts false None) [r] []))) = Some (3, -3, 10, 11)
  /\ exists t a, In t (fst (all_together [r] programs sched)) /\ In (MAggregate [0%nat] (mkMOpts false None), a) (m_log t)
       /\ mcounts a = Some (2, -3, 10, 7).
Proof.
  exists agg_reader, (nth 0 two_files []), mpart_programs, (repeat 0%nat 15 ++ repeat 1%nat 5 ++ repeat 0%nat 40).
  split; [|split; [nobody_tac|split; [vm_compute; reflexivity|]]].
  - pose proof two_readers as T. apply Forall2_hd in T. exact T.
  - destruct (first_file_sound (mentry (fst (all_together [agg_reader] mpart_programs (repeat 0%nat 15 ++ repeat 1%nat 5 ++ repeat 0%nat 40))) 0 2) (2, -3, 10, 7)) as (a & E & C).
    + vm_compute. reflexivity.
    + destruct (mlogged _ 0 2 _ E) as (t & H1 & H2). exists t, a. split; [exact H1|]. split; [exact H2|exact C].
Qed.
Print Assumptions C76_racing_close_refuted.
