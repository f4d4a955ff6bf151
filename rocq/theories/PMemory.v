(** Slices belong to the caller (C78).  Only statements and a concrete case; proofs are in
    MemoryFacts.v. *)
From Verif Require Import Machine Encoding Sroar SroarFacts FileIO Writer SimpleWriter Reader Parallel Spec SimpleSpec Memory MemorySpec MemoryFacts Examples PAggregate PSimple.

Section Props.
Context {Srr : Sroar}.

(** C78.  A program with one memory behaves as if every slice the caller holds were a list of
    numbers of its own: what the calls answer, what the slices show, and what the
    SimpleWriter and the Writer are afterwards. *)
Theorem C78_slices_are_values : forall grow srt now options faults m0 sw m w acts ts held m' sw' w', sorts srt ->
  NewSimpleWriterM now options faults m0 = Ok (sw, m) ->
  run_slices grow srt acts [] m sw w = (ts, held, m', sw', w') ->
  NewSimpleWriter now options faults = Ok (as_values m sw)
  /\ run_values srt acts [] (as_values m sw) w = (ts, map (contents m') held, as_values m' sw', w').
Proof.
  intros grow srt now options faults m0 sw m w acts ts held m' sw' w' Hs HN H. destruct (new_inv now options faults m0 sw m HN) as (N & I & _).
  split; [exact N|]. apply (acts_ok grow srt Hs acts [] m sw w); [exact I| |exact H]. split; constructor.
Qed.

(** So the SimpleWriter's file is the one of a history of calls (as in C15-C18, C39) with what
    the arguments showed at the time of each call, whatever was stored into them later; and
    the same for the Writer. *)
Theorem C78_simple_writer : forall grow srt now options faults m0 sw m w acts ts held m' sw' w', sorts srt ->
  Forall typed_option options -> Forall typed_scall (simple_calls acts []) ->
  NewSimpleWriterM now options faults m0 = Ok (sw, m) ->
  run_slices grow srt acts [] m sw w = (ts, held, m', sw', w') ->
  simple_run srt options faults (combine (simple_calls acts []) (simple_answers ts)) (as_values m' sw').
Proof.
  intros grow srt now options faults m0 sw m w acts ts held m' sw' w' Hs TO TC HN H.
  destruct (C78_slices_are_values _ _ _ _ _ _ _ _ _ _ _ _ _ _ _ Hs HN H) as [N R]. apply values_simple in R.
  econstructor; [exact N|exact TO|exact TC|exact R|reflexivity].
Qed.
Theorem C78_writer : forall grow srt now options faults m0 sw m w acts ts held m' sw' w', sorts srt ->
  NewSimpleWriterM now options faults m0 = Ok (sw, m) ->
  run_slices grow srt acts [] m sw w = (ts, held, m', sw', w') ->
  run_calls (writer_calls acts []) w = (writer_answers ts, w').
Proof.
  intros grow srt now options faults m0 sw m w acts ts held m' sw' w' Hs HN H.
  destruct (C78_slices_are_values _ _ _ _ _ _ _ _ _ _ _ _ _ _ _ Hs HN H) as [N R]. eapply values_writer. exact R.
Qed.

(** One call of GetPairs: it changes nothing that existed, and returns slices of two new
    arrays that show the block. *)
Theorem C78_get_pairs : forall grow m r block x m', GetPairsM grow m r block = (x, m') ->
  untouched m m'
  /\ match GetPairs r block with
     | Ok (l1, l2) => exists ids values, x = Ok (ids, values) /\ contents m' ids = l1 /\ contents m' values = l2
         /\ (length m <= g_array ids)%nat /\ (length m <= g_array values)%nat /\ apart ids values
     | Err e => x = Err e
     | Panic => x = Panic
     end.
Proof.
  intros grow m r block x m' H. destruct (readBlockM_ok grow m r (i64 block) x m' H) as [E K]. split; [apply ext_untouched; exact E|]. unfold GetPairs.
  destruct (readBlock r (i64 block)) as [[l1 l2]|e|]; [|exact K|exact K]. destruct K as (s & t & -> & (_ & A & B & _) & (_ & C & D & _) & AP).
  exists s, t. split; [reflexivity|]. split; [exact A|]. split; [exact C|]. split; [lia|]. split; [lia|exact AP].
Qed.
(** One call of WriteBlock, EstimateBlockSize and of the encoders: nothing that existed changes. *)
Theorem C78_arguments_untouched : forall ids values m w, proper m ids -> proper m values ->
  (forall x m' w', WriteBlockM ids values m w = (x, m', w') -> untouched m m')
  /\ (forall x m' w', EstimateM ids values m w = (x, m', w') -> untouched m m').
Proof.
  intros ids values m w H1 H2. split; intros x m' w' H; apply ext_untouched.
  - apply (WriteBlockM_ok ids values m w x m' w' H1 H2 H).
  - apply (EstimateM_ok ids values m w x m' w' H1 H2 H).
Qed.
Theorem C78_encoders : forall w enc m data e m', proper m data -> encodeDataM w enc m data = (e, m') ->
  untouched m m'
  /\ match usesDelta enc with
     | None => e = None
     | Some d => exists s, e = Some s /\ (length m <= g_array s)%nat
         /\ contents m' s = if d then delta_encode_with w (contents m data) else contents m data
     end.
Proof.
  intros w enc m data e m' HP H. destruct (encodeDataM_ok w enc m data e m' HP H) as [E K]. split; [apply ext_untouched; exact E|].
  destruct (usesDelta enc) as [d|]; [|exact K]. destruct K as (s & -> & A & B). exists s. auto.
Qed.
End Props.

(** ** A concrete case *)
(** The answers as numbers: 0 without error, 1 an error, 2 a panic. *)
Definition code {A} (x : res A) : Z := match x with Ok _ => 0 | Err _ => 1 | Panic => 2 end.
Definition trace {Srr : Sroar} (grow : nat -> nat -> nat) (options : list writerOption) (acts : list act) (w : writer) : option (list Z * list (list Z)) :=
  match NewSimpleWriterM 0 options [] [] with
  | Ok (sw, m) =>
      let '(ts, held, m', _, _) := run_slices grow isort acts [] m sw w in
      Some (map (fun t => match t with ToldGet x => code x | ToldSimple x => code x | ToldWriter x => code x end) ts, map (contents m') held)
  | _ => None
  end.
Lemma trace_sound {Srr : Sroar} grow options acts w codes shows : trace grow options acts w = Some (codes, shows) ->
  exists sw m ts held m' sw' w', NewSimpleWriterM 0 options [] [] = Ok (sw, m) /\ run_slices grow isort acts [] m sw w = (ts, held, m', sw', w')
    /\ map (contents m') held = shows /\ map (fun t => match t with ToldGet x => code x | ToldSimple x => code x | ToldWriter x => code x end) ts = codes.
Proof.
  unfold trace. destruct (NewSimpleWriterM 0 options [] []) as [[sw m]| |]; try discriminate.
  destruct (run_slices grow isort acts [] m sw w) as [[[[ts held] m'] sw'] w'] eqn:E. intros H. injection H as <- <-. exists sw, m, ts, held, m', sw', w'. repeat (split; [reflexivity || exact E|]). reflexivity.
Qed.
(** The caller writes an unsorted batch, changes it, reads a block of another file, changes
    what it got, and writes parts of everything. *)
Definition slice_acts : list act :=
  [Make [30; 10; 20]; Make [3; 1; 2]; OnSimple (QWrite (0, 0, 3) (1, 0, 3))%nat; Change 0 0 99; Change 1 2 77;
   Get agg_reader 0; Get agg_reader 0; Change 2 0 55; Change 3 1 66; OnSimple (QWrite (2, 0, 2) (3, 0, 2))%nat;
   Change 2 1 44; OnSimple (QWrite (0, 1, 9) (1, 1, 9))%nat; OnSimple (QClose 5); Change 0 1 0].
Example C78_case : sorts isort /\ Forall typed_scall (simple_calls slice_acts [])
  /\ simple_calls slice_acts [] = [SCWrite [30; 10; 20] [3; 1; 2]; SCWrite [55; 2] [10; 66]; SCWrite [10; 20] [1; 77]; SCClose 5]
  /\ exists sw m ts held m' sw' w', NewSimpleWriterM 0 [] [] [] = Ok (sw, m)
     /\ run_slices (fun c _ => 2 * c)%nat isort slice_acts [] m sw dummy = (ts, held, m', sw', w')
     /\ map (contents m') held = [[99; 0; 20]; [3; 1; 77]; [55; 44]; [10; 66]; [5; 2]; [10; -3]]
     /\ map (fun t => match t with ToldGet x => code x | ToldSimple x => code x | ToldWriter x => code x end) ts = [0; 0; 0; 0; 0; 0].
Proof.
  split; [exact isort_sorts|]. split.
  - eapply forallb_Forall' with (f := typed_scallb); [|vm_compute; reflexivity]. intros [ids vals|s|n]; cbn; try exact (fun _ => I).
    rewrite !andb_true_iff. intros [[G1 G2] G3]. split; [|split; [|lia]].
    + eapply forallb_Forall'; [|exact G1]. unfold u64b, is_u64. intros; lia.
    + eapply forallb_Forall'; [|exact G2]. unfold i64b, is_i64. intros; lia.
  - split; [vm_compute; reflexivity|]. apply trace_sound. vm_compute. reflexivity.
Qed.

Print Assumptions C78_slices_are_values.
Print Assumptions C78_simple_writer.
Print Assumptions C78_writer.
Print Assumptions C78_get_pairs.
Print Assumptions C78_arguments_untouched.
Print Assumptions C78_encoders.
Print Assumptions C78_case.
