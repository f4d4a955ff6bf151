(** Specification vocabulary for callers that go on using their slices (C78). *)
From Verif Require Import Machine Encoding Sroar FileIO Writer SimpleWriter Reader Parallel Memory.

(** A part of something the caller holds: [x[o:o+n]] for its [v]-th slice [x].  (A part that
    reaches over the end would be a panic in the caller; here it is cut off.) *)
Definition window : Type := nat * nat * nat.

(** Calls on a SimpleWriter, and on a Writer. *)
Inductive srequest : Type := QWrite (ids values : window) | QSetTarget (size : Z) | QClose (now : Z).
Inductive wrequest : Type := QWriteBlock (ids values : window) | QEstimate (ids values : window) | QFinalize (now : Z)
  | QFinalizeAndClose (now : Z) | QCloseWriter.

Section Run.
Context {Srr : Sroar}.

(** What a caller does: it makes slices, changes elements of slices it holds (its own or
    returned to it), reads blocks, and calls a SimpleWriter and a Writer. *)
Inductive act : Type :=
| Make (l : list Z)
| Change (v i : nat) (x : Z)
| Get (r : reader) (block : Z)
| OnSimple (q : srequest)
| OnWriter (q : wrequest).
(** What it is told. *)
Inductive told : Type := ToldGet (x : res unit) | ToldSimple (x : res unit) | ToldWriter (x : res Z).

(** ** The specification: every slice held is a list of numbers of its own *)
Definition seen (vars : list (list Z)) (w : window) : list Z :=
  let '(v, o, n) := w in firstn n (skipn o (nth v vars [])).
Definition svalue (vars : list (list Z)) (q : srequest) : scall :=
  match q with
  | QWrite ids values => SCWrite (seen vars ids) (seen vars values)
  | QSetTarget size => SCSetTarget size
  | QClose now => SCClose now
  end.
Definition wvalue (vars : list (list Z)) (q : wrequest) : wcall :=
  match q with
  | QWriteBlock ids values => CWriteBlock (seen vars ids) (seen vars values)
  | QEstimate ids values => CEstimate (seen vars ids) (seen vars values)
  | QFinalize now => CFinalize now
  | QFinalizeAndClose now => CFinalizeAndClose now
  | QCloseWriter => CClose
  end.
Definition changed (vars : list (list Z)) (v i : nat) (x : Z) : list (list Z) :=
  set_nth v (set_nth i x (nth v vars [])) vars.
Fixpoint run_values (srt : sorter) (acts : list act) (vars : list (list Z)) (sw : swriter) (w : writer)
  : list told * list (list Z) * swriter * writer :=
  match acts with
  | [] => ([], vars, sw, w)
  | Make l :: acts' => run_values srt acts' (vars ++ [l]) sw w
  | Change v i x :: acts' => run_values srt acts' (changed vars v i x) sw w
  | Get r block :: acts' =>
      let '(t, vars1) := match GetPairs r block with
                         | Ok (ids, values) => (Ok tt, vars ++ [ids; values])
                         | Err e => (Err e, vars)
                         | Panic => (Panic, vars)
                         end in
      let '(ts, vars2, sw2, w2) := run_values srt acts' vars1 sw w in (ToldGet t :: ts, vars2, sw2, w2)
  | OnSimple q :: acts' =>
      let '(x, sw1) := run_scall srt (svalue vars q) sw in
      let '(ts, vars2, sw2, w2) := run_values srt acts' vars sw1 w in (ToldSimple x :: ts, vars2, sw2, w2)
  | OnWriter q :: acts' =>
      let '(x, w1) := run_call (wvalue vars q) w in
      let '(ts, vars2, sw2, w2) := run_values srt acts' vars sw w1 in (ToldWriter x :: ts, vars2, sw2, w2)
  end.

(** ** The program: slices of arrays in one memory *)
Variable grow : nat -> nat -> nat.
(** [held[v][o:o+n]] *)
Definition passed (held : list gslice) (w : window) : gslice :=
  let '(v, o, n) := w in
  let x := nth v held gnil in
  let o := Nat.min o (g_len x) in
  mkG (g_array x) (g_off x + o) (Nat.min n (g_len x - o)) (g_cap x - o).
Definition srun_request (srt : sorter) (q : srequest) (held : list gslice) (m : mem) (sw : swriterM) : res unit * mem * swriterM :=
  match q with
  | QWrite ids values => SWriteM grow srt (passed held ids) (passed held values) m sw
  | QSetTarget size => SetTargetM size m sw
  | QClose now => SCloseM now m sw
  end.
Definition wrun_request (q : wrequest) (held : list gslice) (m : mem) (w : writer) : res Z * mem * writer :=
  match q with
  | QWriteBlock ids values =>
      let '(x, m', w') := WriteBlockM (passed held ids) (passed held values) m w in
      (match x with Ok _ => Ok 0 | Err e => Err e | Panic => Panic end, m', w')
  | QEstimate ids values => EstimateM (passed held ids) (passed held values) m w
  | QFinalize now => let '(x, w') := run_call (CFinalize now) w in (x, m, w')
  | QFinalizeAndClose now => let '(x, w') := run_call (CFinalizeAndClose now) w in (x, m, w')
  | QCloseWriter => let '(x, w') := run_call CClose w in (x, m, w')
  end.
Fixpoint run_slices (srt : sorter) (acts : list act) (held : list gslice) (m : mem) (sw : swriterM) (w : writer)
  : list told * list gslice * mem * swriterM * writer :=
  match acts with
  | [] => ([], held, m, sw, w)
  | Make l :: acts' => let '(s, m1) := gfill m l in run_slices srt acts' (held ++ [s]) m1 sw w
  | Change v i x :: acts' =>
      run_slices srt acts' held (if (i <? g_len (nth v held gnil))%nat then gset m (nth v held gnil) i x else m) sw w
  | Get r block :: acts' =>
      let '(y, m1) := GetPairsM grow m r block in
      let '(t, held1) := match y with
                         | Ok (ids, values) => (Ok tt, held ++ [ids; values])
                         | Err e => (Err e, held)
                         | Panic => (Panic, held)
                         end in
      let '(ts, held2, m2, sw2, w2) := run_slices srt acts' held1 m1 sw w in (ToldGet t :: ts, held2, m2, sw2, w2)
  | OnSimple q :: acts' =>
      let '(x, m1, sw1) := srun_request srt q held m sw in
      let '(ts, held2, m2, sw2, w2) := run_slices srt acts' held m1 sw1 w in (ToldSimple x :: ts, held2, m2, sw2, w2)
  | OnWriter q :: acts' =>
      let '(x, m1, w1) := wrun_request q held m w in
      let '(ts, held2, m2, sw2, w2) := run_slices srt acts' held m1 sw w1 in (ToldWriter x :: ts, held2, m2, sw2, w2)
  end.
(** The SimpleWriter as it is without slices (SimpleWriter.v). *)
Definition as_values (m : mem) (sw : swriterM) : swriter :=
  mkSW (swm_writer sw) (contents m (swm_pendingIDs sw)) (contents m (swm_pendingValues sw))
       (swm_targetBlockSize sw) (swm_closed sw) (swm_totalItems sw).

(** The calls on the SimpleWriter, with what their arguments show at the time of the call,
    and what it answered. *)
Fixpoint simple_calls (acts : list act) (vars : list (list Z)) : list scall :=
  match acts with
  | [] => []
  | Make l :: acts' => simple_calls acts' (vars ++ [l])
  | Change v i x :: acts' => simple_calls acts' (changed vars v i x)
  | Get r block :: acts' =>
      simple_calls acts' (match GetPairs r block with Ok (ids, values) => vars ++ [ids; values] | _ => vars end)
  | OnSimple q :: acts' => svalue vars q :: simple_calls acts' vars
  | OnWriter _ :: acts' => simple_calls acts' vars
  end.
Fixpoint simple_answers (ts : list told) : list (res unit) :=
  match ts with
  | [] => []
  | ToldSimple x :: ts' => x :: simple_answers ts'
  | _ :: ts' => simple_answers ts'
  end.
(** The same for the Writer. *)
Fixpoint writer_calls (acts : list act) (vars : list (list Z)) : list wcall :=
  match acts with
  | [] => []
  | Make l :: acts' => writer_calls acts' (vars ++ [l])
  | Change v i x :: acts' => writer_calls acts' (changed vars v i x)
  | Get r block :: acts' =>
      writer_calls acts' (match GetPairs r block with Ok (ids, values) => vars ++ [ids; values] | _ => vars end)
  | OnSimple _ :: acts' => writer_calls acts' vars
  | OnWriter q :: acts' => wvalue vars q :: writer_calls acts' vars
  end.
Fixpoint writer_answers (ts : list told) : list (res Z) :=
  match ts with
  | [] => []
  | ToldWriter x :: ts' => x :: writer_answers ts'
  | _ :: ts' => writer_answers ts'
  end.
End Run.

(** A slice that lies inside its array. *)
Definition proper (m : mem) (s : gslice) : Prop := (g_off s + g_len s <= length (array_of m s))%nat.
(** Nothing that existed in [m] is different in [m']. *)
Definition untouched (m m' : mem) : Prop := exists new, m' = m ++ new.
(** Slices of different arrays. *)
Definition apart (s t : gslice) : Prop := g_array s <> g_array t.
