(** Model of several goroutines that use several Readers and MultiReaders over them at the
    same time (pkg/multicol/aggregate.go 27-95; pkg/col/reader.go 59-61, 94-96, 128-179).

    As in Shared.v every access to something shared is one step, and steps of different
    goroutines interleave in any order.  Readers are named by their number in a list; all
    of them share one memory for bitmaps.  Two MultiReaders may have readers in common. *)
From Verif Require Import Machine Encoding Sroar Writer Reader Aggregate Multi Shared.

Section Shared.
Context {Srr : Sroar}.

(** The calls of a goroutine: a method of one reader, or [Aggregate] or [Close] of a
    MultiReader over the readers [which], oldest first (pkg/multicol/aggregate.go:20, 27, 50). *)
Inductive mop : Type :=
| OnReader (i : nat) (c : op)
| MAggregate (which : list nat) (opts : multiOptions)
| MCloseAll (which : list nat).

(** Their answers (the results of pkg/multicol/aggregate.go:27, 50). *)
Inductive manswer : Type :=
| OneAnswer (a : answer)
| MResult (a : res aggResult)
| MClosed (e : option err).

(** What is left of a call (pkg/multicol/aggregate.go:30, 73, 76, 82). *)
Inductive mprog : Type :=
| MRet (a : manswer)
| MCall (i : nat) (p : prog) (k : answer -> mprog)   (* within a method of reader [i] *)
| MRead (p : nat) (k : bm -> mprog).                 (* the bitmap that [Or] reads *)

(** pkg/multicol/aggregate.go:62-92: the loop, newest reader first.  What [Or] does with a
    nil bitmap is not known; here it panics (only DisableGlobalIDBitmapCaching in another
    goroutine leads there). *)
Fixpoint multi_prog (opts : multiOptions) (order : list (nat * reader)) (deny : bm) (result : aggResult) : mprog :=
  match order with
  | [] => MRet (MResult (Ok result))
  | (i, r) :: older =>
      MCall i (aggregate_prog r (mkOpts (mo_skip opts) (mo_filter opts) (Some deny) 0)) (fun a =>
        match a with
        | AAggregate (Ok readerResult) =>
            MCall i (bitmap_prog r) (fun a =>
              match a with
              | ABitmap (Ok (Some p)) =>
                  MRead p (fun globalIDs =>
                    multi_prog opts older (bm_or deny globalIDs)
                      (if a_count result =? 0 then readerResult else mergeAggregateResults result readerResult))
              | ABitmap (Err e) => MRet (MResult (Err e))
              | _ => MRet (MResult Panic)
              end)
        | AAggregate (Err e) => MRet (MResult (Err e))
        | _ => MRet (MResult Panic)
        end)
  end.

(** pkg/multicol/aggregate.go:27-35: the loop over the readers. *)
Fixpoint close_prog (order : list (nat * reader)) (lastErr : option err) : mprog :=
  match order with
  | [] => MRet (MClosed lastErr)
  | (i, r) :: rest =>
      MCall i (prog_of r OClose) (fun a =>
        close_prog rest (match a with AClosed (Err e) => Some e | _ => lastErr end))
  end.

(** The readers of a MultiReader: the field [readers] of pkg/multicol/aggregate.go:14-16. *)
Definition numbered (rs : list reader) (which : list nat) : list (nat * reader) :=
  flat_map (fun i => match nth_error rs i with Some r => [(i, r)] | None => [] end) which.

(** pkg/multicol/aggregate.go:27-60; a method of a reader that does not exist panics. *)
Definition mprog_of (rs : list reader) (c : mop) : mprog :=
  match c with
  | OnReader i c =>
      match nth_error rs i with
      | Some r => MCall i (prog_of r c) (fun a => MRet (OneAnswer a))
      | None => MRet (MResult Panic)
      end
  | MAggregate which opts => multi_prog opts (rev (numbered rs which)) bm_new zeroResult
  | MCloseAll which => close_prog (numbered rs which) None
  end.

(** What belongs to one reader, and everything that is shared
    (pkg/col/reader.go:13, 18, 19). *)
Record cell : Type := mkCell { c_open : bool; c_flag : bool; c_ptr : option nat }.
Record world : Type := mkWorld { w_cells : list cell; w_heap : heap }.
Definition view_of (c : cell) (h : heap) : shared := mkShared (c_open c) (c_flag c) (c_ptr c) h.
Definition cell_of (s : shared) : cell := mkCell (s_open s) (s_flag s) (s_ptr s).

(** One access (those of pkg/col/reader.go in [access] of Shared.v; the reading by [Or] at
    pkg/multicol/aggregate.go:82). *)
Definition maccess (p : mprog) (w : world) : mprog * world :=
  match p with
  | MRet a => (MRet a, w)
  | MCall i (Ret a) k => (k a, w)
  | MCall i q k =>
      match nth_error (w_cells w) i with
      | Some c =>
          let '(q', s) := access q (view_of c (w_heap w)) in
          (MCall i q' k, mkWorld (update i (cell_of s) (w_cells w)) (s_heap s))
      | None => (MRet (MResult Panic), w)
      end
  | MRead p k =>
      match nth_error (w_heap w) p with
      | Some b => (k b, w)
      | None => (MRet (MResult Panic), w)
      end
  end.

(** A goroutine, its steps, and goroutines interleaved by a schedule (no code: the client
    of pkg/multicol/aggregate.go and the Go scheduler). *)
Record mthread : Type := mkMThread { m_todo : list mop; m_now : option (mop * mprog); m_log : list (mop * manswer) }.
Definition mstep (rs : list reader) (t : mthread) (w : world) : mthread * world :=
  match m_now t with
  | None =>
      match m_todo t with
      | [] => (t, w)
      | c :: todo => (mkMThread todo (Some (c, mprog_of rs c)) (m_log t), w)
      end
  | Some (c, MRet a) => (mkMThread (m_todo t) None (m_log t ++ [(c, a)]), w)
  | Some (c, p) => let '(p', w') := maccess p w in (mkMThread (m_todo t) (Some (c, p')) (m_log t), w')
  end.
Fixpoint minterleave (rs : list reader) (sched : list nat) (ts : list mthread) (w : world) : list mthread * world :=
  match sched with
  | [] => (ts, w)
  | n :: sched' =>
      match nth_error ts n with
      | None => minterleave rs sched' ts w
      | Some t =>
          let '(t', w') := mstep rs t w in
          minterleave rs sched' (update n t' ts) w'
      end
  end.
Definition mstart (programs : list (list mop)) : list mthread := map (fun p => mkMThread p None []) programs.
Definition world_of (rs : list reader) : world := mkWorld (map (fun r => mkCell (r_open r) (r_cacheGlobalIDs r) (r_globalIDs r)) rs) [].
Definition all_together (rs : list reader) (programs : list (list mop)) (sched : list nat) : list mthread * world :=
  minterleave rs sched (mstart programs) (world_of rs).

End Shared.
