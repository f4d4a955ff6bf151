(** Vocabulary for crashes of the writing process (not used by the model). *)
From Verif Require Import Machine FileIO Sroar Writer Spec.

(** What happens to the system calls of a process that is going to stop: [n] succeed, the
    next one, if it is a write, gets its first [k] bytes done, and then nothing has any
    effect ([j] further calls). *)
Definition stop (n : nat) (k : Z) (j : nat) : list fault := repeat NoFault n ++ Fault k :: repeat (Fault 0) j.

(** Call [n], after [k] bytes, is not later than call [n'], after [k'] bytes. *)
Definition earlier (n : nat) (k : Z) (n' : nat) (k' : Z) : Prop := (n < n')%nat \/ (n = n' /\ k <= k').

(** The writer [w], with the given future. *)
Definition withf {Srr : Sroar} (w : writer) (fs : list fault) : writer :=
  set_file w (mkFile (f_data (w_file w)) (f_pos (w_file w)) (f_open (w_file w)) fs).

(** [d] can be in the file when the process, making the calls [cs], stops at some point:
    [j] is so large that all system calls after the stop are without effect. *)
Definition crash_state {Srr : Sroar} (w0 : writer) (cs : list wcall) (d : list Z) : Prop :=
  exists n k j u, u = snd (run_calls cs (withf w0 (stop n k j))) /\ f_faults (w_file u) <> [] /\ d = bytes_of u.

(** The magic number is in [F] only at the beginning and at the end. *)
Definition only_at_the_ends (F : list Z) : Prop :=
  forall i, 0 < i -> i + 8 < zlen F -> slice F i 8 <> le_bytes 8 MagicNumber.

(** The same for a SimpleWriter. *)
From Verif Require Import SimpleWriter SimpleSpec.
Definition swith {Srr : Sroar} (sw : swriter) (fs : list fault) : swriter :=
  mkSW (withf (sw_writer sw) fs) (sw_pendingIDs sw) (sw_pendingValues sw) (sw_targetBlockSize sw) (sw_closed sw) (sw_totalItems sw).
Definition simple_crash_state {Srr : Sroar} (srt : sorter) (sw0 : swriter) (cs : list scall) (d : list Z) : Prop :=
  exists n k j u, u = snd (run_scalls srt cs (swith sw0 (stop n k j))) /\ f_faults (w_file (sw_writer u)) <> [] /\ d = file_of u.
