(** Vocabulary for Readers whose file changes after it was opened (not used by the model). *)
From Verif Require Import Machine FileIO Sroar Writer Reader Spec StopSpec.

(** The same Reader when its file has the contents [d]. *)
Definition on_bytes (d : list Z) (r : reader) : reader :=
  mkReader d (r_open r) (r_header r) (r_meta r) (r_index r) (r_globalIDs r) (r_cacheGlobalIDs r).

(** [d] is what the file holds at some moment from [w] on, while the writer is used further:
    calls [cs] are over (no Finalize among them failed while it rewrote the header), and the
    process is somewhere in the next call [c], or has stopped there: every system call of
    [c] up to that moment succeeded or failed ([fs] says which, and that the later ones have
    no effect). *)
Definition later {Srr : Sroar} (w : writer) (d : list Z) : Prop :=
  exists cs c fs, finalizes_ok cs w /\ d = bytes_of (snd (run_call c (withf (snd (run_calls cs w)) fs))).

(** What reads can find that take place at such moments: each byte may be that of another one. *)
Definition seen_later {Srr : Sroar} (w : writer) (d : list Z) : Prop :=
  (exists s, later w s /\ zlen s = zlen d)
  /\ forall p b, nth_error d p = Some b -> exists s, later w s /\ nth_error s p = Some b.
