(** Vocabulary for opening a file while it is being written (not used by the model). *)
From Verif Require Import Machine FileIO Sroar Writer Spec SimpleWriter SimpleSpec StopSpec.

(** [moments n k d]: the file holds [d] when the writing process has done [n] system calls
    and [k] bytes of the next one.  (This is what it leaves behind if it stops there.) *)
Definition writer_moments {Srr : Sroar} (w0 : writer) (cs : list wcall) (n : nat) (k : Z) (d : list Z) : Prop :=
  exists j u, u = snd (run_calls cs (withf w0 (stop n k j))) /\ f_faults (w_file u) <> [] /\ d = bytes_of u.
Definition simple_moments {Srr : Sroar} (srt : sorter) (sw0 : swriter) (cs : list scall) (n : nat) (k : Z) (d : list Z) : Prop :=
  exists j u, u = snd (run_scalls srt cs (swith sw0 (stop n k j))) /\ f_faults (w_file (sw_writer u)) <> [] /\ d = file_of u.

(** What a read can find that takes place after the moment [n], [k]: the length is that of
    some later moment, and each byte is that of some later moment (a read need not be atomic). *)
Definition seen (moments : nat -> Z -> list Z -> Prop) (n : nat) (k : Z) (d : list Z) : Prop :=
  (exists n' k' s, earlier n k n' k' /\ moments n' k' s /\ zlen s = zlen d)
  /\ forall p b, nth_error d p = Some b -> exists n' k' s, earlier n k n' k' /\ moments n' k' s /\ nth_error s p = Some b.
