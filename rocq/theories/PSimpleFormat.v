(** C71 for SimpleWriters.  Only statements and concrete cases; proofs are in
    SimpleFormat.v. *)
From Verif Require Import Machine Encoding FileIO Sroar SroarFacts Writer SimpleWriter Reader Spec SimpleSpec FormatSpec SimpleFormat Examples PSimple.

(** C71: the file a SimpleWriter leaves is one as the document describes, whatever its
    target was and however it was changed, and holds the batches as they arrived: each
    batch of pairs ordered by ID, in the order of the Write calls.  Its bitmap holds the
    IDs handed to Write and no others. *)
Theorem C71_simple_writer : forall {Srr : Sroar} {Laws : SroarLaws Srr} srt options faults h sw,
  simple_run srt options faults h sw -> sorts srt -> undisturbed h ->
  IsClosed sw = true -> fits (sw_writer sw) (file_of sw) -> faithful (encoding_of options) ->
  exists target time b blocks outs,
    conforms (file_of sw) target (encoding_of options) time b blocks /\ format_limits (file_of sw) blocks
    /\ Forall2 arrives (written h) outs /\ all_pairs blocks = concat outs
    /\ (forall id, is_u64 id -> (bm_contains b id = true <-> In id (map fst (concat (written h))))).
Proof. exact @simple_conforms. Qed.
Print Assumptions C71_simple_writer.

Example C71_simple_case : SroarLaws list_sroar /\ simple_run isort s_options [] s_history s_writer /\ sorts isort /\ undisturbed s_history
  /\ IsClosed s_writer = true /\ fits (sw_writer s_writer) (file_of s_writer) /\ faithful (encoding_of s_options)
  /\ written s_history = [[(9, -5); (2, 7)]; [(4, 1); (4, max_int64)]].
Proof.
  split; [exact list_sroar_laws|]. split; [exact s_run|]. split; [exact isort_sorts|]. split; [exact s_undisturbed|].
  split; [exact s_closed|]. split; [exact s_fits|].
  split; [exact s_faithful|]. vm_compute. reflexivity.
Qed.
