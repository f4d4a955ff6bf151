(** C69: what a SimpleWriter leaves is what a Writer leaves, and what its client wrote,
    end to end.  Only statements and concrete cases; proofs are in AsWriter.v. *)
From Verif Require Import Machine MachineFacts Encoding FileIO Sroar SroarFacts Writer SimpleWriter Reader Aggregate Spec SimpleSpec FillSpec
  WriterProps SimpleFacts AsWriter Examples PAggregate PSimple PFill.

Section Properties.
Context {Srr : Sroar}.

(** C69: whatever a SimpleWriter whose target is not changed has done, if none of its
    calls failed and it is closed, some client of a Writer with the same options, over a
    file with the same faults, gets to exactly the same state and the same bytes by
    WriteBlock calls and a last FinalizeAndClose.  So every theorem about finished runs
    of a Writer (C07, C09, C10, C19-C25, C28, C42, C56, C61, C62, ...) holds of its file. *)
Theorem C69_simple_writer_is_a_writer : forall srt options faults h sw,
  simple_run srt options faults h sw -> sorts srt -> undisturbed h -> target_kept h ->
  IsClosed sw = true -> fits (sw_writer sw) (file_of sw) ->
  exists h' now, finished_run options faults h' now (sw_writer sw)
    /\ (forall c r, In (c, r) h' -> exists ids vals, c = CWriteBlock ids vals).
Proof. exact simple_is_writer. Qed.

(** C69: for example, its file has the layout of C10. *)
Theorem C69_simple_layout : forall srt options faults h sw,
  simple_run srt options faults h sw -> sorts srt -> undisturbed h -> target_kept h ->
  IsClosed sw = true -> fits (sw_writer sw) (file_of sw) ->
  exists r stop footerStart, NewReader (file_of sw) = Ok r
    /\ contiguous 64 (r_index r) stop
    /\ (r_index r <> [] -> h_bitmapOffset (r_header r) = stop)
    /\ stop <= h_bitmapOffset (r_header r)
    /\ h_bitmapOffset (r_header r) + h_bitmapSize (r_header r) <= footerStart
    /\ footerStart mod 4096 = 0
    /\ zlen (file_of sw) = footerStart + 4 + 56 * zlen (r_index r) + 24.
Proof.
  intros srt options faults h sw H1 H2 H3 H4 H5 H6.
  destruct (simple_is_writer srt options faults h sw H1 H2 H3 H4 H5 H6) as (h' & now & HF & HN).
  apply (layout options faults h' now (sw_writer sw) HF). intros c r Hin. destruct (HN c r Hin) as (ids & vals & ->). reflexivity.
Qed.

(** C69, end to end: after any batches and a Close that succeed, whatever the target and
    however it changed, aggregating the file gives the aggregate of the values handed to
    Write whose IDs pass the filters; the footer-only aggregate too, if the absolute
    values add up to less than 2^63; and the global ID bitmap holds exactly the IDs
    handed to Write. *)
Theorem C69_end_to_end {Lw : SroarLaws Srr} : forall srt options faults h sw,
  simple_run srt options faults h sw -> sorts srt -> undisturbed h ->
  IsClosed sw = true -> fits (sw_writer sw) (file_of sw) -> faithful (encoding_of options) ->
  exists r, NewReader (file_of sw) = Ok r
    /\ (forall skip allow deny, skip = true \/ allow <> None \/ deny <> None ->
          exists res, aggregateSequential r (mkOpts skip allow deny 0) = Ok res
            /\ aggregate_of (map snd (filter (fun p => passes allow deny (fst p)) (concat (written h)))) res)
    /\ (zsum (map (fun p => Z.abs (snd p)) (concat (written h))) < two63 ->
          exists res, Aggregate r = Ok res /\ aggregate_of (map snd (concat (written h))) res)
    /\ (forall hp, exists p r' hp' b, GetGlobalIDBitmap r hp = (Ok p, r', hp') /\ nth_error hp' p = Some b
          /\ forall id, is_u64 id -> (bm_contains b id = true <-> In id (map fst (concat (written h))))).
Proof. exact end_to_end. Qed.
End Properties.
Print Assumptions C69_simple_writer_is_a_writer.
Print Assumptions C69_simple_layout.
Print Assumptions C69_end_to_end.

(** The run of C15: blocks of one item, an unordered batch, a repeated ID, refused calls. *)
Example C69_case : simple_run isort s_options [] s_history s_writer /\ sorts isort /\ undisturbed s_history /\ target_kept s_history
  /\ IsClosed s_writer = true /\ fits (sw_writer s_writer) (file_of s_writer) /\ faithful (encoding_of s_options)
  /\ written s_history = [[(9, -5); (2, 7)]; [(4, 1); (4, max_int64)]].
Proof.
  split; [exact s_run|]. split; [exact isort_sorts|]. split; [exact s_undisturbed|].
  split; [unfold s_history; apply target_kept_sound; vm_compute; reflexivity|]. split; [exact s_closed|]. split; [exact s_fits|].
  split; [exact s_faithful|]. vm_compute. reflexivity.
Qed.
(** Here the absolute values are small. *)
Definition small_calls : list scall := [SCWrite [9; 2] [-5; 7]; SCSetTarget 4096; SCWrite [4; 4] [1; 3]; SCClose 3].
Example C69_sum_case : let h := shist s_options [] small_calls in let sw := sstate s_options [] small_calls in
  simple_run isort s_options [] h sw /\ undisturbed h /\ IsClosed sw = true /\ fits (sw_writer sw) (file_of sw)
  /\ zsum (map (fun p => Z.abs (snd p)) (concat (written h))) = 16.
Proof.
  split; [apply check_simple_sound; vm_compute; reflexivity|]. split; [apply undisturbed_sound; vm_compute; reflexivity|].
  split; [vm_compute; reflexivity|]. split; [apply fits_sound; vm_compute; reflexivity|vm_compute; reflexivity].
Qed.
