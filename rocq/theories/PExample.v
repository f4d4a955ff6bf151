(** The example programs write_example and read_example (C55).  Only statements and
    concrete cases; proofs are in ExampleFacts.v. *)
From Verif Require Import Machine MachineFacts Encoding Sroar SroarFacts FileIO Writer Reader Aggregate Spec ExampleTools ExampleSpec ExampleFacts
  Examples PAggregate.

(** C55: read_example shows what write_example wrote, whatever the clock and the
    checksum function. *)
Theorem C55_example_round_trip : forall now crc,
  exists data, writeExample now crc [] = (Ok 396, data)
  /\ exists r, exNewReader data = Ok r /\ x_version r = 1 /\ x_blockCount r = 1
    /\ exDumpKVPairs r = Ok (mkDump (combine exIDs exValues) 10 1 45 100 1000 5500)
    /\ exAggregate r = mkAgg 10 100 1000 5500 (f64_of_Z 550).
Proof. exact example_round_trip. Qed.
Print Assumptions C55_example_round_trip.

(** C55: the library and the examples have different file formats: no file is accepted
    by the readers of both. *)
Theorem C55_formats_disjoint : forall {Srr : Sroar} data r x, ~ (NewReader data = Ok r /\ exNewReader data = Ok x).
Proof. exact @formats_disjoint. Qed.
Print Assumptions C55_formats_disjoint.
Example C55_formats_case : exists r, NewReader (bytes_of agg_writer) = Ok r.
Proof. exists agg_reader. apply opened_ok. vm_compute. reflexivity. Qed.

(** C55: any file read_example opens contains all the index entries it announces; its
    dump never fails and prints the ten pairs at fixed offsets with their statistics; its
    aggregate is the sum of the index entries. *)
Theorem C55_accepted_files : forall data r, Forall is_byte data -> exNewReader data = Ok r ->
  zlen (x_entries r) = le_val (slice data 320 4) /\ 324 + 56 * zlen (x_entries r) <= zlen data
  /\ le_val (slice data (zlen data - 8) 8) = ExMagic
  /\ (exists d, exDumpKVPairs r = Ok d /\ dump_of data d)
  /\ of_entries (x_entries r) (exAggregate r).
Proof.
  intros data r HB H. destruct (accepted_entries data r HB H) as (_ & H1 & H2 & H3). split; [exact H1|]. split; [exact H2|]. split; [exact H3|].
  split; [exact (dump_spec data r HB H)|exact (aggregate_entries data r H)].
Qed.
Print Assumptions C55_accepted_files.

(** C55, "the dump shows all pairs of the file" is false: a file announcing two blocks of
    2^32-1 pairs (no such file holds them) opens, and the dump prints ten pairs. *)
Definition ex_data : list Z := snd (writeExample 7 (fun _ => 9) []).
Definition ex_two : list Z :=
  ztake 16 ex_data ++ le_bytes 8 2 ++ slice ex_data 24 296 ++ le_bytes 4 2
  ++ slice ex_data 324 52 ++ le_bytes 4 4294967295 ++ slice ex_data 324 52 ++ le_bytes 4 4294967295 ++ slice ex_data 380 16.
Definition ex_checks (x : res exReader) : bool :=
  match x with
  | Ok r => (x_blockCount r =? 2) && (zlen (x_entries r) =? 2) && forallb (fun e => x_count e =? 4294967295) (x_entries r)
            && match exDumpKVPairs r with Ok d => zlen (d_pairs d) =? 10 | _ => false end
            && (a_count (exAggregate r) =? 4294967294)
  | _ => false
  end.
Lemma ex_checks_sound x : ex_checks x = true -> exists r, x = Ok r /\ x_blockCount r = 2 /\ map x_count (x_entries r) = [4294967295; 4294967295]
  /\ (exists d, exDumpKVPairs r = Ok d /\ zlen (d_pairs d) = 10) /\ a_count (exAggregate r) = 4294967294.
Proof.
  destruct x as [r|e|]; cbn [ex_checks]; try discriminate. rewrite !andb_true_iff. intros [[[[H1 H2] H3] H4] H5].
  exists r. split; [reflexivity|]. split; [lia|]. split.
  - destruct (x_entries r) as [|e1 [|e2 [|e3 l]]]; cbn [forallb andb] in H3; unfold zlen in H2; cbn [length] in H2; try lia.
    cbn [map]. repeat f_equal; lia.
  - split; [|lia]. destruct (exDumpKVPairs r) as [d|e|]; try discriminate. exists d. split; [reflexivity|lia].
Qed.
Theorem C55_dump_complete_refuted : Forall is_byte ex_two /\ exists r, exNewReader ex_two = Ok r /\ x_blockCount r = 2
  /\ map x_count (x_entries r) = [4294967295; 4294967295]
  /\ (exists d, exDumpKVPairs r = Ok d /\ zlen (d_pairs d) = 10) /\ a_count (exAggregate r) = 4294967294.
Proof.
  split; [|apply ex_checks_sound; vm_compute; reflexivity].
  eapply forallb_Forall' with (f := fun b => (0 <=? b) && (b <? 256)); [|vm_compute; reflexivity].
  unfold is_byte, two8. intros x Hx. lia.
Qed.
Print Assumptions C55_dump_complete_refuted.

(** C55, "the file ends with the size of the footer (60), the checksum and the magic
    number" and "the block starts at the offset the index gives (64)" are false: the
    checksum is written over the size, and the block starts at 68. *)
Theorem C55_footer_size_refuted : forall now crc,
  exists data, writeExample now crc [] = (Ok 396, data)
  /\ zlen data = 396 /\ slice data 380 8 = le_bytes 8 (crc (ztake 380 data)) /\ slice data 388 8 = le_bytes 8 ExMagic
  /\ le_val (slice data 320 4) = 1 /\ le_val (slice data 324 8) = 64 /\ slice data 68 40 = concat (map (le_bytes 8) [1; 45; 100; 1000; 5500])
  /\ le_val (slice data 372 8) <> 60.
Proof. exact footer_size_lost. Qed.
Print Assumptions C55_footer_size_refuted.

(** C55, "write_example reports I/O errors" is false: on a full disk it reports success
    and leaves an empty file, which read_example rejects. *)
Theorem C55_write_errors_refuted : forall now crc, writeExample now crc full_disk = (Ok 0, []) /\ exNewReader [] = Err ErrIO.
Proof. exact full_disk_reported_fine. Qed.
Print Assumptions C55_write_errors_refuted.
