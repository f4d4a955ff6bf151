(** Specification vocabulary for the example programs (C55). *)
From Verif Require Import Machine FileIO Aggregate Spec ExampleTools.

(** Ten consecutive 64-bit numbers of a file, from offset [p] on. *)
Definition cells (data : list Z) (p : Z) : list Z := map (fun i => le_val (slice data (p + 8 * Z.of_nat i) 8)) (seq 0 10).

(** What a dump of a file shows: the ten pairs at fixed places, and their statistics. *)
Definition dump_of (data : list Z) (d : exDump) : Prop :=
  let ids := cells data 160 in
  let values := map i64 (cells data 240) in
  d_pairs d = combine ids values /\ d_count d = 10
  /\ is_minimum (d_minID d) ids /\ is_maximum (d_maxID d) ids
  /\ is_minimum (d_minValue d) values /\ is_maximum (d_maxValue d) values
  /\ d_sum d = i64 (zsum values).

(** [res] adds up the index entries [es]. *)
Definition of_entries (es : list exEntry) (res : aggResult) : Prop :=
  a_count res = u32 (zsum (map x_count es)) /\ a_sum res = i64 (zsum (map x_sum es))
  /\ (es <> [] -> is_minimum (a_min res) (map x_minValue es) /\ is_maximum (a_max res) (map x_maxValue es)).

(** A full disk: no write succeeds, every seek does. *)
Definition full_disk : list fault :=
  repeat (Fault 0) 19 ++ [NoFault] ++ repeat (Fault 0) 6 ++ [NoFault] ++ repeat (Fault 0) 20 ++ repeat NoFault 3
  ++ [Fault 0] ++ repeat NoFault 2 ++ repeat (Fault 0) 9 ++ [NoFault; Fault 0; NoFault; Fault 0; Fault 0; NoFault].
