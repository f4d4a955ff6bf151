(** C08, the two encodings that mix a varint section with a fixed-width one. *)
From Coq Require Import Sorted.
From Verif Require Import Machine MachineFacts Encoding EncodingFacts FileIO Sroar SroarFacts Writer Spec Reader HalfFacts Examples PWriter.
Ltac Zify.zify_post_hook ::= Z.div_mod_to_equations.

(** Varint-ID: every block that was stored reads back with running sums in place of the IDs. *)
Theorem C08_varint_id_reads_back_summed : forall {Srr : Sroar} options faults h now w,
  finished_run options faults h now w -> encoding_of options = EncodingVarIntID ->
  exists r blocks, stored h blocks /\ NewReader (bytes_of w) = Ok r /\ BlockCount r = zlen blocks
    /\ Forall (fun b => zlen (concat (map encodeSignedVarInt (snd b))) = 8 * zlen (snd b)) blocks
    /\ forall i, is_u64 i ->
         match nth_error blocks (Z.to_nat i) with
         | Some b => exists values, GetPairs r i = Ok (deltaDecode (fst b), values) /\ zlen values = zlen (snd b)
         | None => GetPairs r i = Err ErrIndex
         end.
Proof. exact @varint_id_read_back. Qed.
Print Assumptions C08_varint_id_reads_back_summed.

(** Varint-value: every block that was stored reads back with its values; the IDs are decoded
    from bytes of another format, and there may be fewer of them than values. *)
Theorem C08_varint_value_reads_back_values : forall {Srr : Sroar} options faults h now w,
  finished_run options faults h now w -> encoding_of options = EncodingVarIntValue ->
  exists r blocks, stored h blocks /\ NewReader (bytes_of w) = Ok r /\ BlockCount r = zlen blocks
    /\ Forall (fun b => zlen (concat (map encodeVarInt (deltaEncode (fst b)))) = 8 * zlen (fst b)) blocks
    /\ forall i, is_u64 i ->
         match nth_error blocks (Z.to_nat i) with
         | Some b => GetPairs r i = Err ErrVarint \/ exists ids, GetPairs r i = Ok (ids, snd b) /\ zlen ids <= zlen (fst b)
         | None => GetPairs r i = Err ErrIndex
         end.
Proof. exact @varint_value_read_back. Qed.
Print Assumptions C08_varint_value_reads_back_values.

(** Both refuse ordinary data: values within 2^48 of zero under varint-ID, ascending IDs below
    2^49 under varint-value.  Whatever fails, WriteBlock reports an error other than the two
    after which (part of) the block is in the file; when nothing fails the error is the size
    mismatch. *)
Theorem C08_half_varint_refuses_small : forall {Srr : Sroar} options faults h w ids vals,
  running options faults h w -> no_torn_block h -> typed_block ids vals -> well_formed ids vals ->
  (encoding_of options = EncodingVarIntID /\ Forall (fun v => - 2 ^ 48 <= v < 2 ^ 48) vals)
  \/ (encoding_of options = EncodingVarIntValue /\ StronglySorted Z.le ids /\ Forall (fun x => x < 2 ^ 49) ids) ->
  (exists e, fst (WriteBlock ids vals w) = Err e /\ e <> ErrSync /\ forall n, e <> ErrBlockFull n)
  /\ (fault_free faults -> not_closed h -> fst (WriteBlock ids vals w) = Err ErrMismatch).
Proof. exact @half_varint_refuses. Qed.
Print Assumptions C08_half_varint_refuses_small.

(** The hypotheses are met: a finished file with a stored block for each of the two, and a
    writer with such a block that is then given ordinary data. *)
Definition half_calls (e : Z) : list wcall :=
  [CWriteBlock (if e =? EncodingVarIntID then [1; 2] else [1125899906842624; 2251799813685248])
               (if e =? EncodingVarIntID then [1125899906842624; -1125899906842625] else [1; 2])].
Example C08_half_case : forall e, e = EncodingVarIntID \/ e = EncodingVarIntValue ->
  (exists h now w, finished_run [WithEncoding e] [] h now w /\ map snd h = [Ok 0])
  /\ exists h w, running [WithEncoding e] [] h w /\ map snd h = [Ok 0] /\ no_torn_block h /\ not_closed h
       /\ typed_block [3; 7] [10; -30] /\ well_formed [3; 7] [10; -30]
       /\ ((e = EncodingVarIntID /\ Forall (fun v => - 2 ^ 48 <= v < 2 ^ 48) [10; -30])
           \/ (e = EncodingVarIntValue /\ StronglySorted Z.le [3; 7] /\ Forall (fun x => x < 2 ^ 49) [3; 7])).
Proof.
  intros e He.
  assert (HH : hist [WithEncoding e] [] (half_calls e) = combine (half_calls e) [Ok 0]) by (destruct He as [-> | ->]; vm_compute; reflexivity).
  assert (HF : check_finished [WithEncoding e] [] (half_calls e) 5 = true) by (destruct He as [-> | ->]; vm_compute; reflexivity).
  assert (HR : check_running [WithEncoding e] [] (half_calls e) = true) by (destruct He as [-> | ->]; vm_compute; reflexivity).
  apply check_finished_sound in HF. apply check_running_sound in HR. rewrite HH in HF, HR. split.
  - do 3 eexists. split; [exact HF|]. reflexivity.
  - do 2 eexists. split; [exact HR|]. split; [reflexivity|]. split.
    { intros ids vals r [E|[]]. apply (f_equal snd) in E. cbn [snd] in E. subst. split; discriminate. }
    split. { intros c r [E|[]]. apply (f_equal fst) in E. cbn [fst] in E. subst. reflexivity. }
    split. { unfold typed_block, is_u64, is_i64, two64, two63, max_items. repeat split; repeat constructor; try lia; vm_compute; discriminate. }
    split. { split; [reflexivity|discriminate]. }
    destruct He as [-> | ->]; [left|right].
    + split; [reflexivity|]. repeat constructor; lia.
    + split; [reflexivity|]. split; repeat constructor; lia.
Qed.
