(** Properties C01-C06: integer codecs.  Only statements; proofs are in EncodingFacts.v. *)
From Verif Require Import Machine MachineFacts Encoding EncodingFacts.

(** C01: decoding an encoded uint64, whatever follows it, gives the number back and
    consumes exactly the encoded bytes; the length is the least number of 7-bit groups. *)
Theorem C01_varint_round_trip : forall v rest, is_u64 v ->
  decodeVarInt (encodeVarInt v ++ rest) = (v, zlen (encodeVarInt v))
  /\ Forall is_byte (encodeVarInt v)
  /\ 1 <= zlen (encodeVarInt v) <= 10
  /\ v < 2 ^ (7 * zlen (encodeVarInt v))
  /\ (forall k, 1 <= k -> v < 2 ^ (7 * k) -> zlen (encodeVarInt v) <= k).
Proof. exact varint_round_trip. Qed.
Print Assumptions C01_varint_round_trip.
Example C01_case : is_u64 18446744073709551615
  /\ encodeVarInt 18446744073709551615 = [255; 255; 255; 255; 255; 255; 255; 255; 255; 1]
  /\ decodeVarInt ([172; 2] ++ [255; 7]) = (300, 2) /\ encodeVarInt 300 = [172; 2].
Proof. vm_compute. repeat split; congruence. Qed.

(** C01, injectivity of concatenation: two different sequences of numbers never have
    the same bytes (the code is a prefix code). *)
Theorem C01_varint_prefix_code : forall v w r1 r2, is_u64 v -> is_u64 w ->
  encodeVarInt v ++ r1 = encodeVarInt w ++ r2 -> v = w /\ r1 = r2.
Proof. exact varint_prefix_code. Qed.
Print Assumptions C01_varint_prefix_code.

(** C02: the same for int64 with zigzag. *)
Theorem C02_signed_varint_round_trip : forall v rest, is_i64 v ->
  decodeSignedVarInt (encodeSignedVarInt v ++ rest) = (v, zlen (encodeSignedVarInt v))
  /\ Forall is_byte (encodeSignedVarInt v)
  /\ 1 <= zlen (encodeSignedVarInt v) <= 10.
Proof. exact signed_varint_round_trip. Qed.
Print Assumptions C02_signed_varint_round_trip.
Example C02_case : is_i64 min_int64 /\ decodeSignedVarInt (encodeSignedVarInt min_int64 ++ [3]) = (min_int64, 10)
  /\ encodeSignedVarInt (-3) = [5].
Proof. vm_compute. repeat split; congruence. Qed.

(** C03: the reader decodes with binary.Uvarint; on everything the encoder produces it
    agrees with the encoder's own decoder. *)
Theorem C03_reader_decodes_writer_varints : forall v rest, is_u64 v ->
  uvarint (encodeVarInt v ++ rest) = (v, zlen (encodeVarInt v))
  /\ uvarint (encodeVarInt v ++ rest) = decodeVarInt (encodeVarInt v ++ rest).
Proof. exact uvarint_agrees. Qed.
Print Assumptions C03_reader_decodes_writer_varints.
Example C03_case : uvarint ([172; 2] ++ [9]) = (300, 2).
Proof. reflexivity. Qed.

(** C04: on arbitrary bytes both decoders stop, report a plausible length and a value
    in range. *)
Theorem C04_varint_decoding_total : forall data,
  (is_u64 (fst (decodeVarInt data)) /\ 0 <= snd (decodeVarInt data) <= Z.min 10 (zlen data)
   /\ (data <> [] -> 1 <= snd (decodeVarInt data)))
  /\ (is_i64 (fst (decodeSignedVarInt data)) /\ 0 <= snd (decodeSignedVarInt data) <= Z.min 10 (zlen data)
   /\ (data <> [] -> 1 <= snd (decodeSignedVarInt data))).
Proof. exact decoding_total. Qed.
Print Assumptions C04_varint_decoding_total.
Example C04_case : decodeVarInt (repeat 255 12) = (18446744073709551615, 10) /\ decodeVarInt [128; 128] = (0, 2)
  /\ decodeVarInt [] = (0, 0).
Proof. vm_compute. auto. Qed.

(** C05: delta coding. *)
Theorem C05_delta_round_trip :
  (forall l, Forall is_u64 l -> deltaDecode (deltaEncode l) = l /\ length (deltaEncode l) = length l)
  /\ (forall l, Forall is_i64 l -> deltaDecodeInt64 (deltaEncodeInt64 l) = l
                                   /\ length (deltaEncodeInt64 l) = length l).
Proof. exact delta_round_trip. Qed.
Print Assumptions C05_delta_round_trip.
Example C05_case : deltaEncode [5; 3; 18446744073709551615] = [5; 18446744073709551614; 18446744073709551612]
  /\ deltaEncodeInt64 [max_int64; min_int64; 7] = [max_int64; 1; -9223372036854775801]
  /\ Forall is_u64 [5; 3; 18446744073709551615].
Proof. split; [reflexivity|]. split; [reflexivity|]. repeat constructor; unfold two64; lia. Qed.

(** C06: what a stored statistic reads back as: itself, except that the minimum int64
    becomes 0. *)
Theorem C06_stat_conversion : forall v, is_i64 v ->
  is_u64 (int64ToUint64 v)
  /\ (uint64ToInt64 (int64ToUint64 v) = v <-> v <> min_int64)
  /\ uint64ToInt64 (int64ToUint64 min_int64) = 0.
Proof. exact stat_conversion. Qed.
Print Assumptions C06_stat_conversion.
Theorem C06_stat_conversion_refuted : exists v, is_i64 v /\ uint64ToInt64 (int64ToUint64 v) <> v.
Proof. exact stat_conversion_loses_min. Qed.
Print Assumptions C06_stat_conversion_refuted.
Example C06_case : uint64ToInt64 (int64ToUint64 (-5)) = -5 /\ uint64ToInt64 (int64ToUint64 max_int64) = max_int64.
Proof. vm_compute. auto. Qed.
