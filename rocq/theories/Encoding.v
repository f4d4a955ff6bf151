(** Model of pkg/col/encoding.go (integer codecs) and of the library function
    encoding/binary.Uvarint that the reader uses for IDs. *)
From Verif Require Import Machine.

(** pkg/col/encoding.go:10-25 [deltaEncode] (w = [u64]) and
    pkg/col/encoding.go:46-61 [deltaEncodeInt64] (w = [i64]): the first value as
    is, then differences of neighbours in the element type. *)
Fixpoint delta_from (w : Z -> Z) (prev : Z) (l : list Z) : list Z :=
  match l with
  | [] => []
  | x :: l' => w (x - prev) :: delta_from w x l'
  end.

(** pkg/col/encoding.go:10-25, 46-61, over one element type. *)
Definition delta_encode_with (w : Z -> Z) (l : list Z) : list Z :=
  match l with
  | [] => []
  | x :: l' => x :: delta_from w x l'
  end.

(** pkg/col/encoding.go:10-25 and 46-61. *)
Definition deltaEncode : list Z -> list Z := delta_encode_with u64.
(** pkg/col/encoding.go:46-61 *)
Definition deltaEncodeInt64 : list Z -> list Z := delta_encode_with i64.

(** pkg/col/encoding.go:28-43 [deltaDecode], 64-79 [deltaDecodeInt64]. *)
Fixpoint undelta_from (w : Z -> Z) (prev : Z) (l : list Z) : list Z :=
  match l with
  | [] => []
  | d :: l' => let x := w (prev + d) in x :: undelta_from w x l'
  end.

(** pkg/col/encoding.go:28-43, 64-79, over one element type. *)
Definition delta_decode_with (w : Z -> Z) (l : list Z) : list Z :=
  match l with
  | [] => []
  | x :: l' => x :: undelta_from w x l'
  end.

(** pkg/col/encoding.go:28-43 and 64-79. *)
Definition deltaDecode : list Z -> list Z := delta_decode_with u64.
(** pkg/col/encoding.go:64-79 *)
Definition deltaDecodeInt64 : list Z -> list Z := delta_decode_with i64.

(** pkg/col/encoding.go:83-89 [int64ToUint64]:
    [uint64(^value+1) | (1<<63)] for negative values. *)
Definition int64ToUint64 (value : Z) : Z :=
  if value >=? 0 then u64 value
  else Z.lor (u64 (i64 (Z.lnot value + 1))) two63.

(** pkg/col/encoding.go:93-99 [uint64ToInt64]:
    [^int64(value&^(1<<63)) + 1] when the top bit is set. *)
Definition uint64ToInt64 (value : Z) : Z :=
  if Z.land value two63 =? 0 then i64 value
  else i64 (Z.lnot (i64 (Z.ldiff value two63)) + 1).

(** pkg/col/encoding.go:106-135 [encodeVarInt].  The loop runs at most ten times
    on a uint64; the fuel is ten (EncodingFacts.v proves it never runs out). *)
Fixpoint encodeVarInt_loop (fuel : nat) (value : Z) : list Z :=
  match fuel with
  | O => []
  | S fuel' =>
      if value >? 0 then
        let b := Z.land value 127 in
        let value' := Z.shiftr value 7 in
        (if value' >? 0 then Z.lor b 128 else b) :: encodeVarInt_loop fuel' value'
      else []
  end.

(** pkg/col/encoding.go:106-135. *)
Definition encodeVarInt (value : Z) : list Z :=
  if value =? 0 then [0] else encodeVarInt_loop 10 value.

(** pkg/col/encoding.go:139-171 [decodeVarInt].  Recursion over the remaining
    bytes; [shift] and [bytesRead] as in the code. *)
Fixpoint decodeVarInt_loop (data : list Z) (result shift bytesRead : Z) : Z * Z :=
  match data with
  | [] => (result, bytesRead)
  | b :: data' =>
      let bytesRead := bytesRead + 1 in
      let value := Z.land b 127 in
      let result := Z.lor result (u64 (Z.shiftl value shift)) in
      if Z.land b 128 =? 0 then (result, bytesRead)
      else
        let shift := shift + 7 in
        if shift >=? 70 then (result, bytesRead)
        else decodeVarInt_loop data' result shift bytesRead
  end.

(** pkg/col/encoding.go:139-171. *)
Definition decodeVarInt (data : list Z) : Z * Z := decodeVarInt_loop data 0 0 0.

(** pkg/col/encoding.go:176-188 [encodeSignedVarInt]:
    [uint64((value << 1) ^ (value >> 63))]. *)
Definition zigzag (value : Z) : Z :=
  u64 (Z.lxor (i64 (Z.shiftl value 1)) (Z.shiftr value 63)).
(** pkg/col/encoding.go:176-188 *)
Definition encodeSignedVarInt (value : Z) : list Z := encodeVarInt (zigzag value).

(** pkg/col/encoding.go:193-206 [decodeSignedVarInt]:
    [int64((zigzag >> 1) ^ (-(zigzag & 1)))] in uint64 arithmetic. *)
Definition unzigzag (zz : Z) : Z :=
  i64 (Z.lxor (Z.shiftr zz 1) (u64 (- (Z.land zz 1)))).
(** pkg/col/encoding.go:193-206 *)
Definition decodeSignedVarInt (data : list Z) : Z * Z :=
  let '(zz, bytesRead) := decodeVarInt data in (unzigzag zz, bytesRead).

(** Go 1.22 encoding/binary.Uvarint (not in /repo; called at
    pkg/col/reader_decode.go:127): returns (value, n); n = 0 when the buffer is
    too small, n < 0 on overflow of 64 bits. *)
Fixpoint uvarint_loop (buf : list Z) (i x s : Z) : Z * Z :=
  match buf with
  | [] => (0, 0)
  | b :: buf' =>
      if i =? 10 then (0, - (i + 1))
      else if b <? 128 then
        if (i =? 9) && (b >? 1) then (0, - (i + 1))
        else (Z.lor x (u64 (Z.shiftl b s)), i + 1)
      else uvarint_loop buf' (i + 1) (Z.lor x (u64 (Z.shiftl (Z.land b 127) s))) (s + 7)
  end.
(** encoding/binary.Uvarint, called at pkg/col/reader_decode.go:127. *)
Definition uvarint (buf : list Z) : Z * Z := uvarint_loop buf 0 0 0.
