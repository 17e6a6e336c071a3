(** Model of encoder.go and decoder.go (and of the functions of Go's
    encoding/binary and math/bits they call). *)
From Coq Require Import ZArith String List Bool.
From Verif Require Import Base.
Import ListNotations.
Local Open Scope Z_scope.

(** ** encoding/binary *)

(** Go [binary.PutUvarint] (called at encoder.go:82, binary-encode.go:494):
      for x >= 0x80 { buf[i] = byte(x) | 0x80; x >>= 7; i++ }; buf[i] = byte(x).
    [k] bounds the number of bytes; the callers pass a 10-byte array. *)
Fixpoint put_uvarint (k : nat) (x : Z) : bytes :=
  match k with
  | O => []
  | S k' => if x <? 128 then [x] else Z.lor (x mod 256) 128 :: put_uvarint k' (Z.shiftr x 7)
  end.

(** Go [binary.Uvarint]: returns the value and a signed count.  This is the
    current version of the loop (Go >= 1.15), which gives up at the 11th byte. *)
Fixpoint uvarint_loop (bz : bytes) (i : nat) (x : Z) (s : Z) : Z * Z :=
  match bz with
  | [] => (0, 0)
  | b :: rest =>
      if (i =? 10)%nat then (0, - (Z.of_nat i + 1))
      else if b <? 128 then
        if ((i =? 9)%nat && (1 <? b)) then (0, - (Z.of_nat i + 1))
        else (Z.lor x (u64 (Z.shiftl b s)), Z.of_nat i + 1)
      else uvarint_loop rest (S i) (Z.lor x (u64 (Z.shiftl (Z.land b 127) s))) (s + 7)
  end.
Definition uvarint (bz : bytes) : Z * Z := uvarint_loop bz 0 0 0.

(** The same function as shipped with Go 1.12-1.14 (go.mod says go 1.12):
      if i > 9 || i == 9 && b > 1 { return 0, -(i + 1) }
    tested only at the terminating byte. *)
Fixpoint uvarint112_loop (bz : bytes) (i : nat) (x : Z) (s : Z) : Z * Z :=
  match bz with
  | [] => (0, 0)
  | b :: rest =>
      if b <? 128 then
        if ((9 <? i)%nat || ((i =? 9)%nat && (1 <? b))) then (0, - (Z.of_nat i + 1))
        else (Z.lor x (u64 (Z.shiftl b s)), Z.of_nat i + 1)
      else uvarint112_loop rest (S i) (Z.lor x (u64 (Z.shiftl (Z.land b 127) s))) (s + 7)
  end.
Definition uvarint112 (bz : bytes) : Z * Z := uvarint112_loop bz 0 0 0.

(** Go [binary.PutVarint]: ux := uint64(x) << 1; if x < 0 { ux = ^ux }. *)
Definition put_varint_u (x : Z) : Z :=
  let ux := u64 (Z.shiftl (u64 x) 1) in
  if x <? 0 then Z.lxor ux (2 ^ 64 - 1) else ux.

(** Go [binary.Varint]: ux, n := Uvarint(buf); x := int64(ux >> 1); if ux&1 != 0 { x = ^x }. *)
Definition varint (bz : bytes) : Z * Z :=
  let '(ux, n) := uvarint bz in
  let x := i64 (Z.shiftr ux 1) in
  ((if negb (Z.land ux 1 =? 0) then Z.lnot x else x), n).

(** Go [binary.LittleEndian.PutUint32/64]: byte(v), byte(v>>8), ... *)
Fixpoint put_le (k : nat) (v : Z) : bytes :=
  match k with
  | O => []
  | S k' => v mod 256 :: put_le k' (Z.shiftr v 8)
  end.

(** Go [binary.LittleEndian.Uint32/64] on a slice of the right length. *)
Fixpoint get_le (bz : bytes) : Z :=
  match bz with
  | [] => 0
  | b :: bz' => Z.lor b (Z.shiftl (get_le bz') 8)
  end.

(** Go [bits.Len64]. *)
Definition len64 (u : Z) : Z := if u =? 0 then 0 else Z.log2 u + 1.

(** ** encoder.go: every encoder is given by the bytes it writes *)

(** encoder.go:80-85 *)
Definition encode_uvarint (u : Z) : bytes := put_uvarint 10 u.
(** encoder.go:37-42 *)
Definition encode_varint (i : Z) : bytes := put_uvarint 10 (put_varint_u i).
(** encoder.go:15-17 *)
Definition encode_int8 (i : Z) : bytes := encode_varint i.
(** encoder.go:19-21 *)
Definition encode_int16 (i : Z) : bytes := encode_varint i.
(** encoder.go:23-28 *)
Definition encode_int32 (i : Z) : bytes := put_le 4 (u32 i).
(** encoder.go:30-35 *)
Definition encode_int64 (i : Z) : bytes := put_le 8 (u64 i).
(** encoder.go:51-53 *)
Definition encode_byte (b : Z) : bytes := encode_uvarint b.
(** encoder.go:55-57 *)
Definition encode_uint8 (u : Z) : bytes := encode_uvarint u.
(** encoder.go:59-61 *)
Definition encode_uint16 (u : Z) : bytes := encode_uvarint u.
(** encoder.go:63-68 *)
Definition encode_uint32 (u : Z) : bytes := put_le 4 u.
(** encoder.go:70-75 *)
Definition encode_uint64 (u : Z) : bytes := put_le 8 u.
(** encoder.go:97-104 *)
Definition encode_bool (b : bool) : bytes := if b then encode_uint8 1 else encode_uint8 0.
(** encoder.go:107-109; a float is given by its IEEE bit pattern *)
Definition encode_float32 (bits : Z) : bytes := encode_uint32 bits.
(** encoder.go:112-114 *)
Definition encode_float64 (bits : Z) : bytes := encode_uint64 bits.

(** encoder.go:87-92 *)
Definition uvarint_size (u : Z) : Z := if u =? 0 then 1 else (len64 u + 6) / 7.
(** encoder.go:44-46: (uint64(i) << 1) ^ uint64(i>>63), an arithmetic shift *)
Definition varint_size (i : Z) : Z :=
  uvarint_size (Z.lxor (u64 (Z.shiftl (u64 i) 1)) (u64 (Z.shiftr i 63))).

(** encoder.go:178-185 *)
Definition encode_byte_slice (bz : bytes) : bytes := encode_uvarint (zlen bz) ++ bz.
(** encoder.go:187-189 *)
Definition byte_slice_size (bz : bytes) : Z := uvarint_size (zlen bz) + zlen bz.
(** encoder.go:191-193 *)
Definition encode_string (s : bytes) : bytes := encode_byte_slice s.

(** amino.go:98-108 Typ3 *)
Definition Typ3Varint : Z := 0.
Definition Typ38Byte : Z := 1.
Definition Typ3ByteLength : Z := 2.
Definition Typ3_4Byte : Z := 5.

(** binary-encode.go:481-497; [num] is a uint32, [typ] a byte *)
Definition encode_field_key (num typ : Z) : eres bytes :=
  if negb (Z.land typ 248 =? 0) then EPanic "invalid Typ3 byte"%string
  else if 2 ^ 29 - 1 <? num then EPanic "invalid field number"%string
  else EOk (put_uvarint 10 (Z.lor (u64 (Z.shiftl num 3)) typ)).

(** encoder.go:116-124 *)
Definition min_seconds : Z := -62135596800.
Definition max_seconds : Z := 253402300800.
Definition max_nanos : Z := 999999999.

(** encoder.go:137-176.  A [time.Time] is seen through [Unix()] (seconds, an
    int64) and [Nanosecond()]; location and monotonic reading are not modelled.
    Returns the bytes written and the error (bytes may be written before an
    error is found). *)
Definition encode_time (s nsec : Z) : eres (bytes * option error) :=
  let nanos (bz : bytes) : eres (bytes * option error) :=
    let ns := i32 nsec in
    if ns =? 0 then EOk (bz, None)
    else if (ns <? 0) || (max_nanos <? ns) then EOk (bz, Some "invalid time: nanoseconds"%string)
    else ebind (encode_field_key 2 Typ3Varint) (fun k =>
         EOk (bz ++ k ++ encode_uvarint (u64 ns), None)) in
  if s =? 0 then nanos []
  else if (s <? min_seconds) || (max_seconds <=? s) then EOk ([], Some "invalid time: seconds"%string)
  else ebind (encode_field_key 1 Typ3Varint) (fun k => nanos (k ++ encode_uvarint (u64 s))).

(** ** decoder.go *)

(** decoder.go:132-144 *)
Definition decode_uvarint (bz : bytes) : dres Z :=
  let '(u, n) := uvarint bz in
  if n =? 0 then DRet u 0 (Some "buffer too small"%string)
  else if n <? 0 then DRet u (Z.to_nat (- n)) (Some "EOF decoding uvarint"%string)
  else DRet u (Z.to_nat n) None.

(** decoder.go:64-76 *)
Definition decode_varint (bz : bytes) : dres Z :=
  let '(i, n) := varint bz in
  if n =? 0 then DRet i 0 (Some "buffer too small"%string)
  else if n <? 0 then DRet i (Z.to_nat (- n)) (Some "EOF decoding varint"%string)
  else DRet i (Z.to_nat n) None.

(** The shape shared by decoder.go:14-40 and 85-108: decode wide, check the
    range, narrow. *)
Definition narrow (r : dres Z) (lo hi : Z) (msg : error) (conv : Z -> Z) : dres Z :=
  match r with
  | DRet x n (Some e) => DRet 0 n (Some e)
  | DRet x n None => if (x <? lo) || (hi <? x) then DRet 0 n (Some msg) else DRet (conv x) n None
  | r => r
  end.

(** decoder.go:14-26 *)
Definition decode_int8 (bz : bytes) : dres Z :=
  narrow (decode_varint bz) (-128) 127 "EOF decoding int8"%string (iwrap 8).
(** decoder.go:28-40 *)
Definition decode_int16 (bz : bytes) : dres Z :=
  narrow (decode_varint bz) (-32768) 32767 "EOF decoding int16"%string (iwrap 16).
(** decoder.go:85-96 (a uint64 is never below 0) *)
Definition decode_uint8 (bz : bytes) : dres Z :=
  narrow (decode_uvarint bz) 0 255 "EOF decoding uint8"%string (uwrap 8).
(** decoder.go:81-83 *)
Definition decode_byte (bz : bytes) : dres Z := decode_uint8 bz.
(** decoder.go:97-108 *)
Definition decode_uint16 (bz : bytes) : dres Z :=
  narrow (decode_uvarint bz) 0 65535 "EOF decoding uint16"%string (uwrap 16).

(** The shape shared by the fixed-size decoders (decoder.go:42-62, 110-130, 168-191). *)
Definition decode_fixed (size : nat) (conv : Z -> Z) (msg : error) (bz : bytes) : dres Z :=
  if (length bz <? size)%nat then DRet 0 0 (Some msg)
  else DRet (conv (get_le (firstn size bz))) size None.

(** decoder.go:42-51 *)
Definition decode_int32 : bytes -> dres Z := decode_fixed 4 i32 "EOF decoding int32"%string.
(** decoder.go:53-62 *)
Definition decode_int64 : bytes -> dres Z := decode_fixed 8 i64 "EOF decoding int64"%string.
(** decoder.go:110-119 *)
Definition decode_uint32 : bytes -> dres Z := decode_fixed 4 (fun x => x) "EOF decoding uint32"%string.
(** decoder.go:121-130 *)
Definition decode_uint64 : bytes -> dres Z := decode_fixed 8 (fun x => x) "EOF decoding uint64"%string.
(** decoder.go:168-178 *)
Definition decode_float32 : bytes -> dres Z := decode_fixed 4 (fun x => x) "EOF decoding float32"%string.
(** decoder.go:181-191 *)
Definition decode_float64 : bytes -> dres Z := decode_fixed 8 (fun x => x) "EOF decoding float64"%string.

(** decoder.go:149-165 *)
Definition decode_bool (bz : bytes) : dres bool :=
  match bz with
  | [] => DRet false 0 (Some "EOF decoding bool"%string)
  | b :: _ =>
      if b =? 0 then DRet false 1 None
      else if b =? 1 then DRet true 1 None
      else DRet false 1 (Some "invalid bool"%string)
  end.

(** binary-decode.go:959-978; the result is (num, typ) *)
Definition decode_field_key (bz : bytes) : dres (Z * Z) :=
  match decode_uvarint bz with
  | DRet v n (Some e) => DRet (0, 0) n (Some e)
  | DRet v n None =>
      let typ := Z.land v 7 in
      let num64 := Z.shiftr v 3 in
      if 2 ^ 29 - 1 <? num64 then DRet (0, typ) n (Some "invalid field num"%string)
      else DRet (u32 num64, typ) n None
  | DPanic p => DPanic p
  | DFuel => DFuel
  end.

(** decoder.go:225-255.  Result: seconds, count, and the remaining bytes (the Go
    code advances the caller's slice through a pointer). *)
Definition decode_seconds (bz : bytes) : dres (Z * bytes) :=
  match decode_field_key bz with
  | DRet _ _ (Some e) => DRet (0, bz) 0 (Some e)
  | DRet (num, typ) n1 None =>
      if (num =? 1) && (typ =? Typ3Varint) then
        slide bz n1 (fun bz1 =>
        match decode_uvarint bz1 with
        | DRet sec n2 err =>
            slide bz1 n2 (fun bz2 =>
            match err with
            | Some e => DRet (0, bz2) (n1 + n2) (Some e)
            | None =>
                let res := i64 sec in
                if (res <? min_seconds) || (max_seconds <=? res)
                then DRet (0, bz2) (n1 + n2) (Some "invalid time: seconds"%string)
                else DRet (res, bz2) (n1 + n2) None
            end)
        | DPanic p => DPanic p
        | DFuel => DFuel
        end)
      else if (num =? 2) && (typ =? Typ3Varint) then DRet (0, bz) 0 None
      else DRet (0, bz) 0 (Some "expected field number 1 <Varint> or field number 2 <Varint>"%string)
  | DPanic p => DPanic p
  | DFuel => DFuel
  end.

(** decoder.go:257-278; [n] is the caller's counter *)
Definition decode_nanos (bz : bytes) (n : nat) : dres Z :=
  match decode_field_key bz with
  | DRet _ _ (Some e) => DRet 0 n (Some e)
  | DRet (num, typ) n1 None =>
      if (num =? 2) && (typ =? Typ3Varint) then
        slide bz n1 (fun bz1 =>
        match decode_uvarint bz1 with
        | DRet nsec n2 err =>
            slide bz1 n2 (fun _ =>
            match err with
            | Some e => DRet 0 (n + n1 + n2) (Some e)
            | None =>
                if max_nanos <? nsec
                then DRet 0 (n + n1 + n2) (Some "invalid time: nanoseconds"%string)
                else DRet (i32 nsec) (n + n1 + n2) None
            end)
        | DPanic p => DPanic p
        | DFuel => DFuel
        end)
      else DRet 0 n None
  | DPanic p => DPanic p
  | DFuel => DFuel
  end.

(** decoder.go:211-222: the second half of [DecodeTime], after the seconds. *)
Definition decode_time_nanos (sec : Z) (bz : bytes) (n : nat) : dres (Z * Z) :=
  match bz with
  | [] => DRet (sec, 0) n None
  | _ =>
      match decode_nanos bz n with
      | DRet _ n' (Some e) => DRet (0, 0) n' (Some e)
      | DRet nsec n' None => DRet (sec, nsec) n' None
      | DPanic p => DPanic p
      | DFuel => DFuel
      end
  end.

(** decoder.go:198-223.  The result is (seconds, nanoseconds) since 1970;
    on error the returned time is 1970 (amino.go zeroTime). *)
Definition decode_time (bz : bytes) : dres (Z * Z) :=
  match bz with
  | [] => decode_time_nanos 0 [] 0
  | _ =>
      match decode_seconds bz with
      | DRet _ n (Some e) => DRet (0, 0) n (Some e)
      | DRet (sec, bz1) n None => decode_time_nanos sec bz1 n
      | DPanic p => DPanic p
      | DFuel => DFuel
      end
  end.

(** decoder.go:280-299.  [int(count) < 0] on a 64-bit machine. *)
Definition decode_byte_slice (bz : bytes) : dres bytes :=
  match decode_uvarint bz with
  | DRet count n err =>
      slide bz n (fun bz1 =>
      match err with
      | Some e => DRet [] n (Some e)
      | None =>
          if i64 count <? 0 then DRet [] n (Some "invalid negative length decoding []byte"%string)
          else if zlen bz1 <? i64 count then DRet [] n (Some "insufficient bytes decoding []byte"%string)
          else DRet (firstn (Z.to_nat (i64 count)) bz1) (n + Z.to_nat (i64 count)) None
      end)
  | DPanic p => DPanic p
  | DFuel => DFuel
  end.

(** decoder.go:301-306 *)
Definition decode_string (bz : bytes) : dres bytes := decode_byte_slice bz.
