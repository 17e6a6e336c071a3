(** Model of the functions that talk to an [io.Writer] or an [io.Reader]:
    encoder.go with a writer that may fail, [MarshalBinaryLengthPrefixedWriter]
    and [UnmarshalBinaryLengthPrefixedReader] (amino.go). *)
From Coq Require Import ZArith String List Bool.
From Verif Require Import Base Prims Types Codec BinEnc BinDec Amino.
Import ListNotations.
Local Open Scope Z_scope.

(** ** Writers *)

(** Result of a Go function that writes to [w] and returns an error: the error
    and the state of the writer; or a panic. *)
Inductive wres (W : Type) :=
| WRet (e : option error) (w : W)
| WPanic (p : panicmsg).
Arguments WRet {W} _ _.
Arguments WPanic {W} _.

Section Writer.
  Variable W : Type.
  (** [w.Write(p)] returns [(n, err)] and leaves the writer in a new state. *)
  Variable write : W -> bytes -> nat * option error * W.

  (** [_, err = w.Write(bz); return] (encoder.go:26-27, 33-34, 40-41, 66-67, 73-74, 83-84, 183-184). *)
  Definition w_write (w : W) (bz : bytes) : wres W :=
    let '(_, e, w') := write w bz in WRet e w'.

  (** [if err != nil { return }] between two steps. *)
  Definition w_then (r : wres W) (k : W -> wres W) : wres W :=
    match r with
    | WRet None w => k w
    | WRet (Some e) w => WRet (Some e) w
    | WPanic p => WPanic p
    end.

  (** encoder.go:37-42 *)
  Definition w_varint (w : W) (i : Z) : wres W := w_write w (encode_varint i).
  (** encoder.go:80-85 *)
  Definition w_uvarint (w : W) (u : Z) : wres W := w_write w (encode_uvarint u).
  (** encoder.go:15-17 *)
  Definition w_int8 (w : W) (i : Z) : wres W := w_varint w i.
  (** encoder.go:19-21 *)
  Definition w_int16 (w : W) (i : Z) : wres W := w_varint w i.
  (** encoder.go:23-28 *)
  Definition w_int32 (w : W) (i : Z) : wres W := w_write w (put_le 4 (u32 i)).
  (** encoder.go:30-35 *)
  Definition w_int64 (w : W) (i : Z) : wres W := w_write w (put_le 8 (u64 i)).
  (** encoder.go:51-53 *)
  Definition w_byte (w : W) (b : Z) : wres W := w_uvarint w b.
  (** encoder.go:55-57 *)
  Definition w_uint8 (w : W) (u : Z) : wres W := w_uvarint w u.
  (** encoder.go:59-61 *)
  Definition w_uint16 (w : W) (u : Z) : wres W := w_uvarint w u.
  (** encoder.go:63-68 *)
  Definition w_uint32 (w : W) (u : Z) : wres W := w_write w (put_le 4 u).
  (** encoder.go:70-75 *)
  Definition w_uint64 (w : W) (u : Z) : wres W := w_write w (put_le 8 u).
  (** encoder.go:97-104 *)
  Definition w_bool (w : W) (b : bool) : wres W := if b then w_uint8 w 1 else w_uint8 w 0.
  (** encoder.go:107-109 *)
  Definition w_float32 (w : W) (bits : Z) : wres W := w_uint32 w bits.
  (** encoder.go:112-114 *)
  Definition w_float64 (w : W) (bits : Z) : wres W := w_uint64 w bits.
  (** encoder.go:178-185 *)
  Definition w_byte_slice (w : W) (bz : bytes) : wres W :=
    w_then (w_uvarint w (zlen bz)) (fun w => w_write w bz).
  (** encoder.go:191-193 *)
  Definition w_string (w : W) (s : bytes) : wres W := w_byte_slice w s.
  (** binary-encode.go:481-497 *)
  Definition w_field_key (w : W) (num typ : Z) : wres W :=
    match encode_field_key num typ with
    | EOk bz => w_write w bz
    | EErr e => WRet (Some e) w
    | EPanic p => WPanic p
    | EFuel => WPanic "unreachable"%string
    end.
  (** encoder.go:137-176 *)
  Definition w_time (w : W) (s nsec : Z) : wres W :=
    let nanos (w : W) : wres W :=
      let ns := i32 nsec in
      if ns =? 0 then WRet None w
      else if (ns <? 0) || (max_nanos <? ns) then WRet (Some "invalid time: nanoseconds"%string) w
      else w_then (w_field_key w 2 Typ3Varint) (fun w => w_uvarint w (u64 ns)) in
    if s =? 0 then nanos w
    else if (s <? min_seconds) || (max_seconds <=? s) then WRet (Some "invalid time: seconds"%string) w
    else w_then (w_then (w_field_key w 1 Typ3Varint) (fun w => w_uvarint w (u64 s))) nanos.

  (** amino.go:171-184 [MarshalBinaryLengthPrefixedWriter]: returns [(n, err)]. *)
  Inductive mres :=
  | MRet (n : Z) (e : option error) (w : W)
  | MPanic (p : panicmsg)
  | MFuel.
  Definition marshal_writer (fuel : nat) (env : tenv) (c : codec) (w : W) (t : gotype) (v : value) : mres :=
    match marshal_length_prefixed fuel env c t v with
    | EErr e => MRet 0 (Some e) w
    | EPanic p => MPanic p
    | EFuel => MFuel
    | EOk bz => let '(n, e, w') := write w bz in MRet (Z.of_nat n) e w'
    end.
End Writer.
Arguments MRet {W} _ _ _.
Arguments MPanic {W} _.
Arguments MFuel {W}.

(** ** Readers *)

Definition io_eof : error := "EOF"%string.
Definition io_unexpected_eof : error := "unexpected EOF"%string.

Section Reader.
  Variable S : Type.
  (** [r.Read(p)] with [len(p)] given: the bytes stored in [p] and the error. *)
  Variable read : S -> nat -> bytes * option error * S.

  (** [io.ReadFull(r, buf)] of Go's standard library, i.e. [io.ReadAtLeast(r, buf, len(buf))]:
        for n < min && err == nil { nn, err = r.Read(buf[n:]); n += nn }
        if n >= min { err = nil } else if n > 0 && err == EOF { err = ErrUnexpectedEOF }
      [need] is [len(buf) - n], [acc] is [buf[:n]].  [None]: the model ran out of
      fuel (a reader that keeps returning [(0, nil)] makes Go loop for ever). *)
  Fixpoint read_full (fuel : nat) (s : S) (need : nat) (acc : bytes) : option (bytes * option error * S) :=
    match need with
    | O => Some (acc, None, s)
    | _ =>
        match fuel with
        | O => None
        | Datatypes.S fuel' =>
            let '(b, e, s') := read s need in
            let b := firstn need b in
            match e with
            | None => read_full fuel' s' (need - length b) (acc ++ b)
            | Some err =>
                if (need <=? length b)%nat then Some (acc ++ b, None, s')
                else Some (acc ++ b,
                           Some (if (0 <? length (acc ++ b))%nat && String.eqb err io_eof
                                 then io_unexpected_eof else err), s')
            end
        end
    end.

  (** amino.go:299-316, the loop over [buf[i : i+1]].  [buf] holds the bytes read
      so far; the count returned by [Read] is ignored, so a Read of no bytes
      leaves a zero.  [err] is the error variable when the loop ends. *)
  Inductive pres :=
  | PFail (n : Z) (e : error) (s : S)
  | PDone (buf : bytes) (n : Z) (err : option error) (s : S).
  Fixpoint read_prefix (k : nat) (s : S) (max n : Z) (buf : bytes) (err : option error) : pres :=
    match k with
    | O => PDone buf n err s
    | Datatypes.S k' =>
        let '(b, e, s') := read s 1 in
        match e with
        | Some e => PFail n e s'
        | None =>
            let x := match b with [] => 0 | x :: _ => x end in
            if Z.land x 128 =? 0 then PDone (buf ++ [x]) (n + 1) None s'
            else read_prefix k' s' max (n + 1) (buf ++ [x])
                   (if max <=? n + 1 then Some "read overflow, length prefix"%string else None)
        end
    end.

  (** amino.go:296-339: everything before [make].  [LLen n l s]: the prefix took
      [n] reads and [make([]byte, l)] comes next. *)
  Inductive lres :=
  | LErr (n : Z) (e : error) (s : S)
  | LLen (n l : Z) (s : S).
  Definition read_length (s : S) (max : Z) : lres :=
    match read_prefix 10 s max 0 [] None with
    | PFail n e s' => LErr n e s'
    | PDone buf n err s' =>
        let u := fst (uvarint (buf ++ repeat 0 (10 - length buf))) in
        match err with
        | Some e => LErr n e s'
        | None =>
            if (0 <? max) && (u64 max <? u) then LErr n "read overflow, object"%string s'
            else if (0 <? max) && (max - n <? i64 u) then LErr n "read overflow, length-prefixed object"%string s'
            else LLen n (i64 u) s'
        end
    end.

  (** amino.go:290-350 [UnmarshalBinaryLengthPrefixedReader(r, ptr, maxSize)].
      [can_alloc l]: the runtime can make a slice of [l] bytes; [make] panics for
      a negative length whatever the runtime.  [unm bz] is
      [UnmarshalBinaryBare(bz, ptr)].  [RRet n u s]: the results are [n] and the
      error of [u]; [u] also holds the target. *)
  Inductive rres :=
  | RRet (n : Z) (v : value) (e : option error) (s : S)
  | RPanic (p : panicmsg)
  | RFuel.
  Definition unmarshal_reader (fuel : nat) (can_alloc : Z -> bool) (unm : bytes -> ures) (v0 : value)
             (s : S) (max : Z) : rres :=
    if max <? 0 then RPanic "maxSize cannot be negative."%string
    else match read_length s max with
         | LErr n e s' => RRet n v0 (Some e) s'
         | LLen n l s' =>
             if (l <? 0) || negb (can_alloc l) then RPanic "makeslice: len out of range"%string
             else match read_full fuel s' (Z.to_nat l) [] with
                  | None => RFuel
                  | Some (bz, Some e, s'') => RRet n v0 (Some e) s''
                  | Some (bz, None, s'') =>
                      match unm bz with
                      | URet v e => RRet (n + l) v e s''
                      | UPanic p => RPanic p
                      | UFuel => RFuel
                      end
                  end
         end.
End Reader.
Arguments PFail {S} _ _ _.
Arguments PDone {S} _ _ _ _.
Arguments LErr {S} _ _ _.
Arguments LLen {S} _ _ _.
Arguments RRet {S} _ _ _ _.
Arguments RPanic {S} _.
Arguments RFuel {S}.
