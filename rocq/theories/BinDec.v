(** Model of binary-decode.go.  A decoder gets the bytes, the current contents
    of its (addressable) target and returns the new contents, the count [n] and
    the error -- also on error, so partial updates are visible. *)
From Coq Require Import ZArith String List Bool.
From Verif Require Import Base Prims Types Codec BinEnc.
Import ListNotations.
Local Open Scope Z_scope.

(** Sequencing of decoder calls: run [d]; [k] sees value, count and error. *)
Definition dbind {A B} (r : dres A) (k : A -> nat -> option error -> dres B) : dres B :=
  match r with
  | DRet a n e => k a n e
  | DPanic p => DPanic p
  | DFuel => DFuel
  end.

(** Use of an [eres] inside a decoder: [kerr] says what to return on error. *)
Definition eget {A B} (r : eres A) (kerr : error -> dres B) (k : A -> dres B) : dres B :=
  match r with
  | EOk a => k a
  | EErr e => kerr e
  | EPanic p => DPanic p
  | EFuel => DFuel
  end.

(** binary-decode.go:929-956 [DecodeDisambPrefixBytes]: (disamb if any, prefix) *)
Definition decode_disamb_prefix (bz : bytes) : dres (option bytes * bytes) :=
  if (length bz <? 4)%nat then DRet (None, []) 0 (Some "while reading prefix bytes, EOF was encountered"%string)
  else match bz with
       | 0 :: _ =>
           if (length bz <? 8)%nat
           then DRet (None, []) 0 (Some "while reading prefix bytes, EOF was encountered"%string)
           else DRet (Some (firstn 3 (skipn 1 bz)), firstn 4 (skipn 4 bz)) 8 None
       | _ => DRet (None, firstn 4 bz) 4 None
       end.

(** binary-decode.go:904-925 [consumeAny] *)
Definition consume_any (typ3 : Z) (bz : bytes) : dres unit :=
  let use {A} (r : dres A) : dres unit :=
    dbind r (fun _ n e => match e with
                          | Some e => DRet tt 0 (Some e)
                          | None => slide bz n (fun _ => DRet tt n None)
                          end) in
  if typ3 =? Typ3Varint then use (decode_varint bz)
  else if typ3 =? Typ38Byte then use (decode_int64 bz)
  else if typ3 =? Typ3ByteLength then use (decode_byte_slice bz)
  else if typ3 =? Typ3_4Byte then use (decode_int32 bz)
  else DRet tt 0 (Some "invalid typ3 bytes"%string).

(** amino.go:447-454 [isStructOrRepeatedStruct] *)
Definition is_struct_or_repeated_struct (env : tenv) (t : gotype) : bool :=
  match resolve env t with
  | RStruct _ | RTime => true
  | RArray _ e | RSlice e => is_struct env e
  | _ => false
  end.

(** The scalar cases, binary-decode.go:121-307.  [v0] stays on error. *)
Definition set_scalar {A} (v0 : value) (bz : bytes) (r : dres A) (f : A -> dres value) : dres value :=
  dbind r (fun a n e =>
    slide bz n (fun _ =>
    match e with
    | Some e => DRet v0 n (Some e)
    | None => dbind (f a) (fun v _ e => DRet v n e)
    end)).

Definition decode_prim (p : prim) (v0 : value) (bz : bytes) (o : fopts) : dres value :=
  match p with
  | PInt64 =>
      if fo_fixed64 o then set_scalar v0 bz (decode_int64 bz) (fun z => DRet (VInt z) 0 None)
      else set_scalar v0 bz (decode_uvarint bz) (fun u => DRet (VInt (i64 u)) 0 None)
  | PInt32 =>
      if fo_fixed32 o then set_scalar v0 bz (decode_int32 bz) (fun z => DRet (VInt z) 0 None)
      else set_scalar v0 bz (decode_uvarint bz) (fun u =>
             if (2 ^ 31 - 1 <? i64 u) || (i64 u <? - 2 ^ 31)
             then DRet v0 0 (Some "encoded integer value overflows int(32)"%string)
             else DRet (VInt (i64 u)) 0 None)
  | PInt16 => set_scalar v0 bz (decode_int16 bz) (fun z => DRet (VInt z) 0 None)
  | PInt8 => set_scalar v0 bz (decode_int8 bz) (fun z => DRet (VInt z) 0 None)
  | PInt => set_scalar v0 bz (decode_uvarint bz) (fun u =>
             if (2 ^ 63 - 1 <? i64 u) || (i64 u <? - 2 ^ 63)
             then DRet v0 0 (Some "encoded integer value overflows int(32)"%string)
             else DRet (VInt (i64 u)) 0 None)
  | PUint64 =>
      if fo_fixed64 o then set_scalar v0 bz (decode_uint64 bz) (fun z => DRet (VUint z) 0 None)
      else set_scalar v0 bz (decode_uvarint bz) (fun u => DRet (VUint u) 0 None)
  | PUint32 =>
      (* rv.SetUint on a uint32 stores uint32(x) *)
      if fo_fixed32 o then set_scalar v0 bz (decode_uint32 bz) (fun z => DRet (VUint z) 0 None)
      else set_scalar v0 bz (decode_uvarint bz) (fun u => DRet (VUint (u32 u)) 0 None)
  | PUint16 => set_scalar v0 bz (decode_uint16 bz) (fun z => DRet (VUint z) 0 None)
  | PUint8 => set_scalar v0 bz (decode_uint8 bz) (fun z => DRet (VUint z) 0 None)
  | PUint => set_scalar v0 bz (decode_uvarint bz) (fun u => DRet (VUint u) 0 None)
  | PBool => set_scalar v0 bz (decode_bool bz) (fun b => DRet (VBool b) 0 None)
  | PFloat64 =>
      if negb (fo_unsafe o) then DRet v0 0 (Some "float support requires unsafe"%string)
      else set_scalar v0 bz (decode_float64 bz) (fun b => DRet (VFloat b) 0 None)
  | PFloat32 =>
      if negb (fo_unsafe o) then DRet v0 0 (Some "float support requires unsafe"%string)
      else set_scalar v0 bz (decode_float32 bz) (fun b => DRet (VFloat (f32conv b)) 0 None)
  | PString => set_scalar v0 bz (decode_string bz) (fun s => DRet (VStr s) 0 None)
  end.

(** The head shared by the composite decoders (binary-decode.go:333-346,
    482-495, 657-670, 781-791): when not [bare], read a byte slice and go on
    inside it; [n] starts at UvarintSize(len(buf)), not at the number of bytes
    the prefix really took. *)
Definition enter {A} (v0 : A) (bare : bool) (bz : bytes) (k : bytes -> nat -> dres A) : dres A :=
  if bare then k bz 0%nat
  else dbind (decode_byte_slice bz) (fun buf n e =>
         slide bz n (fun _ =>
         match e with
         | Some e => DRet v0 0 (Some e)
         | None => k buf (Z.to_nat (uvarint_size (zlen buf)))
         end)).

(** Pointers: the target under all pointers, allocating (zeroed) where nil
    (binary-decode.go:52-58), and the chain rebuilt around a new value. *)
Fixpoint base_of (env : tenv) (t : gotype) (v : value) : value :=
  match t with
  | TPtr e => base_of env e (match v with VPtr (Some w) => w | _ => zero env e end)
  | _ => v
  end.
Definition rebuild (t : gotype) (v : value) : value := wrap_ptrs t v.

Definition dmap {A B} (f : A -> B) (r : dres A) : dres B :=
  dbind r (fun a n e => DRet (f a) n e).

Section Helpers.
  Variable env : tenv.
  Variable c : codec.
  (** The recursive call to decodeReflectBinary: bytes, info, static type and
      current contents of the target, options, bare. *)
  Variable rec : bytes -> tinfo -> gotype -> value -> fopts -> bool -> dres value.

  (** reflect.go:178-189 [constructConcreteType] and rv.Set(irvSet) *)
  Definition set_iface (ii : iinfo) (ci : cinfo) (v : value) (k : value -> dres value) : dres value :=
    let ptr := match ci_reg ci with Some r => ri_ptr r | None => false end in
    let '(t, w) := if ptr then (TPtr (ci_type ci), VPtr (Some v)) else (ci_type ci, v) in
    if te_impl env t (ii_id ii) then k (VIface (Some (t, w)))
    else DPanic "reflect.Set: value of type is not assignable to type"%string.

  (** binary-decode.go:366-394: does the payload of a concrete type start with a
      field key? *)
  Definition wants_key (ci : cinfo) (bz : bytes) (o : fopts) : bool :=
    negb (is_struct_or_repeated_struct env (ci_type ci)) &&
    (0 <? length bz)%nat &&
    match resolve env (ci_type ci) with RMap _ _ | RFunc | RIface _ => false | _ => true end &&
    (fo_num o =? 1).

  (** binary-decode.go:314-418 [decodeReflectBinaryInterface] *)
  Definition decode_interface (bz : bytes) (ii : iinfo) (v0 : value) (o : fopts) (bare : bool) : dres value :=
    match v0 with
    | VIface None =>
        enter v0 bare bz (fun bz n0 =>
        dbind (decode_disamb_prefix bz) (fun dp n1 e =>
        slide bz n1 (fun bz1 =>
        let n1 := (n0 + n1)%nat in
        match e with
        | Some e => DRet v0 n1 (Some e)
        | None =>
            eget (match fst dp with
                  | Some d => type_info_from_disfix c (to_disfix d (snd dp))
                  | None => type_info_from_prefix ii (snd dp)
                  end) (fun e => DRet v0 n1 (Some e)) (fun ci =>
            let go (bz2 : bytes) (n2 : nat) :=
              dbind (rec bz2 (TIConc ci) (ci_type ci) (zero env (ci_type ci)) o true) (fun v n3 e =>
              slide bz2 n3 (fun bz3 =>
              let n3 := (n2 + n3)%nat in
              match e with
              | Some e => set_iface ii ci v (fun r => DRet r n3 (Some e))
              | None =>
                  match bz3 with
                  | _ :: _ => DRet v0 n3 (Some "bytes left over after reading interface contents"%string)
                  | [] => set_iface ii ci v (fun r => DRet r n3 None)
                  end
              end)) in
            if wants_key ci bz1 o then
              dbind (decode_field_key bz1) (fun kt nk e =>
              match e with
              | Some e => DRet v0 n1 (Some "could not decode field number and type"%string)
              | None =>
                  if negb (fst kt =? 1) then DRet v0 n1 (Some "expected field number: 1"%string)
                  else eget (type_to_typ3 env (ci_type ci) no_opts) (fun e => DRet v0 n1 (Some e)) (fun tw =>
                       if negb (snd kt =? tw) then DRet v0 n1 (Some "expected field type"%string)
                       else slide bz1 nk (fun bz2 => go bz2 (n1 + nk)%nat))
              end)
            else go bz1 n1)
        end)))
    | VIface (Some _) => DRet v0 0 (Some "decoding to a non-nil interface is not supported yet"%string)
    | _ => DPanic "reflect: call on wrong kind"%string
    end.

  (** binary-decode.go:421-455 [decodeReflectBinaryByteArray].  reflect.Copy
      insists on identical element types. *)
  Definition decode_byte_array (bz : bytes) (len : nat) (ert : gotype) (v0 : value) : dres value :=
    if (length bz <? len)%nat then DRet v0 0 (Some "insufficient bytes to decode [n]byte"%string)
    else dbind (decode_byte_slice bz) (fun b n e =>
         slide bz n (fun _ =>
         match e with
         | Some e => DRet v0 n (Some e)
         | None =>
             if negb (length b =? len)%nat then DRet v0 n (Some "mismatched byte array length"%string)
             else if gotype_eqb ert (TPrim PUint8) then DRet (VArr (bytes_val b)) n None
             else DPanic "reflect.Copy: elem type mismatch"%string
         end)).

  (** binary-decode.go:591-629 [decodeReflectBinaryByteSlice].  rv.Set wants a
      type assignable from []byte. *)
  Definition decode_byte_slice_val (bz : bytes) (ert : gotype) (v0 : value) : dres value :=
    match bz with
    | [] => DRet (VSlice None) 0 None
    | _ =>
        dbind (decode_byte_slice bz) (fun b n e =>
        slide bz n (fun _ =>
        match e with
        | Some e => DRet v0 n (Some e)
        | None =>
            match b with
            | [] => DRet (VSlice None) n None
            | _ => if gotype_eqb ert (TPrim PUint8) then DRet (VSlice (Some (bytes_val b))) n None
                   else DPanic "reflect.Set: value of type []uint8 is not assignable"%string
            end
        end))
    end.

  Definition wrap_err (e : error) : option error := Some "error reading array contents"%string.

  (** "Special case when reading default value, prefer nil."
      (binary-decode.go:512-518, 689-695) *)
  Definition prefer_nil (ert : gotype) (v : value) : value :=
    if is_ptr ert && snd (is_default_value v) then zero env ert else v.

  (** binary-decode.go:503-519: packed array elements; [done] are the elements
      already read (in order), [todo] the old contents of the others. *)
  Fixpoint decode_array_packed (bz : bytes) (n : nat) (einfo : tinfo) (ert : gotype) (o : fopts)
           (done todo : list value) : dres (list value * bytes) :=
    match todo with
    | [] => DRet (done, bz) n None
    | w0 :: todo' =>
        dbind (rec bz einfo ert w0 o false) (fun w k e =>
        slide bz k (fun bz' =>
        match e with
        | Some e => DRet (done ++ w :: todo', bz') (n + k)%nat (wrap_err e)
        | None => decode_array_packed bz' (n + k)%nat einfo ert o (done ++ [prefer_nil ert w]) todo'
        end))
    end.

  (** binary-decode.go:534-571 / 713-756: the 0x00 special case *)
  Definition skip_empty (einfo : tinfo) (ert : gotype) (o : fopts) (bz : bytes) : bool :=
    match bz with
    | 0 :: _ => negb (is_ptr ert && is_struct env (ti_type einfo) && fo_empty_elements o)
    | _ => false
    end.

  (** binary-decode.go:529-572: unpacked array elements *)
  Fixpoint decode_array_unpacked (bz : bytes) (n : nat) (einfo : tinfo) (ert : gotype) (o : fopts)
           (done todo : list value) : dres (list value * bytes) :=
    match todo with
    | [] => DRet (done, bz) n None
    | w0 :: todo' =>
        dbind (decode_field_key bz) (fun kt k e =>
        if negb (fst kt =? fo_num o) then
          DRet (done ++ w0 :: todo', bz) n (Some "expected repeated field number"%string)
        else if negb (snd kt =? Typ3ByteLength) then
          DRet (done ++ w0 :: todo', bz) n (Some "expected repeated field type"%string)
        else slide bz k (fun bz1 =>
        let n1 := (n + k)%nat in
        match e with
        | Some e => DRet (done ++ w0 :: todo', bz1) n1 (Some e)
        | None =>
            if skip_empty einfo ert o bz1 then
              decode_array_unpacked (skipn 1 bz1) (n1 + 1)%nat einfo ert o
                                    (done ++ [default_value env ert]) todo'
            else
              dbind (rec bz1 einfo ert w0 (set_num 1 o) false) (fun w k2 e =>
              slide bz1 k2 (fun bz2 =>
              match e with
              | Some e => DRet (done ++ w :: todo', bz2) (n1 + k2)%nat (wrap_err e)
              | None => decode_array_unpacked bz2 (n1 + k2)%nat einfo ert o (done ++ [w]) todo'
              end))
        end))
    end.

  (** binary-decode.go:459-588 [decodeReflectBinaryArray] *)
  Definition decode_array (bz : bytes) (ert : gotype) (v0 : value) (o : fopts) (bare : bool) : dres value :=
    if is_uint8 env ert then DPanic "should not happen"%string
    else match v0 with
    | VArr l0 =>
        eget (get_type_info env c ert) (fun e => DRet v0 0 (Some e)) (fun einfo =>
        enter v0 bare bz (fun bz n0 =>
        eget (type_to_typ3 env (ti_type einfo) o) (fun e => DRet v0 n0 (Some e)) (fun typ3 =>
        if negb (typ3 =? Typ3ByteLength) then
          dbind (decode_array_packed bz n0 einfo ert o [] l0) (fun r n e =>
          let '(l, bz') := r in
          match e with
          | Some e => DRet (VArr l) n (Some e)
          | None =>
              match bz' with
              | _ :: _ => DRet (VArr l) n (Some "bytes left over after reading array contents"%string)
              | [] => DRet (VArr l) n None
              end
          end)
        else
          dbind (decode_array_unpacked bz n0 einfo ert o [] l0) (fun r n e =>
          let '(l, bz') := r in
          match e with
          | Some e => DRet (VArr l) n (Some e)
          | None =>
              match bz' with
              | [] => DRet (VArr l) n None
              | _ =>
                  dbind (decode_field_key bz') (fun kt _ e =>
                  match e with
                  | Some e => DRet (VArr l) n (Some e)
                  | None =>
                      if fst kt <=? fo_num o
                      then DRet (VArr l) n (Some "unexpected field number after repeated field number"%string)
                      else DRet (VArr l) n None
                  end)
              end
          end))))
    | _ => DPanic "reflect: call on wrong kind"%string
    end.

  (** binary-decode.go:676-699: packed slice elements.  [k] bounds the number of
      elements (every element takes at least one byte, or the loop never ends). *)
  Fixpoint decode_slice_packed (k : nat) (bz : bytes) (n : nat) (einfo : tinfo) (ert : gotype)
           (o : fopts) (done : list value) : dres (list value) :=
    match bz with
    | [] => DRet done n None
    | _ =>
        match k with
        | O => DFuel
        | S k' =>
            dbind (rec bz einfo ert (zero env ert) o false) (fun w m e =>
            slide bz m (fun bz' =>
            match e with
            | Some e => DRet done (n + m)%nat (wrap_err e)
            | None => decode_slice_packed k' bz' (n + m)%nat einfo ert o (done ++ [prefer_nil ert w])
            end))
        end
    end.

  (** binary-decode.go:703-757: unpacked slice elements *)
  Fixpoint decode_slice_unpacked (k : nat) (bz : bytes) (n : nat) (einfo : tinfo) (ert : gotype)
           (o : fopts) (done : list value) : dres (list value) :=
    match bz with
    | [] => DRet done n None
    | _ =>
        match k with
        | O => DFuel
        | S k' =>
            dbind (decode_field_key bz) (fun kt m e =>
            if fst kt <? fo_num o then
              DRet done n (Some "expected repeated field number or greater"%string)
            else if fo_num o <? fst kt then DRet done n None
            else if negb (snd kt =? Typ3ByteLength) then
              DRet done n (Some "expected repeated field type"%string)
            else slide bz m (fun bz1 =>
            let n1 := (n + m)%nat in
            match e with
            | Some e => DRet done n1 (Some e)
            | None =>
                if skip_empty einfo ert o bz1 then
                  decode_slice_unpacked k' (skipn 1 bz1) (n1 + 1)%nat einfo ert o
                                        (done ++ [default_value env ert])
                else
                  dbind (rec bz1 einfo ert (zero env ert) (set_num 1 o) false) (fun w m2 e =>
                  slide bz1 m2 (fun bz2 =>
                  match e with
                  | Some e => DRet done (n1 + m2)%nat (wrap_err e)
                  | None => decode_slice_unpacked k' bz2 (n1 + m2)%nat einfo ert o (done ++ [w])
                  end))
            end))
        end
    end.

  (** reflect.Zero of the slice type, appended to: nil when nothing was. *)
  Definition mk_slice (l : list value) : value :=
    match l with [] => VSlice None | _ => VSlice (Some l) end.

  (** binary-decode.go:633-760 [decodeReflectBinarySlice] *)
  Definition decode_slice (bz : bytes) (ert : gotype) (v0 : value) (o : fopts) (bare : bool) : dres value :=
    if is_uint8 env ert then DPanic "should not happen"%string
    else
      eget (get_type_info env c ert) (fun e => DRet v0 0 (Some e)) (fun einfo =>
      enter v0 bare bz (fun bz n0 =>
      eget (type_to_typ3 env (ti_type einfo) o) (fun e => DRet v0 n0 (Some e)) (fun typ3 =>
      dbind (if negb (typ3 =? Typ3ByteLength)
             then decode_slice_packed (length bz) bz n0 einfo ert o []
             else decode_slice_unpacked (length bz) bz n0 einfo ert o []) (fun l n e =>
      match e with
      | Some e => DRet v0 n (Some e)
      | None => DRet (mk_slice l) n None
      end)))).

  (** State of the field loop: field values, remaining bytes, lastFieldNum. *)
  (** binary-decode.go:809-871: one field *)
  Definition decode_field (f : finfo) (l : list value) (bz : bytes) (last : Z) (n : nat)
    : dres (list value * bytes * Z) :=
    let i := fi_index f in
    let frv := nth i l VInvalid in
    eget (get_type_info env c (fi_type f)) (fun e => DRet (l, bz, last) n (Some e)) (fun info =>
    match bz with
    | [] => DRet (upd i (default_value env (fi_type f)) l, bz, last) n None
    | _ =>
        if fi_unpacked f then
          dbind (rec bz info (fi_type f) frv (fi_opts f) true) (fun v m e =>
          slide bz m (fun bz' => DRet (upd i v l, bz', last) (n + m)%nat e))
        else
          dbind (decode_field_key bz) (fun kt m e =>
          let '(fnum, typ) := kt in
          if fo_num (fi_opts f) <? fnum then
            DRet (upd i (default_value env (fi_type f)) l, bz, last) n None
          else if fnum <=? last then
            DRet (l, bz, last) n (Some "encountered fieldNum but we have already seen fnum"%string)
          else slide bz m (fun bz1 =>
          let n1 := (n + m)%nat in
          match e with
          | Some e => DRet (l, bz1, fnum) n1 (Some e)
          | None =>
              if negb (fo_num (fi_opts f) =? fnum) then
                DRet (l, bz1, fnum) n1 (Some "expected field #"%string)
              else
                eget (type_to_typ3 env (ti_type info) (fi_opts f)) (fun e => DRet (l, bz1, fnum) n1 (Some e)) (fun tw =>
                if negb (typ =? tw) then DRet (l, bz1, fnum) n1 (Some "expected field type"%string)
                else
                  dbind (rec bz1 info (fi_type f) frv (fi_opts f) false) (fun v m2 e =>
                  slide bz1 m2 (fun bz2 => DRet (upd i v l, bz2, fnum) (n1 + m2)%nat e)))
          end))
    end).

  Fixpoint decode_fields (fs : list finfo) (l : list value) (bz : bytes) (last : Z) (n : nat)
    : dres (list value * bytes * Z) :=
    match fs with
    | [] => DRet (l, bz, last) n None
    | f :: fs' =>
        dbind (decode_field f l bz last n) (fun st n' e =>
        match e with
        | Some e => DRet st n' (Some e)
        | None => let '(l', bz', last') := st in decode_fields fs' l' bz' last' n'
        end)
    end.

  (** binary-decode.go:874-895: consume any remaining fields *)
  Fixpoint consume_rest (k : nat) (bz : bytes) (last : Z) (n : nat) : dres unit :=
    match bz with
    | [] => DRet tt n None
    | _ =>
        match k with
        | O => DFuel
        | S k' =>
            dbind (decode_field_key bz) (fun kt m e =>
            slide bz m (fun bz1 =>
            let n1 := (n + m)%nat in
            match e with
            | Some e => DRet tt n1 (Some e)
            | None =>
                if fst kt <=? last then
                  DRet tt n1 (Some "encountered fieldNum but we have already seen fnum"%string)
                else
                  dbind (consume_any (snd kt) bz1) (fun _ m2 e =>
                  slide bz1 m2 (fun bz2 =>
                  match e with
                  | Some e => DRet tt (n1 + m2)%nat (Some e)
                  | None => consume_rest k' bz2 (fst kt) (n1 + m2)%nat
                  end))
            end))
        end
    end.

  (** binary-decode.go:763-898 [decodeReflectBinaryStruct] *)
  Definition decode_struct (bz : bytes) (ci : cinfo) (v0 : value) (bare : bool) : dres value :=
    enter v0 bare bz (fun bz n0 =>
    match resolve env (ci_type ci), v0 with
    | RTime, _ =>
        dbind (decode_time bz) (fun t n e =>
        slide bz n (fun _ =>
        match e with
        | Some e => DRet v0 (n0 + n)%nat (Some e)
        | None => DRet (VTime (fst t) (snd t)) (n0 + n)%nat None
        end))
    | RStruct _, VStruct l0 =>
        dbind (decode_fields (ci_fields ci) l0 bz 0 n0) (fun st n e =>
        let '(l, bz', last) := st in
        match e with
        | Some e => DRet (VStruct l) n (Some e)
        | None => dbind (consume_rest (length bz') bz' last n) (fun _ n e => DRet (VStruct l) n e)
        end)
    | _, _ => DPanic "reflect: call on wrong kind"%string
    end).

  (** binary-decode.go:84-311: the switch of decodeReflectBinary *)
  Definition decode_switch (bz : bytes) (info : tinfo) (v0 : value) (o : fopts) (bare : bool) : dres value :=
    match resolve env (ti_type info) with
    | RIface _ =>
        match info with
        | TIFace ii => decode_interface bz ii v0 o bare
        | TIConc _ => DPanic "unreachable"%string
        end
    | RArray len e =>
        if is_uint8 env e then decode_byte_array bz len e v0
        else decode_array bz e v0 o bare
    | RSlice e =>
        if is_uint8 env e then decode_byte_slice_val bz e v0
        else decode_slice bz e v0 o bare
    | RStruct _ | RTime =>
        match info with
        | TIConc ci => decode_struct bz ci v0 bare
        | TIFace _ => DPanic "unreachable"%string
        end
    | RPrim p => decode_prim p v0 bz o
    | RPtr _ | RMap _ _ | RFunc | ROther | RBad => DPanic "unknown field type"%string
    end.
End Helpers.

(** The call of UnmarshalAmino, binary-decode.go:72-79. *)
Definition from_repr (env : tenv) (t : gotype) (v0 r : value) : eres (value * option error) :=
  match t with
  | TNamed id =>
      match te_unmarshal env id with
      | Some (UOk _ g) => g v0 r
      | _ => EPanic "reflect: call of zero Value"%string
      end
  | _ => EPanic "reflect: call of zero Value"%string
  end.

(** binary-decode.go:31-311 [decodeReflectBinary] *)
Fixpoint decode_reflect (fuel : nat) (env : tenv) (c : codec) (bz : bytes) (info : tinfo) (t : gotype)
         (v0 : value) (o : fopts) (bare : bool) : dres value :=
  match fuel with
  | O => DFuel
  | S k =>
      match info, t with
      | TIFace _, TPtr _ => DPanic "should not happen"%string
      | _, _ =>
          dmap (rebuild t)
            (let w0 := base_of env t v0 in
             match info with
             | TIConc {| ci_type := ct; ci_unmarshal := Some r |} =>
                 eget (get_type_info env c r) (fun e => DRet w0 0 (Some e)) (fun rinfo =>
                 dbind (decode_reflect k env c bz rinfo r (zero env r) o bare) (fun rv n e =>
                 slide bz n (fun _ =>
                 match e with
                 | Some e => DRet w0 n (Some e)
                 | None => eget (from_repr env ct w0 rv) (fun e => DRet w0 n (Some e))
                                (fun r => DRet (fst r) n (snd r))
                 end)))
             | _ => decode_switch env c (decode_reflect k env c) bz info w0 o bare
             end)
      end
  end.
