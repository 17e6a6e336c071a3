(** Model of binary-encode.go.  Encoders write to in-memory buffers only
    (bytes.Buffer never fails), so an encoder is given by the bytes it writes. *)
From Coq Require Import ZArith String List Bool.
From Verif Require Import Base Prims Types Codec.
Import ListNotations.
Local Open Scope Z_scope.
Local Open Scope amino_scope.

(** float32(float64(x)) quiets signalling NaNs and is otherwise the identity;
    reflect's Float/SetFloat on a float32 go through float64. *)
Definition f32conv (b : Z) : Z :=
  if (Z.land (Z.shiftr b 23) 255 =? 255) && negb (Z.land b (2 ^ 23 - 1) =? 0)
  then Z.lor b (2 ^ 22) else b.

(** reflect.go:225-242 [toReprObject] *)
Definition to_repr (env : tenv) (t : gotype) (v : value) : eres value :=
  match t with
  | TNamed id =>
      match te_marshal env id with
      | Some (MOk _ f) => f v
      | _ => EPanic "reflect: call of zero Value"%string
      end
  | _ => EPanic "reflect: call of zero Value"%string
  end.

(** binary-encode.go:72-87 and 99-115: the loop looking for a non-list element
    type under a list of lists.  True: a byte list (nothing is written); false:
    "multidimensional arrays not allowed".  It diverges on [type T []T]. *)
Fixpoint multidim_bytes (k : nat) (env : tenv) (t : gotype) : option bool :=
  match k with
  | O => None
  | S k' =>
      match resolve env t with
      | RSlice e | RArray _ e => multidim_bytes k' env e
      | RPrim PUint8 => Some true
      | _ => Some false
      end
  end.

Definition is_list_kind (env : tenv) (t : gotype) : bool :=
  match resolve env t with RSlice _ | RArray _ _ => true | _ => false end.

(** The scalar cases of encodeReflectBinary, binary-encode.go:124-192. *)
Definition encode_prim (p : prim) (v : value) (o : fopts) : eres bytes :=
  match p, v with
  | PInt64, VInt z => EOk (if fo_fixed64 o then encode_int64 z else encode_uvarint (u64 z))
  | PInt32, VInt z => EOk (if fo_fixed32 o then encode_int32 (i32 z) else encode_uvarint (u64 z))
  | PInt16, VInt z => EOk (encode_int16 (iwrap 16 z))
  | PInt8, VInt z => EOk (encode_int8 (iwrap 8 z))
  | PInt, VInt z => EOk (encode_uvarint (u64 z))
  | PUint64, VUint z => EOk (if fo_fixed64 o then encode_uint64 z else encode_uvarint z)
  | PUint32, VUint z => EOk (if fo_fixed32 o then encode_uint32 (u32 z) else encode_uvarint z)
  | PUint16, VUint z => EOk (encode_uint16 (uwrap 16 z))
  | PUint8, VUint z => EOk (encode_uint8 (uwrap 8 z))
  | PUint, VUint z => EOk (encode_uvarint z)
  | PBool, VBool b => EOk (encode_bool b)
  | PFloat64, VFloat b =>
      if fo_unsafe o then EOk (encode_float64 b) else EErr "amino float* support requires unsafe"%string
  | PFloat32, VFloat b =>
      if fo_unsafe o then EOk (encode_float32 (f32conv b)) else EErr "amino float* support requires unsafe"%string
  | PString, VStr s => EOk (encode_string s)
  | _, _ => EPanic "reflect: call on wrong kind"%string
  end.

(** The tail shared by encodeReflectBinaryInterface/List/Struct
    (binary-encode.go:270-277, 381-388, 467-474). *)
Definition finish (bare : bool) (buf : bytes) : bytes :=
  if bare then buf else encode_byte_slice buf.

Section Helpers.
  Variable env : tenv.
  Variable c : codec.
  (** The recursive call to encodeReflectBinary. *)
  Variable rec : tinfo -> value -> fopts -> bool -> eres bytes.

  (** binary-encode.go:203-278 [encodeReflectBinaryInterface] *)
  Definition encode_interface (ii : iinfo) (v : value) (o : fopts) (bare : bool) : eres bytes :=
    match v with
    | VIface None => EOk [0]
    | VIface (Some (ct, cv)) =>
        match deref_pointers cv with
        | (_, true) => EPanic "Illegal nil-pointer"%string
        | (crv, false) =>
            match crv with
            | VIface _ => EPanic "should not happen"%string
            | _ =>
                elet info := get_type_info env c (deref_type ct) in
                match info with
                | TIConc ci =>
                    match ci_reg ci with
                    | None => EErr "cannot encode unregistered concrete type"%string
                    | Some r =>
                        let need := ii_always ii ||
                          (1 <? length match assoc beqb (ri_prefix r) (ii_impls ii) with
                                       | Some l => l | None => [] end)%nat in
                        elet body := rec info crv o true in
                        EOk (finish bare ((if need then 0 :: ri_disamb r else []) ++ ri_prefix r ++ body))
                    end
                | TIFace _ => EErr "cannot encode unregistered concrete type"%string
                end
            end
        end
    | _ => EPanic "reflect: call on wrong kind"%string
    end.

  (** binary-encode.go:323-336: elements in packed form *)
  Fixpoint encode_packed (ert : gotype) (einfo : tinfo) (l : list value) (o : fopts) : eres bytes :=
    match l with
    | [] => EOk []
    | v :: l' =>
        elet b := rec einfo (deref_pointers_zero env ert v) o false in
        elet bs := encode_packed ert einfo l' o in
        EOk (b ++ bs)
    end.

  (** binary-encode.go:337-378: elements as repeated fields *)
  Fixpoint encode_unpacked (ert : gotype) (einfo : tinfo) (l : list value) (o : fopts) : eres bytes :=
    match l with
    | [] => EOk []
    | v :: l' =>
        elet key := encode_field_key (fo_num o) Typ3ByteLength in
        let '(erv, isdef) := is_default_value v in
        elet b :=
          (if isdef then
             if is_ptr ert && is_struct env (ti_type einfo) && fo_empty_elements o
             then EErr "nil struct pointers not supported when empty_elements field tag is set"%string
             else EOk (encode_byte 0)
           else rec einfo erv (set_num 1 o) false) in
        elet bs := encode_unpacked ert einfo l' o in
        EOk (key ++ b ++ bs)
    end.

  Definition list_elems (v : value) : option (list value) :=
    match v with
    | VArr l => Some l
    | VSlice None => Some []
    | VSlice (Some l) => Some l
    | _ => None
    end.

  (** binary-encode.go:302-389 [encodeReflectBinaryList] *)
  Definition encode_list (info : tinfo) (v : value) (o : fopts) (bare : bool) : eres bytes :=
    match resolve env (ti_type info) with
    | RArray _ ert | RSlice ert =>
        if is_uint8 env ert then EPanic "should not happen"%string
        else
          elet einfo := get_type_info env c ert in
          elet typ3 := type_to_typ3 env (ti_type einfo) o in
          match list_elems v with
          | None => EPanic "reflect: call on wrong kind"%string
          | Some l =>
              elet buf := (if negb (typ3 =? Typ3ByteLength)
                           then encode_packed ert einfo l o
                           else encode_unpacked ert einfo l o) in
              EOk (finish bare buf)
          end
    | _ => EPanic "reflect: Elem of invalid type"%string
    end.

  (** binary-encode.go:499-530 [writeFieldIfNotEmpty]: what is left in the
      buffer. *)
  Definition write_field (num : Z) (info : tinfo) (o : fopts) (v : value)
             (write_empty bare : bool) : eres bytes :=
    elet typ3 := type_to_typ3 env (ti_type info) o in
    elet key := encode_field_key num typ3 in
    elet b := rec info v o bare in
    if negb write_empty && beqb b [0] then EOk [] else EOk (key ++ b).

  (** binary-encode.go:432-465: one field *)
  Definition encode_field (f : finfo) (frv : value) : eres bytes :=
    elet info := get_type_info env c (fi_type f) in
    let '(dfrv, isdef) := is_default_value frv in
    if isdef && negb (fo_write_empty (fi_opts f)) then EOk []
    else if fi_unpacked f then encode_list info dfrv (fi_opts f) true
    else write_field (fo_num (fi_opts f)) info (fi_opts f) dfrv
                     (fo_write_empty (fi_opts f) || val_is_ptr frv) false.

  Fixpoint encode_fields (fs : list finfo) (l : list value) : eres bytes :=
    match fs with
    | [] => EOk []
    | f :: fs' =>
        elet b := encode_field f (nth (fi_index f) l VInvalid) in
        elet bs := encode_fields fs' l in
        EOk (b ++ bs)
    end.

  (** binary-encode.go:411-475 [encodeReflectBinaryStruct] *)
  Definition encode_struct (ci : cinfo) (v : value) (bare : bool) : eres bytes :=
    match resolve env (ci_type ci), v with
    | RTime, VTime s ns =>
        elet r := encode_time s ns in
        match r with
        | (_, Some e) => EErr e
        | (buf, None) => EOk (finish bare buf)
        end
    | RStruct _, VStruct l =>
        elet buf := encode_fields (ci_fields ci) l in
        EOk (finish bare buf)
    | _, _ => EPanic "reflect: call on wrong kind"%string
    end.

  (** binary-encode.go:57-201: the switch of encodeReflectBinary *)
  Definition encode_switch (fuel : nat) (info : tinfo) (v : value) (o : fopts) (bare : bool) : eres bytes :=
    match resolve env (ti_type info) with
    | RIface _ =>
        match info with
        | TIFace ii => encode_interface ii v o bare
        | TIConc _ => EPanic "unreachable"%string
        end
    | RArray _ e =>
        if is_uint8 env e then
          match v with
          | VArr l => EOk (encode_byte_slice (val_bytes l))
          | _ => EPanic "reflect: call on wrong kind"%string
          end
        else if is_list_kind env e then
          match multidim_bytes fuel env e with
          | None => EFuel
          | Some true => EOk []
          | Some false => EErr "multidimensional arrays not allowed"%string
          end
        else encode_list info v o bare
    | RSlice e =>
        if is_uint8 env e then
          match v with
          | VSlice None => EOk (encode_byte_slice [])
          | VSlice (Some l) => EOk (encode_byte_slice (val_bytes l))
          | _ => EPanic "reflect: call on wrong kind"%string
          end
        else if is_list_kind env e then
          match multidim_bytes fuel env e with
          | None => EFuel
          | Some true => EOk []
          | Some false => EErr "multidimensional slices not allowed"%string
          end
        else encode_list info v o bare
    | RStruct _ | RTime =>
        match info with
        | TIConc ci => encode_struct ci v bare
        | TIFace _ => EPanic "unreachable"%string
        end
    | RPrim p => encode_prim p v o
    | RPtr _ | RMap _ _ | RFunc | ROther | RBad => EPanic "unsupported type"%string
    end.
End Helpers.

(** binary-encode.go:25-201 [encodeReflectBinary] *)
Fixpoint encode_reflect (fuel : nat) (env : tenv) (c : codec) (info : tinfo) (v : value)
         (o : fopts) (bare : bool) : eres bytes :=
  match fuel with
  | O => EFuel
  | S k =>
      match v with
      | VPtr _ => EPanic "not allowed to be called with a reflect.Ptr"%string
      | VInvalid => EPanic "not allowed to be called with invalid / zero Value"%string
      | _ =>
          match info with
          | TIConc {| ci_type := t; ci_marshal := Some r |} =>
              elet rv := to_repr env t v in
              elet rinfo := get_type_info env c r in
              encode_reflect k env c rinfo rv o bare
          | _ => encode_switch env c (encode_reflect k env c) fuel info v o bare
          end
      end
  end.
