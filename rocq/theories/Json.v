(** Model of json-encode.go, json-decode.go and of MarshalJSON / UnmarshalJSON in
    amino.go.  As with the binary encoder, writes go to a buffer and cannot fail. *)
From Coq Require Import ZArith String List Bool.
From Verif Require Import Base Prims Types Codec BinEnc BinDec JsonText.
Import ListNotations.
Local Open Scope Z_scope.
Local Open Scope amino_scope.

(** What the Go program and the standard library add: the text of a time in UTC and
    of a float, and the types with methods MarshalJSON / UnmarshalJSON.  For
    MarshalJSON the boolean tells whether the receiver is a value (so that it is also
    found on a value without address).  Interface types with such methods, and types
    with MarshalText / UnmarshalText, are not modelled. *)
Record jenv := {
  je_time : Z -> Z -> eres bytes;                                (* time.Time.MarshalJSON *)
  je_untime : bytes -> eres (Z * Z);                             (* time.Time.UnmarshalJSON *)
  je_float : prim -> Z -> eres bytes;                            (* json.Marshal of a float *)
  je_unfloat : prim -> bytes -> eres Z;                          (* strconv.ParseFloat *)
  je_marshal : tid -> option (bool * (value -> eres bytes));
  je_unmarshal : tid -> option (bytes -> value -> eres value)
}.

Definition null : bytes := bs "null".
(** json-encode.go:174, amino.go:510: [{"type":"%s","value":] ... [}]; the name is not escaped. *)
Definition wrap_name (name body : bytes) : bytes :=
  bs "{""type"":""" ++ name ++ bs """,""value"":" ++ body ++ bs "}".
Fixpoint join (l : list bytes) : bytes :=
  match l with
  | [] => []
  | [b] => b
  | b :: l' => b ++ 44 :: join l'
  end.

(** json-encode.go:103-124: numbers, booleans and strings *)
Definition json_prim (je : jenv) (p : prim) (v : value) (o : fopts) : eres bytes :=
  match p, v with
  | (PInt64 | PInt), VInt z => EOk (34 :: itoa z ++ [34])
  | (PUint64 | PUint), VUint z => EOk (34 :: itoa z ++ [34])
  | (PInt32 | PInt16 | PInt8), VInt z => EOk (itoa z)
  | (PUint32 | PUint16 | PUint8), VUint z => EOk (itoa z)
  | (PFloat64 | PFloat32), VFloat b =>
      if fo_unsafe o then je_float je p b else EErr "amino.JSON float* support requires unsafe"%string
  | PBool, VBool b => EOk (if b then bs "true" else bs "false")
  | PString, VStr s => EOk (quote s)
  | _, _ => EPanic "reflect: call on wrong kind"%string
  end.

(** reflect.DeepEqual of a value of type [t] with the zero value of [t].  Both zeros
    of a float are equal; a non-nil empty slice or map is not equal to nil. *)
Fixpoint deep_zero (env : tenv) (t : gotype) (v : value) {struct v} : bool :=
  match resolve env t, v with
  | RPrim PFloat32, VFloat b => (b =? 0) || (b =? 2 ^ 31)
  | RPrim PFloat64, VFloat b => (b =? 0) || (b =? 2 ^ 63)
  | _, VBool b => negb b
  | _, VInt z | _, VUint z => z =? 0
  | _, VStr s => match s with [] => true | _ => false end
  | _, VTime s ns => (s =? -62135596800) && (ns =? 0)
  | RArray _ e, VArr l => forallb (deep_zero env e) l
  | RStruct fs, VStruct l => forall2b (fun f w => deep_zero env (sf_type f) w) fs l
  | _, VSlice None | _, VMap None | _, VIface None | _, VPtr None | _, VFunc true => true
  | _, VOther => true   (* never reached: such types have no JSON form *)
  | _, _ => false
  end.
(** json-encode.go:446-462 [isEmpty] of the dereferenced field; the zero value it is compared
    with is that of the field type [t], so nothing under a pointer equals it. *)
Definition is_empty (env : tenv) (t : gotype) (v : value) : bool :=
  match deref_pointers v with
  | (_, true) => true
  | (w, false) =>
      (negb (is_ptr t) && deep_zero env t w) ||
      match w with
      | VSlice None | VSlice (Some []) | VArr [] | VStr [] => true
      | _ => false
      end
  end.

Section Enc.
  Variable env : tenv.
  Variable je : jenv.
  Variable c : codec.
  (** The recursive call to encodeReflectJSON: info, value, CanAddr, options. *)
  Variable rec : tinfo -> value -> bool -> fopts -> eres bytes.

  (** json-encode.go:134-193 [encodeReflectJSONInterface] *)
  Definition json_interface (v : value) (o : fopts) : eres bytes :=
    match v with
    | VIface None => EOk null
    | VIface (Some (ct, cv)) =>
        match deref_pointers cv with
        | (_, true) => EPanic "Illegal nil-pointer"%string
        | (VIface _, false) => EPanic "should not happen"%string
        | (crv, false) =>
            elet info := get_type_info env c (deref_type ct) in
            match info with
            | TIConc ci =>
                match ci_reg ci with
                | None => EErr "cannot encode unregistered concrete type"%string
                | Some r => elet b := rec info crv (val_is_ptr cv) o in EOk (wrap_name (ri_name r) b)
                end
            | TIFace _ => EErr "cannot encode unregistered concrete type"%string
            end
        end
    | _ => EPanic "reflect: call on wrong kind"%string
    end.

  (** json-encode.go:242-265: the elements.  A nil pointer is written as null, which
      encodeReflectJSON would also do. *)
  Fixpoint json_elems (einfo : tinfo) (l : list value) (ad : bool) (o : fopts) : eres (list bytes) :=
    match l with
    | [] => EOk []
    | v :: l' =>
        elet b := rec einfo v ad o in
        elet bs := json_elems einfo l' ad o in
        EOk (b :: bs)
    end.

  (** json-encode.go:195-273 [encodeReflectJSONList].  reflect.Copy insists on identical
      element types. *)
  Definition json_list (ert : gotype) (v : value) (ad : bool) (o : fopts) : eres bytes :=
    match v with
    | VSlice None => EOk null
    | VSlice (Some l) | VArr l =>
        if is_uint8 env ert then
          if ad || gotype_eqb ert (TPrim PUint8) then EOk (34 :: b64_encode (val_bytes l) ++ [34])
          else EPanic "reflect.Copy: elem type mismatch"%string
        else
          elet einfo := get_type_info env c ert in
          elet bs := json_elems einfo l (match v with VSlice _ => true | _ => ad end) o in
          EOk (91 :: join bs ++ [93])
    | _ => EPanic "reflect: call on wrong kind"%string
    end.

  (** json-encode.go:296-338: the fields that are written *)
  Fixpoint json_fields (fs : list finfo) (l : list value) (ad : bool) : eres (list bytes) :=
    match fs with
    | [] => EOk []
    | f :: fs' =>
        let frv := nth (fi_index f) l VInvalid in
        elet info := get_type_info env c (fi_type f) in
        if fo_omitempty (fi_opts f) && is_empty env (fi_type f) frv then json_fields fs' l ad
        else
          elet b := rec info frv ad (fi_opts f) in
          elet bs := json_fields fs' l ad in
          EOk ((quote (fo_json_name (fi_opts f)) ++ 58 :: b) :: bs)
    end.
  (** json-encode.go:275-340 [encodeReflectJSONStruct] *)
  Definition json_struct (ci : cinfo) (v : value) (ad : bool) : eres bytes :=
    match v with
    | VStruct l => elet ms := json_fields (ci_fields ci) l ad in EOk (123 :: join ms ++ [125])
    | _ => EPanic "reflect: call on wrong kind"%string
    end.

  (** json-encode.go:369-407: the members of a map, in the order of the list; Go's
      order is arbitrary *)
  Fixpoint json_members (vt : gotype) (l : list (value * value)) (o : fopts) : eres (list bytes) :=
    match l with
    | [] => EOk []
    | (k, v) :: l' =>
        match k with
        | VStr s =>
            elet b := (match deref_pointers v with
                       | (_, true) => EOk null
                       | (w, false) =>
                           elet info := get_type_info env c (deref_type vt) in
                           rec info w (val_is_ptr v) o
                       end) in
            elet bs := json_members vt l' o in
            EOk ((quote s ++ 58 :: b) :: bs)
        | _ => EPanic "reflect: call on wrong kind"%string
        end
    end.
  (** json-encode.go:343-409 [encodeReflectJSONMap] *)
  Definition json_map (kt vt : gotype) (v : value) (o : fopts) : eres bytes :=
    match resolve env kt with
    | RPrim PString =>
        match v with
        | VMap None => EOk (bs "{}")
        | VMap (Some l) => elet ms := json_members vt l o in EOk (123 :: join ms ++ [125])
        | _ => EPanic "reflect: call on wrong kind"%string
        end
    | _ => EErr "encodeReflectJSONMap: map key type must be a string"%string
    end.

  (** json-encode.go:83-131: the switch *)
  Definition json_switch (info : tinfo) (v : value) (ad : bool) (o : fopts) : eres bytes :=
    match resolve env (ti_type info) with
    | RIface _ => json_interface v o
    | RArray _ e | RSlice e => json_list e v ad o
    | RStruct _ | RTime =>
        match info with
        | TIConc ci => json_struct ci v ad
        | TIFace _ => EPanic "unreachable"%string
        end
    | RMap kt vt => json_map kt vt v o
    | RPrim p => json_prim je p v o
    | RPtr _ | RFunc | ROther | RBad => EPanic "unsupported type"%string
    end.
End Enc.

(** json-encode.go:45-61: the override by MarshalJSON, if any.  Times always have one. *)
Definition marshal_override (je : jenv) (t : gotype) (v : value) (ad : bool) : option (eres bytes) :=
  match t, v with
  | TTime, VTime s ns => Some (je_time je s ns)
  | TNamed id, _ =>
      match je_marshal je id with
      | Some (byval, f) => if byval || ad then Some (f v) else None
      | None => None
      end
  | _, _ => None
  end.

(** json-encode.go:23-132 [encodeReflectJSON]; [ad] is rv.CanAddr() *)
Fixpoint encode_json (fuel : nat) (env : tenv) (je : jenv) (c : codec) (info : tinfo) (v : value)
         (ad : bool) (o : fopts) : eres bytes :=
  match fuel with
  | O => EFuel
  | S k =>
      match v with
      | VInvalid => EPanic "should not happen"%string
      | _ =>
          match deref_pointers v with
          | (_, true) => EOk null
          | (w, false) =>
              let ad := ad || val_is_ptr v in
              match marshal_override je (ti_type info) w ad with
              | Some r => r
              | None =>
                  match info with
                  | TIConc {| ci_type := t; ci_marshal := Some r |} =>
                      elet rv := to_repr env t w in
                      elet rinfo := get_type_info env c r in
                      encode_json k env je c rinfo rv false o
                  | _ => json_switch env je c (encode_json k env je c) info w ad o
                  end
              end
          end
      end
  end.

(** amino.go:495-528 [MarshalJSON(o)], [o] of dynamic type [t]; nil arguments:
    Entry.v. *)
Definition marshal_json (fuel : nat) (env : tenv) (je : jenv) (c : codec) (t : gotype) (v : value) : eres bytes :=
  elet info := get_type_info env c t in
  elet b := encode_json fuel env je c info v false no_opts in
  match info with
  | TIConc {| ci_reg := Some r |} => EOk (wrap_name (ri_name r) b)
  | _ => EOk b
  end.

(** ** Decoding *)

(** The new contents of the target are returned only on success: what is left behind
    after an error is not modelled. *)

(** json-decode.go:116-143, 155-170: numbers, booleans and strings read by json.Unmarshal;
    null leaves the zero value *)
Definition unjson_prim (je : jenv) (p : prim) (bz : bytes) (o : fopts) : eres value :=
  let num (f : bytes -> eres value) (z : value) : bytes -> eres value := fun b =>
    with_top b (fun j => match j with JNum n => f n | JNull => EOk z | _ => EErr type_error end) in
  let int (w : Z) := num (fun n => match parse_int n with
    | Some z => if in_int w z then EOk (VInt z) else EErr type_error
    | None => EErr type_error
    end) (VInt 0) in
  let uint (w : Z) := num (fun n => match parse_uint n with
    | Some z => if in_uint w z then EOk (VUint z) else EErr type_error
    | None => EErr type_error
    end) (VUint 0) in
  let quoted (f : bytes -> eres value) : eres value :=
    match bz with
    | [] => EPanic "index out of range"%string
    | b :: _ =>
        if negb (b =? 34) || negb (last bz 0 =? 34) then EErr "Amino:JSON int/int64/uint/uint64 expects quoted values"%string
        else if (length bz <? 2)%nat then EPanic "slice bounds out of range"%string
        else f (removelast (tl bz))
    end in
  match p with
  | PInt64 | PInt => quoted (int 64)
  | PUint64 | PUint => quoted (uint 64)
  | PInt32 => int 32 bz
  | PInt16 => int 16 bz
  | PInt8 => int 8 bz
  | PUint32 => uint 32 bz
  | PUint16 => uint 16 bz
  | PUint8 => uint 8 bz
  | PFloat32 | PFloat64 =>
      if fo_unsafe o then num (fun n => elet b := je_unfloat je p n in EOk (VFloat b)) (VFloat 0) bz
      else EErr "amino:JSON float* support requires unsafe"%string
  | PBool => with_top bz (fun j => match j with JBool b => EOk (VBool b) | JNull => EOk (VBool false) | _ => EErr type_error end)
  | PString => with_top bz (fun j => match j with
      | JStr s => elet b := unq s in EOk (VStr b)
      | JNull => EOk (VStr [])
      | _ => EErr type_error
      end)
  end.

(** json-decode.go:482-515 [decodeInterfaceJSON] *)
Definition decode_wrapper (bz : bytes) : eres (bytes * bytes) :=
  elet w := raw_wrapper bz in
  match wr_name w, wr_data w with
  | [], _ => EErr "JSON encoding of interfaces require non-empty type field"%string
  | _, [] => EErr "interface JSON wrapper should have non-empty value field"%string
  | n, d => EOk (n, d)
  end.

Section Dec.
  Variable env : tenv.
  Variable je : jenv.
  Variable c : codec.
  (** The recursive call to decodeReflectJSON: bytes, info, static type and contents of
      the target, options. *)
  Variable rec : bytes -> tinfo -> gotype -> value -> fopts -> eres value.

  (** json-decode.go:173-233 [decodeReflectJSONInterface].  rv.Set panics when the concrete
      type does not implement the interface, also after an error. *)
  Definition unjson_interface (ii : iinfo) (bz : bytes) (o : fopts) : eres value :=
    elet nd := decode_wrapper bz in
    elet ci := type_info_from_name c (fst nd) in
    let ptr := match ci_reg ci with Some r => ri_ptr r | None => false end in
    let ct := if ptr then TPtr (ci_type ci) else ci_type ci in
    match rec (snd nd) (TIConc ci) (ci_type ci) (zero env (ci_type ci)) o with
    | EPanic p => EPanic p
    | EFuel => EFuel
    | EErr e => if te_impl env ct (ii_id ii) then EErr e else EPanic "reflect.Set: value of type is not assignable to type"%string
    | EOk v =>
        if te_impl env ct (ii_id ii) then EOk (VIface (Some (ct, if ptr then VPtr (Some v) else v)))
        else EPanic "reflect.Set: value of type is not assignable to type"%string
    end.

  (** json-decode.go:281-289, 346-356: the elements, into the targets [l] *)
  Fixpoint unjson_elems (einfo : tinfo) (ert : gotype) (raws : list bytes) (l : list value) (o : fopts) : eres (list value) :=
    match raws, l with
    | b :: raws', v0 :: l' =>
        elet v := rec b einfo ert v0 o in
        elet vs := unjson_elems einfo ert raws' l' o in
        EOk (v :: vs)
    | _, _ => EOk []
    end.

  (** json-decode.go:236-292 [decodeReflectJSONArray].  reflect.Copy is reached also when the
      length is wrong; it insists on identical element types. *)
  Definition unjson_array (n : nat) (ert : gotype) (bz : bytes) (v0 : value) (o : fopts) : eres value :=
    if is_uint8 env ert then
      elet b := raw_bytes bz [] in
      if negb (gotype_eqb ert (TPrim PUint8)) then EPanic "reflect.Copy: elem type mismatch"%string
      else if negb (length b =? n)%nat then EErr "byte-length mismatch"%string
      else EOk (VArr (bytes_val b))
    else
      elet einfo := get_type_info env c ert in
      elet raws := raw_list bz in
      if negb (length raws =? n)%nat then EErr "length mismatch"%string
      else match v0 with
           | VArr l0 => elet l := unjson_elems einfo ert raws l0 o in EOk (VArr l)
           | _ => EPanic "reflect: call on wrong kind"%string
           end.

  (** json-decode.go:295-362 [decodeReflectJSONSlice].  Only lists of bytes are read into the
      old contents of the target. *)
  Definition unjson_slice (ert : gotype) (bz : bytes) (v0 : value) (o : fopts) : eres value :=
    if is_uint8 env ert then
      elet b := raw_bytes bz (match v0 with VSlice (Some l) => val_bytes l | _ => [] end) in
      EOk (mk_slice (bytes_val b))
    else
      elet einfo := get_type_info env c ert in
      elet raws := raw_list bz in
      elet l := unjson_elems einfo ert raws (repeat (zero env ert) (length raws)) o in
      EOk (mk_slice l).

  (** json-decode.go:385-420: the fields.  The options passed down are those of the struct,
      not those of the field. *)
  Fixpoint unjson_fields (fs : list finfo) (m : list (bytes * bytes)) (l : list value) (o : fopts) : eres (list value) :=
    match fs with
    | [] => EOk l
    | f :: fs' =>
        let i := fi_index f in
        elet info := get_type_info env c (fi_type f) in
        match assoc beqb (fo_json_name (fi_opts f)) m with
        | None | Some [] =>
            unjson_fields fs' m (if fo_omitempty (fi_opts f) then l else upd i (zero env (fi_type f)) l) o
        | Some b =>
            elet v := rec b info (fi_type f) (nth i l VInvalid) o in
            unjson_fields fs' m (upd i v l) o
        end
    end.
  (** json-decode.go:365-423 [decodeReflectJSONStruct] *)
  Definition unjson_struct (ci : cinfo) (bz : bytes) (v0 : value) (o : fopts) : eres value :=
    elet m := raw_map bz in
    match v0 with
    | VStruct l0 => elet l := unjson_fields (ci_fields ci) m l0 o in EOk (VStruct l)
    | _ => EPanic "reflect: call on wrong kind"%string
    end.

  (** json-decode.go:457-473: the members of a map.  SetMapIndex panics when the key type is
      not string itself. *)
  Fixpoint unjson_members (kt vt : gotype) (vinfo : tinfo) (m : list (bytes * bytes)) (o : fopts) : eres (list (value * value)) :=
    match m with
    | [] => EOk []
    | (k, b) :: m' =>
        elet v := rec b vinfo vt (zero env vt) o in
        if negb (gotype_eqb kt (TPrim PString)) then EPanic "reflect.Value.SetMapIndex: value of type string is not assignable"%string
        else elet r := unjson_members kt vt vinfo m' o in EOk ((VStr k, v) :: r)
    end.
  (** json-decode.go:426-477 [decodeReflectJSONMap] *)
  Definition unjson_map (kt vt : gotype) (bz : bytes) (o : fopts) : eres value :=
    elet m := raw_map bz in
    match resolve env kt with
    | RPrim PString =>
        elet vinfo := get_type_info env c vt in
        elet l := unjson_members kt vt vinfo m o in
        EOk (VMap (Some l))
    | _ => EErr "decodeReflectJSONMap: key type must be string"%string
    end.

  (** json-decode.go:93-150: the switch *)
  Definition unjson_switch (info : tinfo) (bz : bytes) (v0 : value) (o : fopts) : eres value :=
    match resolve env (ti_type info) with
    | RIface _ =>
        match info with
        | TIFace ii => unjson_interface ii bz o
        | TIConc _ => EPanic "unreachable"%string
        end
    | RArray n e => unjson_array n e bz v0 o
    | RSlice e => unjson_slice e bz v0 o
    | RStruct _ | RTime =>
        match info with
        | TIConc ci => unjson_struct ci bz v0 o
        | TIFace _ => EPanic "unreachable"%string
        end
    | RMap kt vt => unjson_map kt vt bz o
    | RPrim p => unjson_prim je p bz o
    | RPtr _ | RFunc | ROther | RBad => EPanic "unsupported type"%string
    end.
End Dec.

(** json-decode.go:50-62: a time must be a string ending in Z *)
Definition time_text (bz : bytes) : bool :=
  (2 <=? length bz)%nat && (nth 0 bz 0 =? 34) && (nth (length bz - 1) bz 0 =? 34) && (nth (length bz - 2) bz 0 =? 90).

(** json-decode.go:18-153 [decodeReflectJSON] *)
Fixpoint decode_json (fuel : nat) (env : tenv) (je : jenv) (c : codec) (bz : bytes) (info : tinfo) (t : gotype)
         (v0 : value) (o : fopts) : eres value :=
  match fuel with
  | O => EFuel
  | S k =>
      match info, t with
      | TIFace _, TPtr _ => EPanic "should not happen"%string
      | _, _ =>
          if beqb bz null then EOk (zero env t)
          else
            let w0 := base_of env t v0 in
            elet w :=
              match deref_type t with
              | TTime =>
                  if time_text bz then elet r := je_untime je bz in EOk (VTime (fst r) (snd r))
                  else EErr "amino:JSON time must be an RFC3339Nano string in UTC"%string
              | _ =>
                  match (match deref_type t with TNamed id => je_unmarshal je id | _ => None end) with
                  | Some g => g bz w0
                  | None =>
                      match info with
                      | TIConc {| ci_type := ct; ci_unmarshal := Some r |} =>
                          elet rinfo := get_type_info env c r in
                          elet rv := decode_json k env je c bz rinfo r (zero env r) o in
                          elet ve := from_repr env ct w0 rv in
                          match snd ve with Some e => EErr e | None => EOk (fst ve) end
                      | _ => unjson_switch env je c (decode_json k env je c) info bz w0 o
                      end
                  end
              end in
            EOk (rebuild t w)
      end
  end.

(** amino.go:539-567 [UnmarshalJSON(bz, ptr)], [ptr] a non-nil pointer to a variable of type
    [t] holding [v0] *)
Definition unmarshal_json (fuel : nat) (env : tenv) (je : jenv) (c : codec) (bz : bytes) (t : gotype) (v0 : value) : eres value :=
  match bz with
  | [] => EErr "cannot decode empty bytes"%string
  | _ =>
      elet info := get_type_info env c t in
      match info with
      | TIConc {| ci_reg := Some r |} =>
          elet nd := decode_wrapper bz in
          if negb (beqb (fst nd) (ri_name r)) then EErr "wanted to decode but found"%string
          else decode_json fuel env je c (snd nd) info t v0 no_opts
      | _ => decode_json fuel env je c bz info t v0 no_opts
      end
  end.
