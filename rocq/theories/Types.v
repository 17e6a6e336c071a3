(** Go types and values as amino sees them through [reflect], and reflect.go. *)
From Coq Require Import ZArith String List Bool.
From Verif Require Import Base Prims.
Import ListNotations.
Local Open Scope Z_scope.

(** ** Types *)

(** Basic kinds.  [PInt]/[PUint] are 64 bits wide. *)
Inductive prim :=
| PBool | PInt | PInt8 | PInt16 | PInt32 | PInt64
| PUint | PUint8 | PUint16 | PUint32 | PUint64
| PFloat32 | PFloat64 | PString.

Definition tid := nat.   (* declared (or anonymous struct) type *)
Definition ifid := nat.  (* interface type *)

(** A [reflect.Type].  [TNamed] is a declared non-interface type, or an
    anonymous struct type (one identifier per distinct struct type).  [TOther]
    stands for complex, chan, uintptr and unsafe.Pointer types, which amino
    never encodes. *)
Inductive gotype :=
| TPrim (p : prim)
| TTime
| TArray (n : nat) (e : gotype)
| TSlice (e : gotype)
| TPtr (e : gotype)
| TMap (k v : gotype)
| TFunc
| TOther
| TIface (i : ifid)
| TNamed (id : tid).

Definition prim_eqb (a b : prim) : bool :=
  match a, b with
  | PBool, PBool | PInt, PInt | PInt8, PInt8 | PInt16, PInt16 | PInt32, PInt32
  | PInt64, PInt64 | PUint, PUint | PUint8, PUint8 | PUint16, PUint16
  | PUint32, PUint32 | PUint64, PUint64 | PFloat32, PFloat32
  | PFloat64, PFloat64 | PString, PString => true
  | _, _ => false
  end.

(** Identity of types (Go [==] on [reflect.Type]). *)
Fixpoint gotype_eqb (a b : gotype) : bool :=
  match a, b with
  | TPrim p, TPrim q => prim_eqb p q
  | TTime, TTime => true
  | TArray n e, TArray m f => Nat.eqb n m && gotype_eqb e f
  | TSlice e, TSlice f => gotype_eqb e f
  | TPtr e, TPtr f => gotype_eqb e f
  | TMap k v, TMap k' v' => gotype_eqb k k' && gotype_eqb v v'
  | TFunc, TFunc => true
  | TOther, TOther => true
  | TIface i, TIface j => Nat.eqb i j
  | TNamed i, TNamed j => Nat.eqb i j
  | _, _ => false
  end.

(** ** Values *)

(** A [reflect.Value].  Integers hold their mathematical value, floats their
    IEEE bit pattern, times the pair (Unix seconds, nanoseconds), strings their
    bytes.  A [[]byte] is a [VSlice] of [VUint].  [VStruct] holds the values of
    all fields, exported or not.  [VInvalid] is reflect's zero Value (what
    [derefPointers] yields for a nil pointer).  Values are finite trees: sharing
    and cycles through pointers are not represented here. *)
Inductive value :=
| VBool (b : bool)
| VInt (z : Z)
| VUint (z : Z)
| VFloat (bits : Z)
| VStr (s : bytes)
| VTime (s ns : Z)
| VArr (l : list value)
| VSlice (o : option (list value))
| VPtr (o : option value)
| VStruct (l : list value)
| VIface (o : option (gotype * value))
| VMap (o : option (list (value * value)))
| VFunc (isnil : bool)
| VOther
| VInvalid.

(** ** Declarations of the Go program *)

(** A struct field as reflect reports it.  [sf_exported] is the verdict of
    codec.go:724-739 [isExported] (package path and Unicode upper case). *)
Record sfield := {
  sf_name : bytes;
  sf_exported : bool;
  sf_type : gotype;
  sf_json : bytes;    (* field.Tag.Get("json") *)
  sf_binary : bytes;  (* field.Tag.Get("binary") *)
  sf_amino : bytes    (* field.Tag.Get("amino") *)
}.

Inductive udef :=
| UStruct (fs : list sfield)
| UType (t : gotype).   (* [type T t]; t is an unnamed non-pointer type *)

(** What reflect finds under the name MarshalAmino / UnmarshalAmino: a method
    of the wrong shape, or one with a representation type and a behaviour.
    The behaviour is arbitrary Go code: it may return an error or panic. *)
Inductive marshaler :=
| MBad (p : panicmsg)
| MOk (repr : gotype) (f : value -> eres value).
Inductive unmarshaler :=
| UBad (p : panicmsg)
| UOk (repr : gotype) (g : value -> value -> eres (value * option error)).

Record tenv := {
  te_def : tid -> udef;
  te_zero : tid -> value;                       (* reflect.Zero of a declared type *)
  te_impl : gotype -> ifid -> bool;             (* Type.Implements *)
  te_marshal : tid -> option marshaler;         (* rt.MethodByName("MarshalAmino") *)
  te_unmarshal : tid -> option unmarshaler;     (* reflect.PtrTo(rt).MethodByName("UnmarshalAmino") *)
  te_hash : bytes -> bytes                      (* sha256 *)
}.

(** Underlying structure of a type ([Kind], [Elem], [Len], [NumField]...). *)
Inductive rtype :=
| RPrim (p : prim)
| RTime
| RArray (n : nat) (e : gotype)
| RSlice (e : gotype)
| RPtr (e : gotype)
| RMap (k v : gotype)
| RFunc
| ROther
| RIface (i : ifid)
| RStruct (fs : list sfield)
| RBad.

Definition resolve (env : tenv) (t : gotype) : rtype :=
  match t with
  | TPrim p => RPrim p
  | TTime => RTime
  | TArray n e => RArray n e
  | TSlice e => RSlice e
  | TPtr e => RPtr e
  | TMap k v => RMap k v
  | TFunc => RFunc
  | TOther => ROther
  | TIface i => RIface i
  | TNamed id =>
      match te_def env id with
      | UStruct fs => RStruct fs
      | UType (TPrim p) => RPrim p
      | UType (TArray n e) => RArray n e
      | UType (TSlice e) => RSlice e
      | UType (TMap k v) => RMap k v
      | UType TFunc => RFunc
      | UType TOther => ROther
      | UType _ => RBad
      end
  end.

(** Kind tests used by the Go code. *)
Definition is_uint8 (env : tenv) (t : gotype) : bool :=
  match resolve env t with RPrim PUint8 => true | _ => false end.
Definition is_struct (env : tenv) (t : gotype) : bool :=
  match resolve env t with RStruct _ | RTime => true | _ => false end.
Definition is_ptr (t : gotype) : bool := match t with TPtr _ => true | _ => false end.

(** amino.go:479-485 [derefType] (also the loops at codec.go:373, 468, reflect.go:87). *)
Fixpoint deref_type (t : gotype) : gotype :=
  match t with TPtr e => deref_type e | _ => t end.

(** 0001-01-01 00:00:00 UTC, [reflect.Zero(timeType)]. *)
Definition zero_time : value := VTime (-62135596800) 0.
(** amino.go:21,35 [zeroTime]: 1970-01-01. *)
Definition epoch : value := VTime 0 0.

Definition zero_prim (p : prim) : value :=
  match p with
  | PBool => VBool false
  | PInt | PInt8 | PInt16 | PInt32 | PInt64 => VInt 0
  | PUint | PUint8 | PUint16 | PUint32 | PUint64 => VUint 0
  | PFloat32 | PFloat64 => VFloat 0
  | PString => VStr []
  end.

(** [reflect.Zero] *)
Fixpoint zero (env : tenv) (t : gotype) : value :=
  match t with
  | TPrim p => zero_prim p
  | TTime => zero_time
  | TArray n e => VArr (repeat (zero env e) n)
  | TSlice _ => VSlice None
  | TPtr _ => VPtr None
  | TMap _ _ => VMap None
  | TFunc => VFunc true
  | TOther => VOther
  | TIface _ => VIface None
  | TNamed id => te_zero env id
  end.

(** ** Typing of values *)

Definition prim_has (p : prim) (v : value) : bool :=
  match p, v with
  | PBool, VBool _ => true
  | PInt, VInt z | PInt64, VInt z => in_int 64 z
  | PInt8, VInt z => in_int 8 z
  | PInt16, VInt z => in_int 16 z
  | PInt32, VInt z => in_int 32 z
  | PUint, VUint z | PUint64, VUint z => in_uint 64 z
  | PUint8, VUint z => in_uint 8 z
  | PUint16, VUint z => in_uint 16 z
  | PUint32, VUint z => in_uint 32 z
  | PFloat32, VFloat b => in_uint 32 b
  | PFloat64, VFloat b => in_uint 64 b
  | PString, VStr s => forallb byte_ok s
  | _, _ => false
  end.

(** [has_type env t v]: a Go variable of type [t] can hold [v]. *)
Fixpoint has_type (env : tenv) (t : gotype) (v : value) {struct v} : bool :=
  match resolve env t, v with
  | RPrim p, _ => prim_has p v
  | RTime, VTime s ns => in_int 64 s && (0 <=? ns) && (ns <=? 999999999)
  | RArray n e, VArr l => Nat.eqb (length l) n && forallb (has_type env e) l
  | RSlice _, VSlice None => true
  | RSlice e, VSlice (Some l) => forallb (has_type env e) l
  | RPtr _, VPtr None => true
  | RPtr e, VPtr (Some w) => has_type env e w
  | RMap _ _, VMap None => true
  | RMap kt vt, VMap (Some l) =>
      forallb (fun p => has_type env kt (fst p) && has_type env vt (snd p)) l
  | RFunc, VFunc _ => true
  | ROther, VOther => true
  | RIface _, VIface None => true
  | RIface i, VIface (Some (ct, w)) =>
      te_impl env ct i && match ct with TIface _ => false | _ => has_type env ct w end
  | RStruct fs, VStruct l =>
      forall2b (fun f w => has_type env (sf_type f) w) fs l
  | _, _ => false
  end.

(** The declarations make sense: declared types have an allowed underlying
    type, and [te_zero] is reflect.Zero of the underlying structure. *)
Definition zero_of_def (env : tenv) (d : udef) : value :=
  match d with
  | UStruct fs => VStruct (map (fun f => zero env (sf_type f)) fs)
  | UType t => zero env t
  end.
Record wf_env (env : tenv) : Prop := {
  we_def : forall id, resolve env (TNamed id) <> RBad;
  we_zero : forall id, te_zero env id = zero_of_def env (te_def env id);
  (* the method set of *T includes that of T, unless T is a pointer or interface *)
  we_impl_ptr : forall t i, match t with TPtr _ | TIface _ => False | _ => True end ->
                            te_impl env t i = true -> te_impl env (TPtr t) i = true;
  (* pointers to pointers have no methods, so only implement the empty interface *)
  we_impl_ptr2 : forall t i, te_impl env (TPtr (TPtr t)) i = true -> te_impl env (TPtr t) i = true;
  we_hash_len : forall b, length (te_hash env b) = 32%nat;
  we_hash_ok : forall b, bytes_ok (te_hash env b)
}.

(** ** reflect.go *)

(** reflect.go:64-75 [derefPointers]; the result is the final value
    ([VInvalid] when a nil pointer is met) and isNilPtr. *)
Fixpoint deref_pointers (v : value) : value * bool :=
  match v with
  | VPtr (Some w) => deref_pointers w
  | VPtr None => (VInvalid, true)
  | _ => (v, false)
  end.
Definition val_is_ptr (v : value) : bool := match v with VPtr _ => true | _ => false end.

(** reflect.go:81-97 [derefPointersZero]; [t] is the static type of [v]. *)
Fixpoint deref_pointers_zero (env : tenv) (t : gotype) (v : value) : value :=
  match v with
  | VPtr (Some w) => deref_pointers_zero env (match t with TPtr e => e | _ => t end) w
  | VPtr None => zero env (deref_type t)
  | _ => v
  end.

(** reflect.go:105-126 [isDefaultValue]: (erv, isDefault) *)
Definition is_default_value (v : value) : value * bool :=
  match deref_pointers v with
  | (_, true) => (VInvalid, true)
  | (w, false) =>
      (w, match w with
          | VInt z => z =? 0
          | VUint z => z =? 0
          | VStr s => match s with [] => true | _ => false end
          | VSlice None | VSlice (Some []) => true
          | VMap None | VMap (Some []) => true
          | VFunc b => b
          | VIface None => true
          | _ => false
          end)
  end.

(** reflect.go:130-164 [defaultValue] *)
Fixpoint wrap_ptrs (t : gotype) (v : value) : value :=
  match t with TPtr e => VPtr (Some (wrap_ptrs e v)) | _ => v end.
Definition default_value (env : tenv) (t : gotype) : value :=
  match deref_type t with
  | TTime => wrap_ptrs t epoch
  | _ => zero env t
  end.

(** Field options, codec.go:112-122. *)
Record fopts := {
  fo_json_name : bytes;
  fo_omitempty : bool;
  fo_fixed64 : bool;
  fo_fixed32 : bool;
  fo_num : Z;
  fo_unsafe : bool;
  fo_write_empty : bool;
  fo_empty_elements : bool
}.
(** Go [FieldOptions{}] *)
Definition no_opts : fopts :=
  {| fo_json_name := []; fo_omitempty := false; fo_fixed64 := false; fo_fixed32 := false;
     fo_num := 0; fo_unsafe := false; fo_write_empty := false; fo_empty_elements := false |}.
Definition set_num (k : Z) (o : fopts) : fopts :=
  {| fo_json_name := fo_json_name o; fo_omitempty := fo_omitempty o;
     fo_fixed64 := fo_fixed64 o; fo_fixed32 := fo_fixed32 o; fo_num := k;
     fo_unsafe := fo_unsafe o; fo_write_empty := fo_write_empty o;
     fo_empty_elements := fo_empty_elements o |}.

(** reflect.go:192-223 [typeToTyp3] *)
Definition type_to_typ3 (env : tenv) (t : gotype) (o : fopts) : eres Z :=
  match resolve env t with
  | RIface _ | RArray _ _ | RSlice _ | RPrim PString | RStruct _ | RTime | RMap _ _ => EOk Typ3ByteLength
  | RPrim PInt64 | RPrim PUint64 => if fo_fixed64 o then EOk Typ38Byte else EOk Typ3Varint
  | RPrim PInt32 | RPrim PUint32 => if fo_fixed32 o then EOk Typ3_4Byte else EOk Typ3Varint
  | RPrim PInt16 | RPrim PInt8 | RPrim PInt | RPrim PUint16 | RPrim PUint8 | RPrim PUint
  | RPrim PBool => EOk Typ3Varint
  | RPrim PFloat64 => EOk Typ38Byte
  | RPrim PFloat32 => EOk Typ3_4Byte
  | RPtr _ | RFunc | ROther | RBad => EPanic "unsupported field type"%string
  end.

(** Byte slices and arrays at the reflect level. *)
Definition val_byte (v : value) : Z := match v with VUint z => z | _ => 0 end.
Definition val_bytes (l : list value) : bytes := map val_byte l.
Definition bytes_val (b : bytes) : list value := map VUint b.
