(** The exported functions with their arguments as they come, [interface{}]; and the
    package-level functions of amino.go:41-93, which use one codec of the package. *)
From Coq Require Import ZArith String List Bool.
From Verif Require Import Base Prims Types Codec BinEnc BinDec Amino Registry Stream JsonText Json JsonIndent.
Import ListNotations.
Local Open Scope Z_scope.
Local Open Scope amino_scope.

(** A value of type [interface{}]: nil, or a dynamic type and a value. *)
Definition arg := option (gotype * value).

(** ** Marshal *)

(** amino.go:197-244 [MarshalBinaryBare].  [derefPointers] gives back reflect's zero Value
    for nil, whose [Type] panics (amino.go:210). *)
Definition call_marshal_bare (fuel : nat) (env : tenv) (c : codec) (o : arg) : eres bytes :=
  match o with
  | None => EPanic "reflect: call of reflect.Value.Type on zero Value"%string
  | Some (t, v) => marshal_bare fuel env c t v
  end.
(** amino.go:143-167 [MarshalBinaryLengthPrefixed] *)
Definition call_marshal_length_prefixed (fuel : nat) (env : tenv) (c : codec) (o : arg) : eres bytes :=
  elet bz := call_marshal_bare fuel env c o in
  EOk (encode_uvarint (zlen bz) ++ bz).
(** amino.go:171-184 [MarshalBinaryLengthPrefixedWriter] *)
Definition call_marshal_writer {W} (write : W -> bytes -> nat * option error * W)
           (fuel : nat) (env : tenv) (c : codec) (w : W) (o : arg) : mres W :=
  match call_marshal_length_prefixed fuel env c o with
  | EErr e => MRet 0 (Some e) w
  | EPanic p => MPanic p
  | EFuel => MFuel
  | EOk bz => let '(n, e, w') := write w bz in MRet (Z.of_nat n) e w'
  end.
(** amino.go:495-528 [MarshalJSON] *)
Definition call_marshal_json (fuel : nat) (env : tenv) (je : jenv) (c : codec) (o : arg) : eres bytes :=
  match o with
  | None => EOk null
  | Some (t, v) => marshal_json fuel env je c t v
  end.
(** amino.go:579-590 [MarshalJSONIndent] *)
Definition call_marshal_json_indent (fuel : nat) (env : tenv) (je : jenv) (c : codec) (o : arg) (prefix indent : bytes) : eres bytes :=
  elet bz := call_marshal_json fuel env je c o in
  json_indent bz prefix indent.

(** ** Unmarshal *)

(** Result of an Unmarshal call: the argument afterwards and the error. *)
Inductive cres :=
| CRet (ptr : arg) (e : option error)
| CPanic (p : panicmsg)
| CFuel.
Definition err_no_pointer : error := "expected a pointer"%string.
Definition into (t : gotype) (r : ures) : cres :=
  match r with
  | URet v e => CRet (Some (TPtr t, VPtr (Some v))) e
  | UPanic p => CPanic p
  | UFuel => CFuel
  end.
(** amino.go:363-370 and 543-551: what is pointed to.  The [Elem] of a nil pointer is
    reflect's zero Value, whose [Type] panics. *)
Definition with_target (ptr : arg) (k : gotype -> value -> cres) : cres :=
  match ptr with
  | Some (TPtr t, VPtr (Some v)) => k t v
  | Some (TPtr _, _) => CPanic "reflect: call of reflect.Value.Type on zero Value"%string
  | _ => CRet ptr (Some err_no_pointer)
  end.
(** amino.go:361-445 [UnmarshalBinaryBare] *)
Definition call_unmarshal_bare (fuel : nat) (env : tenv) (c : codec) (bz : bytes) (ptr : arg) : cres :=
  with_target ptr (fun t v => into t (unmarshal_bare fuel env c bz t v)).
(** amino.go:264-286 [UnmarshalBinaryLengthPrefixed] *)
Definition call_unmarshal_length_prefixed (fuel : nat) (env : tenv) (c : codec) (bz : bytes) (ptr : arg) : cres :=
  match bz with
  | [] => CRet ptr (Some "unmarshalBinaryLengthPrefixed cannot decode empty bytes"%string)
  | _ =>
      let '(u, n) := uvarint bz in
      if n <? 0 then CRet ptr (Some "Error reading msg byte-length prefix"%string)
      else if u64 (zlen bz - n) <? u then CRet ptr (Some "Not enough bytes to read"%string)
      else if u <? u64 (zlen bz - n) then CRet ptr (Some "Bytes left over"%string)
      else call_unmarshal_bare fuel env c (skipn (Z.to_nat n) bz) ptr
  end.
(** amino.go:290-350 [UnmarshalBinaryLengthPrefixedReader]; see [unmarshal_reader] *)
Inductive crres (S : Type) :=
| CRRet (n : Z) (ptr : arg) (e : option error) (s : S)
| CRPanic (p : panicmsg)
| CRFuel.
Arguments CRRet {S} _ _ _ _.
Arguments CRPanic {S} _.
Arguments CRFuel {S}.
Definition call_unmarshal_reader {S} (read : S -> nat -> bytes * option error * S) (fuel : nat) (can_alloc : Z -> bool)
           (env : tenv) (c : codec) (s : S) (ptr : arg) (max : Z) : crres S :=
  if max <? 0 then CRPanic "maxSize cannot be negative."%string
  else match read_length S read s max with
       | LErr n e s' => CRRet n ptr (Some e) s'
       | LLen n l s' =>
           if (l <? 0) || negb (can_alloc l) then CRPanic "makeslice: len out of range"%string
           else match read_full S read fuel s' (Z.to_nat l) [] with
                | None => CRFuel
                | Some (_, Some e, s'') => CRRet n ptr (Some e) s''
                | Some (bz, None, s'') =>
                    match call_unmarshal_bare fuel env c bz ptr with
                    | CRet p e => CRRet (n + l) p e s''
                    | CPanic p => CRPanic p
                    | CFuel => CRFuel
                    end
                end
       end.
(** amino.go:539-567 [UnmarshalJSON]; after an error the contents of the target are not
    modelled, so none are given back. *)
Definition call_unmarshal_json (fuel : nat) (env : tenv) (je : jenv) (c : codec) (bz : bytes) (ptr : arg) : eres arg :=
  match bz with
  | [] => EErr "cannot decode empty bytes"%string
  | _ =>
      match ptr with
      | Some (TPtr t, VPtr (Some v)) =>
          elet w := unmarshal_json fuel env je c bz t v in EOk (Some (TPtr t, VPtr (Some w)))
      | Some (TPtr _, _) => EPanic "reflect: call of reflect.Value.Type on zero Value"%string
      | _ => EErr err_no_pointer
      end
  end.

(** amino.go:188-194, 253-259, 354-359, 488-493: [Must…] *)
Definition must_c (r : cres) : cres :=
  match r with CRet _ (Some e) => CPanic e | r => r end.

(** ** Registration *)

(** codec.go:154-203 [RegisterInterface] with [getTypeFromPointer] (reflect.go:29-35);
    [reflect.TypeOf(nil)] is nil, and calling [Kind] on it panics. *)
Definition call_register_interface (env : tenv) (c : codec) (ptr : arg) (o : option iopts) : Codec.rres :=
  if cd_sealed c then (c, Some "codec sealed"%string)
  else match ptr with
       | None => (c, Some "invalid memory address or nil pointer dereference"%string)
       | Some (TPtr (TIface i), _) => register_interface env c i o
       | Some (TPtr _, _) => (c, Some "RegisterInterface expects an interface"%string)
       | Some _ => (c, Some "expected pointer"%string)
       end.
(** codec.go:209-243 [RegisterConcrete] *)
Definition call_register_concrete (env : tenv) (c : codec) (o : arg) (name : bytes) : Codec.rres :=
  if cd_sealed c then (c, Some "codec sealed"%string)
  else match o with
       | None => (c, Some "invalid memory address or nil pointer dereference"%string)
       | Some (t, _) => register_concrete env c t name
       end.

(** ** The codec of the package *)

(** amino.go:32-34 [gcdc = NewCodec().Seal()].  It is not exported, so that a program
    reaches it only through the functions below, which change it only by type lookups;
    [uses] are the lookups made so far. *)
Definition gcdc (env : tenv) (uses : list gotype) : codec := run env (seal new_codec) (map OUse uses).

(** amino.go:41-93, in order *)
Definition pkg_marshal_length_prefixed fuel env uses o := call_marshal_length_prefixed fuel env (gcdc env uses) o.
Definition pkg_marshal_writer {W} (write : W -> bytes -> nat * option error * W) fuel env uses w o :=
  call_marshal_writer write fuel env (gcdc env uses) w o.
Definition pkg_must_marshal_length_prefixed fuel env uses o := must (call_marshal_length_prefixed fuel env (gcdc env uses) o).
Definition pkg_marshal_bare fuel env uses o := call_marshal_bare fuel env (gcdc env uses) o.
Definition pkg_must_marshal_bare fuel env uses o := must (call_marshal_bare fuel env (gcdc env uses) o).
Definition pkg_unmarshal_length_prefixed fuel env uses bz ptr := call_unmarshal_length_prefixed fuel env (gcdc env uses) bz ptr.
Definition pkg_unmarshal_reader {S} (read : S -> nat -> bytes * option error * S) fuel can_alloc env uses s ptr max :=
  call_unmarshal_reader read fuel can_alloc env (gcdc env uses) s ptr max.
Definition pkg_must_unmarshal_length_prefixed fuel env uses bz ptr :=
  must_c (call_unmarshal_length_prefixed fuel env (gcdc env uses) bz ptr).
Definition pkg_unmarshal_bare fuel env uses bz ptr := call_unmarshal_bare fuel env (gcdc env uses) bz ptr.
Definition pkg_must_unmarshal_bare fuel env uses bz ptr := must_c (call_unmarshal_bare fuel env (gcdc env uses) bz ptr).
Definition pkg_marshal_json fuel env je uses o := call_marshal_json fuel env je (gcdc env uses) o.
Definition pkg_unmarshal_json fuel env je uses bz ptr := call_unmarshal_json fuel env je (gcdc env uses) bz ptr.
Definition pkg_marshal_json_indent fuel env je uses o prefix indent :=
  call_marshal_json_indent fuel env je (gcdc env uses) o prefix indent.
