(** Model of amino.go: the binary entry points. *)
From Coq Require Import ZArith String List Bool.
From Verif Require Import Base Prims Types Codec BinEnc BinDec.
Import ListNotations.
Local Open Scope Z_scope.
Local Open Scope amino_scope.

(** amino.go:197-244 [MarshalBinaryBare(o)], [o] of dynamic type [t] and value
    [v].  (Nil interface arguments: Entry.v.) *)
Definition marshal_bare (fuel : nat) (env : tenv) (c : codec) (t : gotype) (v : value) : eres bytes :=
  match deref_pointers v with
  | (_, true) => EPanic "MarshalBinaryBare cannot marshal a nil pointer directly"%string
  | (rv, false) =>
      elet info := get_type_info env c (deref_type t) in
      elet bz :=
        (if negb (is_struct_or_repeated_struct env (ti_type info)) then
           elet typ3 := type_to_typ3 env (ti_type info) no_opts in
           write_field env (encode_reflect fuel env c) 1 info no_opts rv false
                       (negb (typ3 =? Typ3ByteLength))
         else encode_reflect fuel env c info rv (set_num 1 no_opts) true) in
      match info with
      | TIConc {| ci_reg := Some r |} => EOk (ri_prefix r ++ bz)
      | _ => EOk bz
      end
  end.

(** amino.go:143-167 [MarshalBinaryLengthPrefixed] *)
Definition marshal_length_prefixed (fuel : nat) (env : tenv) (c : codec) (t : gotype) (v : value) : eres bytes :=
  elet bz := marshal_bare fuel env c t v in
  EOk (encode_uvarint (zlen bz) ++ bz).

(** Result of an Unmarshal call: contents of the target and error. *)
Inductive ures :=
| URet (v : value) (e : option error)
| UPanic (p : panicmsg)
| UFuel.

(** amino.go:456-477 [isPointerToStructOrToRepeatedStruct].  [drv.Elem()] on a
    slice or array panics. *)
Definition is_pointer_to_struct (env : tenv) (v0 : value) (rt : gotype) : eres bool :=
  let drt := deref_type rt in
  if is_struct env rt then EOk true
  else if is_ptr rt then
    let '(_, isnil) := deref_pointers v0 in
    if negb isnil then
      if is_struct env drt then EOk true
      else if is_list_kind env drt then EPanic "reflect: call of reflect.Value.Elem on slice Value"%string
      else EOk false
    else EOk (is_struct_or_repeated_struct env drt)
  else EOk false.

(** amino.go:361-445 [UnmarshalBinaryBare(bz, ptr)], [ptr] a non-nil pointer to a
    variable of type [rt] holding [v0]. *)
Definition unmarshal_bare (fuel : nat) (env : tenv) (c : codec) (bz : bytes) (rt : gotype) (v0 : value) : ures :=
  let ret_err e := URet v0 (Some e) in
  match get_type_info env c rt with
  | EErr e => ret_err e
  | EPanic p => UPanic p
  | EFuel => UFuel
  | EOk info =>
      let body (bz : bytes) : ures :=
        let decode (bz : bytes) (bare : bool) : ures :=
          match decode_reflect fuel env c bz info rt v0 (set_num 1 no_opts) bare with
          | DRet v n (Some e) => URet v (Some "unmarshal failed"%string)
          | DRet v n None =>
              if negb (n =? length bz)%nat then URet v (Some "unmarshal didn't read all bytes"%string)
              else URet v None
          | DPanic p => UPanic p
          | DFuel => UFuel
          end in
        let keyed :=
          (0 <? length bz)%nat &&
          match rt with TIface _ => false | _ => true end &&
          match resolve env (ti_type info) with RMap _ _ | RFunc => false | _ => true end in
        match (if is_struct_or_repeated_struct env (ti_type info) then EOk true
               else is_pointer_to_struct env v0 rt) with
        | EPanic p => UPanic p
        | EErr e => ret_err e
        | EFuel => UFuel
        | EOk is_st =>
            if negb is_st && keyed then
              match decode_field_key bz with
              | DRet _ _ (Some e) => ret_err "could not decode field number and type"%string
              | DRet (fnum, typ) nk None =>
                  if negb (fnum =? 1) then ret_err "expected field number: 1"%string
                  else match type_to_typ3 env (ti_type info) no_opts with
                       | EOk tw =>
                           if negb (typ =? tw) then ret_err "expected field type"%string
                           else if (length bz <? nk)%nat then UPanic "impossible slide"%string
                           else decode (skipn nk bz) (negb (tw =? Typ3ByteLength))
                       | EErr e => ret_err e
                       | EPanic p => UPanic p
                       | EFuel => UFuel
                       end
              | DPanic p => UPanic p
              | DFuel => UFuel
              end
            else decode bz true
        end in
      match info with
      | TIConc {| ci_reg := Some r |} =>
          if (length bz <? 4)%nat then ret_err "expected to read prefix bytes"%string
          else if negb (beqb (firstn 4 bz) (ri_prefix r)) then ret_err "expected to read prefix bytes"%string
          else body (skipn 4 bz)
      | _ => body bz
      end
  end.

(** amino.go:264-286 [UnmarshalBinaryLengthPrefixed] *)
Definition unmarshal_length_prefixed (fuel : nat) (env : tenv) (c : codec) (bz : bytes)
           (rt : gotype) (v0 : value) : ures :=
  match bz with
  | [] => URet v0 (Some "unmarshalBinaryLengthPrefixed cannot decode empty bytes"%string)
  | _ =>
      let '(u, n) := uvarint bz in
      if n <? 0 then URet v0 (Some "Error reading msg byte-length prefix"%string)
      else if u64 (zlen bz - n) <? u then URet v0 (Some "Not enough bytes to read"%string)
      else if u <? u64 (zlen bz - n) then URet v0 (Some "Bytes left over"%string)
      else unmarshal_bare fuel env c (skipn (Z.to_nat n) bz) rt v0
  end.

(** amino.go:188-194, 253-259, 350-355, 488-493: the Must* variants panic on
    every error. *)
Definition must {A} (r : eres A) : eres A :=
  match r with EErr e => EPanic e | r => r end.
Definition must_u (r : ures) : ures :=
  match r with URet v (Some e) => UPanic e | r => r end.
