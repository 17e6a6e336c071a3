(** Specification: what a value reads back as ([norm]), and which values take no
    room on the wire ([blank]).  Nothing here looks at bytes.  [None] means the
    value (or its type) is outside what amino can read back; the comments say why.
    The first argument bounds the depth of values (it is needed because the
    representation object returned by a MarshalAmino method is not a part of the
    value it represents). *)
From Coq Require Import ZArith String List Bool.
From Verif Require Import Base Types Codec BinEnc.
Import ListNotations.
Local Open Scope Z_scope.

(** ** Values *)

(** A nil pointer, zero integer, empty string, list or map, nil function or
    interface, or a pointer to one of these. *)
Fixpoint defaultv (v : value) : bool :=
  match v with
  | VPtr None => true
  | VPtr (Some w) => defaultv w
  | VInt z | VUint z => z =? 0
  | VStr s => match s with [] => true | _ => false end
  | VSlice (None | Some []) | VMap (None | Some []) | VIface None | VFunc true => true
  | _ => false
  end.

(** The value under all pointers, unless one is nil. *)
Fixpoint under (v : value) : option value :=
  match v with
  | VPtr None => None
  | VPtr (Some w) => under w
  | _ => Some v
  end.

(** A fresh chain of pointers of type [t] to [v]. *)
Fixpoint ptrs (t : gotype) (v : value) : value :=
  match t with TPtr e => VPtr (Some (ptrs e v)) | _ => v end.

(** What an absent field or list element reads as: Go's zero value, but the Unix
    epoch for times, also under pointers. *)
Definition absent (env : tenv) (t : gotype) : value :=
  match deref_type t with TTime => ptrs t (VTime 0 0) | _ => zero env t end.

(** float32 values go through float64 and back, which quiets signalling NaNs. *)
Definition quiet32 (b : Z) : Z :=
  if (Z.land (Z.shiftr b 23) 255 =? 255) && negb (Z.land b (2 ^ 23 - 1) =? 0) then Z.lor b (2 ^ 22) else b.

Fixpoint opt_map {A B} (f : A -> option B) (l : list A) : option (list B) :=
  match l with
  | [] => Some []
  | x :: l' => match f x, opt_map f l' with Some y, Some r => Some (y :: r) | _, _ => None end
  end.

(** ** Types *)

Definition is_list (env : tenv) (t : gotype) : bool :=
  match resolve env t with RArray _ _ | RSlice _ => true | _ => false end.
Definition is_iface (t : gotype) : bool := match t with TIface _ => true | _ => false end.
(** Length-delimited on the wire, as a list element. *)
Definition delimited (env : tenv) (t : gotype) : bool :=
  match resolve env (deref_type t) with
  | RPrim PString | RTime | RArray _ _ | RSlice _ | RStruct _ | RIface _ | RMap _ _ => true
  | _ => false
  end.
(** A list field written as one entry per element. *)
Definition entries (env : tenv) (t : gotype) : bool :=
  match resolve env t with
  | RArray _ e | RSlice e => negb (is_uint8 env e) && delimited env e
  | _ => false
  end.
Definition has_method (env : tenv) (t : gotype) : bool :=
  match t with
  | TNamed id => match te_marshal env id, te_unmarshal env id with None, None => false | _, _ => true end
  | _ => false
  end.
(** A struct or a list of structs: what needs no field key when it stands alone. *)
Definition struct_like (env : tenv) (t : gotype) : bool :=
  match resolve env t with
  | RStruct _ | RTime => true
  | RArray _ e | RSlice e => is_struct env e
  | _ => false
  end.
(** amino has type information for [t]. *)
Definition known (env : tenv) (c : codec) (t : gotype) : bool :=
  match get_type_info env c t with EOk _ => true | _ => false end.

(** The options of a field, none if it is skipped; [num] is its number. *)
Definition field_opts (num : Z) (f : sfield) : option fopts :=
  if sf_exported f then option_map (set_num num) (parse_field_options f) else None.

(** How a registered type was registered: as a pointer? *)
Definition registered (c : codec) (t : gotype) : option bool :=
  match find (fun ci => gotype_eqb (ci_type ci) t) (cd_concretes c) with
  | Some ci => match ci_reg ci with Some r => Some (ri_ptr r) | None => None end
  | None => None
  end.

(** ** Values that take no room *)

Definition blank_prim (p : prim) (o : fopts) (v : value) : bool :=
  match p, v with
  | PInt64, VInt z | PUint64, VUint z => (z =? 0) && negb (fo_fixed64 o)
  | PInt32, VInt z | PUint32, VUint z => (z =? 0) && negb (fo_fixed32 o)
  | (PInt | PInt8 | PInt16), VInt z | (PUint | PUint8 | PUint16), VUint z => z =? 0
  | PBool, VBool b => negb b
  | PString, VStr [] => true
  | _, _ => false
  end.

Section Blank.
  Variable env : tenv.
  Variable blank : gotype -> fopts -> value -> bool.

  Definition blank_field (t : gotype) (o : fopts) (v : value) : bool :=
    if defaultv v && negb (fo_write_empty o) then true
    else if entries env t then match v with VArr [] | VSlice (None | Some []) => true | _ => false end
    else negb (fo_write_empty o) && negb (is_ptr t) && blank t o v.
  Fixpoint blank_fields (num : Z) (fs : list sfield) (l : list value) : bool :=
    match fs, l with
    | f :: fs', v :: l' =>
        match field_opts num f with
        | None => blank_fields num fs' l'
        | Some o => blank_field (sf_type f) o v && blank_fields (num + 1) fs' l'
        end
    | _, _ => true
    end.
End Blank.

(** [t] is not a pointer type. *)
Fixpoint blank (k : nat) (env : tenv) (t : gotype) (o : fopts) (v : value) : bool :=
  match k with
  | O => false
  | S k' =>
      let plain :=
        match resolve env t, v with
        | RPrim p, _ => blank_prim p o v
        | RTime, VTime s ns => (s =? 0) && (ns =? 0)
        | RArray _ e, VArr [] | RSlice e, VSlice (None | Some []) => negb (is_list env e)
        | RStruct fs, VStruct l => blank_fields env (blank k' env) 1 fs l
        | RIface _, VIface None => true
        | _, _ => false
        end in
      match t with
      | TNamed id =>
          match te_marshal env id with
          | Some (MOk r f) => match f v with EOk w => blank k' env r o w | _ => false end
          | _ => plain
          end
      | _ => plain
      end
  end.

(** Written with a fixed number of bytes (possibly through MarshalAmino). *)
Fixpoint fixed_width (k : nat) (env : tenv) (t : gotype) (o : fopts) : bool :=
  match k with
  | O => false
  | S k' =>
      let plain :=
        match resolve env t with
        | RPrim PFloat32 | RPrim PFloat64 => true
        | RPrim PInt64 | RPrim PUint64 => fo_fixed64 o
        | RPrim PInt32 | RPrim PUint32 => fo_fixed32 o
        | _ => false
        end in
      match t with
      | TNamed id => match te_marshal env id with Some (MOk r _) => fixed_width k' env r o | _ => plain end
      | _ => plain
      end
  end.

(** ** Normal forms *)

Section Norm.
  Variable env : tenv.
  Variable c : codec.
  Variable blank : gotype -> fopts -> value -> bool.
  Variable fixed_width : gotype -> fopts -> bool.
  Variable norm : gotype -> fopts -> value -> option value.

  (** A list element that is not length-delimited.  Nil pointers are written as
      zero, and pointers to zero numbers are read back as nil. *)
  Definition norm_packed (e : gotype) (o : fopts) (v : value) : option value :=
    let w := match under v with Some w => w | None => zero env (deref_type e) end in
    match norm (deref_type e) o w with
    | Some w' => Some (if is_ptr e && defaultv w' then VPtr None else ptrs e w')
    | None => None
    end.
  (** A length-delimited element.  One that is default or blank is written as an
      empty entry, and such an entry reads as absent, unless the list
      has the empty_elements tag and holds struct pointers.  A fixed width number
      (through MarshalAmino) could start like an empty entry.  Pointers to
      interfaces cannot be decoded. *)
  Definition norm_entry (e : gotype) (o : fopts) (v : value) : option value :=
    let keep := is_ptr e && is_struct env (deref_type e) && fo_empty_elements o in
    if defaultv v then (if keep then None else Some (absent env e))
    else match under v with
         | None => None
         | Some w =>
             if negb keep && blank (deref_type e) (set_num 1 o) w then Some (absent env e)
             else if negb keep && fixed_width (deref_type e) (set_num 1 o) then None
             else if is_ptr e && is_iface (deref_type e) then None
             else option_map (ptrs e) (norm (deref_type e) (set_num 1 o) w)
         end.
  Definition norm_elems (e : gotype) (o : fopts) (l : list value) : option (list value) :=
    opt_map (if delimited env e then norm_entry e o else norm_packed e o) l.
  Definition slice_of (l : list value) : value := match l with [] => VSlice None | _ => VSlice (Some l) end.
  Definition norm_list (t : gotype) (o : fopts) (v : value) : option value :=
    match resolve env t, v with
    | RArray _ e, VArr l => option_map VArr (norm_elems e o l)
    | RSlice e, VSlice None => if known env c e then Some (VSlice None) else None
    | RSlice e, VSlice (Some l) => if known env c e then option_map slice_of (norm_elems e o l) else None
    | _, _ => None
    end.

  (** A field.  Lists written as entries ignore the methods of the list type
      when encoding but not when decoding. *)
  Definition norm_field (t : gotype) (o : fopts) (v : value) : option value :=
    if entries env t then (if has_method env t then None else norm_list t o v)
    else if defaultv v && negb (fo_write_empty o) then Some (absent env t)
    else match under v with
         | None => None
         | Some w =>
             if negb (fo_write_empty o) && negb (is_ptr t) && blank t o w then Some (absent env t)
             else if is_ptr t && is_iface (deref_type t) then None
             else option_map (ptrs t) (norm (deref_type t) o w)
         end.
  (** Skipped fields of a fresh variable stay zero.  Field numbers must fit. *)
  Fixpoint norm_fields (num : Z) (fs : list sfield) (l : list value) : option (list value) :=
    match fs, l with
    | [], [] => Some []
    | f :: fs', v :: l' =>
        match field_opts num f with
        | None => option_map (cons (zero env (sf_type f))) (norm_fields num fs' l')
        | Some o =>
            if 2 ^ 29 <=? num then None
            else match norm_field (sf_type f) o v, norm_fields (num + 1) fs' l' with
                 | Some w, Some r => Some (w :: r)
                 | _, _ => None
                 end
        end
    | _, _ => None
    end.

  (** A value in an interface comes back in the form in which its type was
      registered, provided that form implements the interface.  In a field with
      number 1 and in lists, only structs and lists of structs can be decoded.  A
      nil interface is not written as something that can be read. *)
  Definition norm_iface (i : ifid) (o : fopts) (ct : gotype) (cv : value) : option value :=
    let t := deref_type ct in
    match registered c t, under cv with
    | Some ptr, Some w =>
        let form := if ptr then TPtr t else t in
        if te_impl env form i && (negb (fo_num o =? 1) || struct_like env t) then
          match norm t o w with
          | Some w' => Some (VIface (Some (form, if ptr then VPtr (Some w') else w')))
          | None => None
          end
        else None
    | _, _ => None
    end.
End Norm.

(** [t] is not a pointer type.  A type with a MarshalAmino method must have an
    UnmarshalAmino method for the same type.  Lists of lists can only be fields.
    Lists of a declared byte type cannot be decoded. *)
Fixpoint norm (k : nat) (env : tenv) (c : codec) (t : gotype) (o : fopts) (v : value) : option value :=
  match k with
  | O => None
  | S k' =>
      let go := norm k' env c in
      let plain :=
        match resolve env t, v with
        | RPrim PFloat32, VFloat b => Some (VFloat (quiet32 b))
        | RPrim _, _ | RTime, _ => Some v
        | RArray _ e, VArr l =>
            if is_uint8 env e then (if gotype_eqb e (TPrim PUint8) then Some v else None)
            else if is_list env e then None
            else norm_list env c (blank k' env) (fixed_width k' env) go t o v
        | RSlice e, VSlice ol =>
            if is_uint8 env e then
              match ol with
              | None | Some [] => Some (VSlice None)
              | _ => if gotype_eqb e (TPrim PUint8) then Some v else None
              end
            else if is_list env e then None
            else norm_list env c (blank k' env) (fixed_width k' env) go t o v
        | RStruct fs, VStruct l =>
            option_map VStruct (norm_fields env c (blank k' env) (fixed_width k' env) go 1 fs l)
        | RIface i, VIface (Some (ct, cv)) => norm_iface env c go i o ct cv
        | _, _ => None
        end in
      match t with
      | TNamed id =>
          match te_marshal env id, te_unmarshal env id with
          | None, None => plain
          | Some (MOk r f), Some (UOk r' g) =>
              match f v with
              | EOk w =>
                  if gotype_eqb r r' then
                    match go r o w with
                    | Some w' => match g (zero env t) w' with EOk (v', None) => Some v' | _ => None end
                    | None => None
                    end
                  else None
              | _ => None
              end
          | _, _ => None
          end
      | _ => plain
      end
  end.

(** MarshalAmino methods return values of their result type (Go's type system
    sees to that). *)
Definition marshal_typed (env : tenv) : Prop :=
  forall id r f v w, te_marshal env id = Some (MOk r f) -> has_type env (TNamed id) v = true ->
  f v = EOk w -> has_type env r w = true.
