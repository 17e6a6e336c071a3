(** Model of codec.go: type information and the codec registry. *)
From Coq Require Import ZArith String List Bool.
From Verif Require Import Base Prims Types.
Import ListNotations.
Local Open Scope Z_scope.

(** ** Type information (codec.go:55-122) *)

Record finfo := {
  fi_name : bytes;
  fi_index : nat;
  fi_type : gotype;
  fi_unpacked : bool;
  fi_opts : fopts
}.

Record reginfo := {
  ri_ptr : bool;       (* PointerPreferred *)
  ri_name : bytes;
  ri_disamb : bytes;   (* DisambBytes, 3 bytes *)
  ri_prefix : bytes    (* PrefixBytes, 4 bytes *)
}.

(** TypeInfo of a concrete type.  [ci_reg] is [None] when not Registered.
    A TypeInfo of a concrete type is never modified after it was stored. *)
Record cinfo := {
  ci_type : gotype;
  ci_fields : list finfo;
  ci_marshal : option gotype;     (* AminoMarshalReprType *)
  ci_unmarshal : option gotype;   (* AminoUnmarshalReprType *)
  ci_reg : option reginfo
}.

(** TypeInfo of a registered interface. *)
Record iinfo := {
  ii_id : ifid;
  ii_prio : list bytes;                  (* disfixes *)
  ii_impls : list (bytes * list cinfo);  (* Implementers, a map keyed by prefix *)
  ii_always : bool                       (* AlwaysDisambiguate *)
}.

Inductive tinfo :=
| TIConc (c : cinfo)
| TIFace (i : iinfo).

Definition ti_type (i : tinfo) : gotype :=
  match i with TIConc c => ci_type c | TIFace ii => TIface (ii_id ii) end.

(** codec.go:130-138 [Codec].  [typeInfos] is split into its concrete and its
    interface entries; [cd_ifaces] is also [interfaceInfos]. *)
Record codec := {
  cd_sealed : bool;
  cd_types : list (gotype * cinfo);
  cd_ifaces : list iinfo;
  cd_concretes : list cinfo;
  cd_disfix : list (bytes * cinfo);
  cd_names : list (bytes * cinfo)
}.

(** codec.go:140-148 [NewCodec] *)
Definition new_codec : codec :=
  {| cd_sealed := false; cd_types := []; cd_ifaces := []; cd_concretes := [];
     cd_disfix := []; cd_names := [] |}.

Fixpoint assoc {K A} (eqb : K -> K -> bool) (k : K) (l : list (K * A)) : option A :=
  match l with
  | [] => None
  | (k', a) :: l' => if eqb k k' then Some a else assoc eqb k l'
  end.
Definition find_iface (i : ifid) (l : list iinfo) : option iinfo :=
  find (fun x => Nat.eqb (ii_id x) i) l.

(** ** Struct tags *)

(** Go [strings.Split(s, ",")] *)
Fixpoint split_comma (s : bytes) : list bytes :=
  match s with
  | [] => [[]]
  | c :: s' =>
      if c =? 44 then [] :: split_comma s'
      else match split_comma s' with
           | p :: ps => (c :: p) :: ps
           | [] => [[c]]
           end
  end.

Definition has_tag (t : string) (l : list bytes) : bool := existsb (beqb (bs t)) l.

(** codec.go:499-548 [parseFieldOptions]; [None] is skip *)
Definition parse_field_options (f : sfield) : option fopts :=
  if beqb (sf_json f) (bs "-") then None
  else
    let parts := split_comma (sf_json f) in
    let name := match parts with [] => sf_name f | [] :: _ => sf_name f | p :: _ => p end in
    let omit := match parts with _ :: p :: _ => beqb p (bs "omitempty") | _ => false end in
    let f64 := beqb (sf_binary f) (bs "fixed64") in
    let f32 := negb f64 && beqb (sf_binary f) (bs "fixed32") in
    let atags := split_comma (sf_amino f) in
    Some {| fo_json_name := name; fo_omitempty := omit; fo_fixed64 := f64; fo_fixed32 := f32;
            fo_num := 0; fo_unsafe := has_tag "unsafe" atags;
            fo_write_empty := has_tag "write_empty" atags;
            fo_empty_elements := has_tag "empty_elements" atags |}.

(** codec.go:464-481: is this field written as repeated entries? *)
Definition unpacked_list (env : tenv) (t : gotype) (o : fopts) : eres bool :=
  match resolve env t with
  | RArray _ e | RSlice e =>
      if is_uint8 env e then EOk false
      else ebind (type_to_typ3 env (deref_type e) o) (fun typ3 => EOk (typ3 =? Typ3ByteLength))
  | _ => EOk false
  end.

(** reflect.go:37-45 [checkUnsafe] *)
Definition check_unsafe (env : tenv) (t : gotype) (o : fopts) : eres unit :=
  if fo_unsafe o then EOk tt
  else match resolve env t with
       | RPrim PFloat32 | RPrim PFloat64 => EPanic "floating point types are unsafe for go-amino"%string
       | _ => EOk tt
       end.

(** codec.go:448-497 [parseStructInfo]: the loop over the fields; [i] is the
    field index, [num] the number of fields already collected. *)
Fixpoint parse_fields (env : tenv) (fs : list sfield) (i num : nat) : eres (list finfo) :=
  match fs with
  | [] => EOk []
  | f :: fs' =>
      if negb (sf_exported f) then parse_fields env fs' (S i) num
      else match parse_field_options f with
           | None => parse_fields env fs' (S i) num
           | Some o =>
               ebind (unpacked_list env (sf_type f) o) (fun up =>
               let o := set_num (u32 (Z.of_nat num + 1)) o in
               ebind (check_unsafe env (sf_type f) o) (fun _ =>
               ebind (parse_fields env fs' (S i) (S num)) (fun rest =>
               EOk ({| fi_name := sf_name f; fi_index := i; fi_type := sf_type f;
                       fi_unpacked := up; fi_opts := o |} :: rest))))
           end
  end.
Definition parse_struct_info (env : tenv) (t : gotype) : eres (list finfo) :=
  match resolve env t with
  | RStruct fs => parse_fields env fs 0 0
  | RTime => EOk []     (* time.Time has no exported fields *)
  | _ => EOk []         (* not called: rt.Kind() == reflect.Struct is tested first *)
  end.

(** codec.go:775-791 [marshalAminoReprType], 793-812 [unmarshalAminoReprType] *)
Definition marshal_repr (env : tenv) (t : gotype) : eres (option gotype) :=
  match t with
  | TNamed id =>
      match te_marshal env id with
      | None => EOk None
      | Some (MBad p) => EPanic p
      | Some (MOk (TPtr _) _) => EPanic "Representative objects cannot be pointers"%string
      | Some (MOk r _) => EOk (Some r)
      end
  | _ => EOk None
  end.
Definition unmarshal_repr (env : tenv) (t : gotype) : eres (option gotype) :=
  match t with
  | TNamed id =>
      match te_unmarshal env id with
      | None => EOk None
      | Some (UBad p) => EPanic p
      | Some (UOk (TPtr _) _) => EPanic "Representative objects cannot be pointers"%string
      | Some (UOk r _) => EOk (Some r)
      end
  | _ => EOk None
  end.

(** codec.go:551-576 [newTypeInfoUnregistered] *)
Definition new_type_info (env : tenv) (t : gotype) : eres cinfo :=
  match t with
  | TPtr _ => EPanic "unexpected pointer type"%string
  | TIface _ => EPanic "unexpected interface type"%string
  | _ =>
      ebind (parse_struct_info env t) (fun fs =>
      ebind (marshal_repr env t) (fun m =>
      ebind (unmarshal_repr env t) (fun u =>
      EOk {| ci_type := t; ci_fields := fs; ci_marshal := m; ci_unmarshal := u; ci_reg := None |})))
  end.

(** codec.go:366-390 [getTypeInfoWlock], the value returned.  The side effect
    (caching the new TypeInfo) is [get_type_info_st] below; that it never
    changes any later answer is a theorem. *)
Definition get_type_info (env : tenv) (c : codec) (t : gotype) : eres tinfo :=
  let rt := deref_type t in
  match rt with
  | TIface i =>
      match find_iface i (cd_ifaces c) with
      | Some ii => EOk (TIFace ii)
      | None => EErr "unregistered interface"%string
      end
  | _ =>
      match assoc gotype_eqb rt (cd_types c) with
      | Some ci => EOk (TIConc ci)
      | None => ebind (new_type_info env rt) (fun ci => EOk (TIConc ci))
      end
  end.

(** codec.go:338-364 [setTypeInfoNolock] for an unregistered concrete type
    that is not in the map. *)
Definition add_type (t : gotype) (ci : cinfo) (c : codec) : codec :=
  {| cd_sealed := cd_sealed c; cd_types := (t, ci) :: cd_types c; cd_ifaces := cd_ifaces c;
     cd_concretes := cd_concretes c; cd_disfix := cd_disfix c; cd_names := cd_names c |}.

(** codec.go:366-390 [getTypeInfoWlock] with its effect on the codec. *)
Definition get_type_info_st (env : tenv) (c : codec) (t : gotype) : codec * eres tinfo :=
  let rt := deref_type t in
  match rt with
  | TIface _ => (c, get_type_info env c t)
  | _ =>
      match assoc gotype_eqb rt (cd_types c) with
      | Some ci => (c, EOk (TIConc ci))
      | None =>
          match new_type_info env rt with
          | EOk ci => (add_type rt ci c, EOk (TIConc ci))
          | EErr e => (c, EErr e)
          | EPanic p => (c, EPanic p)
          | EFuel => (c, EFuel)
          end
      end
  end.

(** ** Prefix and disambiguation bytes *)

Fixpoint strip_zeros (b : bytes) : bytes :=
  match b with
  | 0 :: b' => strip_zeros b'
  | _ => b
  end.

(** codec.go:751-767 [nameToDisfix]: (disamb, prefix).  Slicing past the end of
    the hash panics. *)
Definition name_to_disfix (env : tenv) (name : bytes) : eres (bytes * bytes) :=
  let h := strip_zeros (te_hash env name) in
  if (length h <? 3)%nat then EPanic "slice bounds out of range"%string
  else
    let d := firstn 3 h in
    let h' := strip_zeros (skipn 3 h) in
    if (length h' <? 4)%nat then EPanic "slice bounds out of range"%string
    else EOk (d, firstn 4 h').

(** codec.go:769-773 [toDisfix] *)
Definition to_disfix (d p : bytes) : bytes := d ++ p.
Definition ci_disfix (ci : cinfo) : bytes :=
  match ci_reg ci with Some r => to_disfix (ri_disamb r) (ri_prefix r) | None => [] end.

(** codec.go:394-414 [getTypeInfoFromPrefixRlock] *)
Definition type_info_from_prefix (ii : iinfo) (pb : bytes) : eres cinfo :=
  match assoc beqb pb (ii_impls ii) with
  | None => EErr "unrecognized prefix bytes"%string
  | Some [] => EPanic "index out of range"%string
  | Some [ci] => EOk ci
  | Some _ => EErr "conflicting concrete types registered"%string
  end.
(** codec.go:416-430 [getTypeInfoFromDisfixRlock] *)
Definition type_info_from_disfix (c : codec) (df : bytes) : eres cinfo :=
  match assoc beqb df (cd_disfix c) with
  | None => EErr "unrecognized disambiguation+prefix bytes"%string
  | Some ci => EOk ci
  end.
(** codec.go:432-446 [getTypeInfoFromNameRlock] *)
Definition type_info_from_name (c : codec) (name : bytes) : eres cinfo :=
  match assoc beqb name (cd_names c) with
  | None => EErr "unrecognized concrete type name"%string
  | Some ci => EOk ci
  end.

(** ** Registration *)

(** [InterfaceOptions]: names in Priority, AlwaysDisambiguate (codec.go:71-74) *)
Record iopts := { io_prio : list bytes; io_always : bool }.

Fixpoint emap {A B} (f : A -> eres B) (l : list A) : eres (list B) :=
  match l with
  | [] => EOk []
  | x :: l' => ebind (f x) (fun y => ebind (emap f l') (fun ys => EOk (y :: ys)))
  end.

(** codec.go:578-600 [newTypeInfoFromInterfaceType] *)
Definition new_iface_info (env : tenv) (i : ifid) (o : option iopts) : eres iinfo :=
  match o with
  | None => EOk {| ii_id := i; ii_prio := []; ii_impls := []; ii_always := false |}
  | Some o =>
      ebind (emap (fun n => ebind (name_to_disfix env n) (fun dp => EOk (to_disfix (fst dp) (snd dp))))
                  (io_prio o)) (fun ps =>
      EOk {| ii_id := i; ii_prio := ps; ii_impls := []; ii_always := io_always o |})
  end.

(** info.Implementers[prefix] = append(info.Implementers[prefix], cinfo) *)
Fixpoint add_impl (pb : bytes) (ci : cinfo) (m : list (bytes * list cinfo)) : list (bytes * list cinfo) :=
  match m with
  | [] => [(pb, [ci])]
  | (k, l) :: m' => if beqb pb k then (k, l ++ [ci]) :: m' else (k, l) :: add_impl pb ci m'
  end.
Definition with_impls (m : list (bytes * list cinfo)) (ii : iinfo) : iinfo :=
  {| ii_id := ii_id ii; ii_prio := ii_prio ii; ii_impls := m; ii_always := ii_always ii |}.
Definition ci_prefix (ci : cinfo) : bytes :=
  match ci_reg ci with Some r => ri_prefix r | None => [] end.

(** codec.go:624-631 [collectImplementersNolock] *)
Definition implements (env : tenv) (ci : cinfo) (ii : iinfo) : bool :=
  te_impl env (TPtr (ci_type ci)) (ii_id ii).
Definition collect_implementers (env : tenv) (cs : list cinfo) (ii : iinfo) : iinfo :=
  fold_left (fun ii ci => if implements env ci ii
                          then with_impls (add_impl (ci_prefix ci) ci (ii_impls ii)) ii else ii) cs ii.

(** codec.go:636-656 [checkConflictsInPrioNolock]: true when there is no error *)
Definition check_conflicts (ii : iinfo) : bool :=
  forallb (fun e : bytes * list cinfo =>
    let cs := snd e in
    (length cs <? 2)%nat || forallb (fun ci => existsb (beqb (ci_disfix ci)) (ii_prio ii)) cs)
    (ii_impls ii).

Definition set_ifaces (l : list iinfo) (c : codec) : codec :=
  {| cd_sealed := cd_sealed c; cd_types := cd_types c; cd_ifaces := l;
     cd_concretes := cd_concretes c; cd_disfix := cd_disfix c; cd_names := cd_names c |}.

(** Outcome of a registry operation: the codec afterwards (also when it
    panicked: the Go code panics half way) and the panic, if any. *)
Definition rres := (codec * option panicmsg)%type.

(** codec.go:154-203 [RegisterInterface] (for an argument that is a pointer to
    an interface type) *)
Definition register_interface (env : tenv) (c : codec) (i : ifid) (o : option iopts) : rres :=
  if cd_sealed c then (c, Some "codec sealed"%string)
  else match new_iface_info env i o with
       | EOk info =>
           let info := collect_implementers env (cd_concretes c) info in
           if negb (check_conflicts info) then (c, Some "conflicts with other(s)"%string)
           else match find_iface i (cd_ifaces c) with
                | Some _ => (c, Some "TypeInfo already exists"%string)
                | None => (set_ifaces (cd_ifaces c ++ [info]) c, None)
                end
       | EPanic p => (c, Some p)
       | EErr e => (c, Some e)
       | EFuel => (c, Some "fuel"%string)
       end.

(** codec.go:602-619 [newTypeInfoFromRegisteredConcreteType] *)
Definition new_registered_info (env : tenv) (t : gotype) (ptr : bool) (name : bytes) : eres cinfo :=
  ebind (new_type_info env t) (fun ci =>
  ebind (name_to_disfix env name) (fun dp =>
  EOk {| ci_type := ci_type ci; ci_fields := ci_fields ci; ci_marshal := ci_marshal ci;
         ci_unmarshal := ci_unmarshal ci;
         ci_reg := Some {| ri_ptr := ptr; ri_name := name; ri_disamb := fst dp; ri_prefix := snd dp |} |})).

(** iinfo.Implementers[prefix] = origImpls (codec.go:681).  When the prefix was
    absent this leaves a key with an empty list. *)
Definition restore_impl (pb : bytes) (m : list (bytes * list cinfo)) : list (bytes * list cinfo) :=
  match assoc beqb pb m with
  | Some _ => m
  | None => m ++ [(pb, [])]
  end.

(** codec.go:658-681 [addCheckConflictsWithConcreteNolock]: the interface list
    afterwards and whether it panicked.  On a conflict only the interface being
    looked at is restored. *)
Fixpoint add_check_conflicts (env : tenv) (ci : cinfo) (l : list iinfo) : list iinfo * bool :=
  match l with
  | [] => ([], true)
  | ii :: l' =>
      if negb (implements env ci ii) then
        let '(r, ok) := add_check_conflicts env ci l' in (ii :: r, ok)
      else
        let ii' := with_impls (add_impl (ci_prefix ci) ci (ii_impls ii)) ii in
        if check_conflicts ii' then
          let '(r, ok) := add_check_conflicts env ci l' in (ii' :: r, ok)
        else (with_impls (restore_impl (ci_prefix ci) (ii_impls ii)) ii :: l', false)
  end.

(** codec.go:338-364 [setTypeInfoNolock] for a registered concrete type. *)
Definition set_registered (c : codec) (ci : cinfo) (name : bytes) : rres :=
  match assoc gotype_eqb (ci_type ci) (cd_types c) with
  | Some _ => (c, Some "TypeInfo already exists"%string)
  | None =>
      let c1 := {| cd_sealed := cd_sealed c; cd_types := (ci_type ci, ci) :: cd_types c;
                   cd_ifaces := cd_ifaces c; cd_concretes := cd_concretes c ++ [ci];
                   cd_disfix := cd_disfix c; cd_names := cd_names c |} in
      match assoc beqb (ci_disfix ci) (cd_disfix c) with
      | Some _ => (c1, Some "disfix already registered"%string)
      | None =>
          match assoc beqb name (cd_names c) with
          | Some _ => (c1, Some "name already registered"%string)
          | None =>
              ({| cd_sealed := cd_sealed c; cd_types := cd_types c1; cd_ifaces := cd_ifaces c;
                  cd_concretes := cd_concretes c1;
                  cd_disfix := (ci_disfix ci, ci) :: cd_disfix c;
                  cd_names := (name, ci) :: cd_names c |}, None)
          end
      end
  end.

(** codec.go:209-243 [RegisterConcrete(o, name, copts)], [o] of type [t].  (Nil
    interface arguments: Entry.v.) *)
Definition register_concrete (env : tenv) (c : codec) (t : gotype) (name : bytes) : rres :=
  if cd_sealed c then (c, Some "codec sealed"%string)
  else
    let reg (rt : gotype) (ptr : bool) : rres :=
      match new_registered_info env rt ptr name with
      | EOk ci =>
          let '(ifs, ok) := add_check_conflicts env ci (cd_ifaces c) in
          let c' := set_ifaces ifs c in
          if negb ok then (c', Some "conflicts with other(s)"%string)
          else set_registered c' ci name
      | EPanic p => (c, Some p)
      | EErr e => (c, Some e)
      | EFuel => (c, Some "fuel"%string)
      end in
    match t with
    | TIface _ => (c, Some "expected a non-interface"%string)
    | TPtr (TPtr _) => (c, Some "registering pointer-pointers not yet supported"%string)
    | TPtr (TIface _) => (c, Some "registering interface-pointers not yet supported"%string)
    | TPtr e => reg e true
    | _ => reg t false
    end.

(** codec.go:245-251 [Seal] *)
Definition seal (c : codec) : codec :=
  {| cd_sealed := true; cd_types := cd_types c; cd_ifaces := cd_ifaces c;
     cd_concretes := cd_concretes c; cd_disfix := cd_disfix c; cd_names := cd_names c |}.
