(** Specification: the values Marshal accepts, and the types for which it never
    panics.  Nothing here looks at bytes. *)
From Coq Require Import ZArith String List Bool.
From Verif Require Import Base Types Codec BinEnc SpecNorm.
Import ListNotations.
Local Open Scope Z_scope.

(** Kinds that have a wire type. *)
Definition wired (env : tenv) (t : gotype) : bool :=
  match resolve env t with RPtr _ | RFunc | ROther | RBad => false | _ => true end.
(** Years 1 to 9999. *)
Definition time_ok (s ns : Z) : bool :=
  (-62135596800 <=? s) && (s <? 253402300800) && (0 <=? ns) && (ns <=? 999999999).
(** A list of lists of bytes at some depth. *)
Fixpoint bytes_inside (k : nat) (env : tenv) (t : gotype) : bool :=
  match k with
  | O => false
  | S k' => match resolve env t with
            | RArray _ e | RSlice e => bytes_inside k' env e
            | RPrim PUint8 => true
            | _ => false
            end
  end.
Definition field_limit : Z := 2 ^ 29.

Section Writable.
  Variable env : tenv.
  Variable c : codec.
  Variable writable : gotype -> fopts -> value -> bool.

  (** An element with its own key: nil struct pointers are refused under the
      empty_elements tag. *)
  Definition writable_entry (e : gotype) (o : fopts) (v : value) : bool :=
    if defaultv v then negb (is_ptr e && is_struct env (deref_type e) && fo_empty_elements o)
    else match under v with Some w => writable (deref_type e) (set_num 1 o) w | None => false end.
  (** A packed element: nil stands for zero. *)
  Definition writable_packed (e : gotype) (o : fopts) (v : value) : bool :=
    writable (deref_type e) o match under v with Some w => w | None => zero env (deref_type e) end.
  Definition writable_elems (e : gotype) (o : fopts) (l : list value) : bool :=
    known env c e && wired env (deref_type e) &&
    forallb (fun v => if delimited env e then (fo_num o <? field_limit) && writable_entry e o v else writable_packed e o v) l.
  Definition writable_list (t : gotype) (o : fopts) (v : value) : bool :=
    match resolve env t, v with
    | (RArray _ e | RSlice e), (VArr l | VSlice (Some l)) => writable_elems e o l
    | (RArray _ e | RSlice e), VSlice None => writable_elems e o []
    | _, _ => false
    end.
  (** Fields holding nothing are not looked at; nil pointers cannot be written
      where empty values have to be. *)
  Definition writable_field (t : gotype) (o : fopts) (v : value) : bool :=
    known env c t &&
    (if defaultv v && negb (fo_write_empty o) then true
     else if entries env t then writable_list t o v
     else wired env (deref_type t) && (fo_num o <? field_limit) &&
          match under v with Some w => writable (deref_type t) o w | None => false end).
  (** Field numbers have 32 bits. *)
  Fixpoint writable_fields (num : Z) (fs : list sfield) (l : list value) : bool :=
    match fs, l with
    | f :: fs', v :: l' =>
        match field_opts (num mod 2 ^ 32) f with
        | None => writable_fields num fs' l'
        | Some o => writable_field (sf_type f) o v && writable_fields (num + 1) fs' l'
        end
    | _, _ => true
    end.
End Writable.

(** [t] is not a pointer type. *)
Fixpoint writable (k : nat) (env : tenv) (c : codec) (t : gotype) (o : fopts) (v : value) : bool :=
  match k with
  | O => false
  | S k' =>
      let plain :=
        match resolve env t, v with
        | RPrim (PFloat32 | PFloat64), _ => fo_unsafe o
        | RPrim _, _ => true
        | RTime, VTime s ns => time_ok s ns
        | (RArray _ e | RSlice e), _ =>
            if is_uint8 env e then true
            else if is_list env e then bytes_inside (S k') env e
            else writable_list env c (writable k' env c) t o v
        | RStruct fs, VStruct l => writable_fields env c (writable k' env c) 1 fs l
        | RIface _, VIface None => true
        | RIface _, VIface (Some (ct, cv)) =>
            match registered c (deref_type ct), under cv with
            | Some _, Some w => writable k' env c (deref_type ct) o w
            | _, _ => false
            end
        | _, _ => false
        end in
      match t with
      | TNamed id =>
          match te_marshal env id with
          | Some (MOk r f) =>
              known env c r && match f v with EOk w => writable k' env c r o w | _ => false end
          | _ => plain
          end
      | _ => plain
      end
  end.

(** What Marshal accepts; a value that is not a struct or list of structs is
    written as the field 1. *)
Definition writable_top (k : nat) (env : tenv) (c : codec) (t : gotype) (v : value) : bool :=
  known env c t &&
  match under v with
  | Some w =>
      if struct_like env (deref_type t) then writable k env c (deref_type t) (set_num 1 no_opts) w
      else wired env (deref_type t) && writable k env c (deref_type t) no_opts w
  | None => false
  end.

(** ** Types for which Marshal returns bytes or an error *)
Section Sturdy.
  Variable env : tenv.
  Variable mem : gotype -> bool.    (* the set; it holds no pointer types *)
  Variable rank : gotype -> nat.    (* decreases along MarshalAmino methods *)

  (** Interfaces hold no nil pointers, nor pointers to interfaces, nor values of
      types outside of the set. *)
  Fixpoint firm (v : value) : bool :=
    match v with
    | VArr l | VStruct l | VSlice (Some l) => forallb firm l
    | VPtr (Some w) => firm w
    | VIface (Some (ct, w)) =>
        mem (deref_type ct) && negb (is_iface (deref_type ct)) &&
        match under w with Some _ => true | None => false end && firm w
    | _ => true
    end.

  (** Floats need the unsafe tag; element types need a wire type. *)
  Definition parsable_field (t : gotype) (o : fopts) : bool :=
    match resolve env t with
    | RPrim (PFloat32 | PFloat64) => fo_unsafe o
    | RArray _ e | RSlice e => is_uint8 env e || wired env (deref_type e)
    | _ => true
    end.
  Definition parsable (t : gotype) : bool :=
    match resolve env t with
    | RStruct fs => forallb (fun f => match field_opts 1 f with Some o => parsable_field (sf_type f) o | None => true end) fs
    | _ => true
    end.

  Definition sturdy_part (n : nat) (t : gotype) : bool := mem (deref_type t) && (rank (deref_type t) <=? n)%nat.
  (** Lists of lists are refused or written as nothing, but not beyond two levels. *)
  Definition sturdy_list (n : nat) (e : gotype) : bool :=
    match resolve env e with
    | RArray _ e2 | RSlice e2 => negb (is_list env e2)
    | _ => is_uint8 env e || sturdy_part n e
    end.
  (** Nil pointers cannot be written where empty values have to be. *)
  Definition sturdy_field (n : nat) (t : gotype) (o : fopts) : bool :=
    sturdy_part n t && negb (fo_write_empty o && is_ptr t) &&
    (if entries env t then match resolve env t with RArray _ e | RSlice e => sturdy_part n e | _ => false end else true).
  Fixpoint sturdy_fields (n : nat) (num : Z) (fs : list sfield) : bool :=
    match fs with
    | [] => true
    | f :: fs' =>
        match field_opts num f with
        | None => sturdy_fields n num fs'
        | Some o => (num <? field_limit) && sturdy_field n (sf_type f) o && sturdy_fields n (num + 1) fs'
        end
    end.
  Definition sturdy_plain (t : gotype) : Prop :=
    match resolve env t with
    | RPrim _ | RTime => True
    | RArray _ e | RSlice e => sturdy_list (rank t) e = true
    | RStruct fs => sturdy_fields (rank t) 1 fs = true
    | RIface i => forall ct, te_impl env ct i = true -> mem (deref_type ct) = true -> (rank (deref_type ct) <= rank t)%nat
    | _ => False
    end.
  (** Methods have the right shape and do not panic on values of their type. *)
  Definition sturdy_ok (t : gotype) : Prop :=
    parsable t = true /\ wired env t = true /\
    match t with
    | TNamed id =>
        match te_marshal env id with
        | None => sturdy_plain t
        | Some (MOk r f) =>
            is_ptr r = false /\ mem r = true /\ (rank r < rank t)%nat /\
            forall v, has_type env t v = true ->
              match f v with EOk w => firm w = true | EErr _ => True | _ => False end
        | Some (MBad _) => False
        end /\
        match te_unmarshal env id with
        | None => True
        | Some (UOk r _) => is_ptr r = false
        | Some (UBad _) => False
        end
    | _ => sturdy_plain t
    end.
  Definition sturdy : Prop := forall t, mem t = true -> sturdy_ok t.
End Sturdy.
