(** Specification: types whose messages do not grow when they are read and written again. *)
From Coq Require Import ZArith String List Bool.
From Verif Require Import Base Types Codec SpecNorm.
Import ListNotations.
Local Open Scope Z_scope.

Definition is_time (t : gotype) : bool := match t with TTime => true | _ => false end.

Section Lean.
  Variable env : tenv.
  Variable c : codec.
  Variable mem : gotype -> bool.   (* the set of types; it holds no pointer types *)
  Variable hol : gotype -> bool.   (* those of them whose zero value takes no bytes *)

  (** The zero value is left out: no floats, no arrays, no times (the zero time is in
      the year 1), also not in the fields of structs, where pointers are nil. *)
  Definition hollow_field (f : sfield) : bool :=
    match field_opts 1 f with
    | Some o => negb (fo_write_empty o) && (is_ptr (sf_type f) || hol (sf_type f))
    | None => true
    end.
  Definition hollow_type (t : gotype) : Prop :=
    if has_method env t then defaultv (zero env t) = true
    else match resolve env t with
         | RPrim (PFloat32 | PFloat64) | RTime | RArray _ _ => False
         | RStruct fs => forallb hollow_field fs = true
         | _ => True
         end.

  (** A byte slice is read from nothing at all, and written as one byte. *)
  Definition no_bytes (t : gotype) : bool := match resolve env t with RSlice e => negb (is_uint8 env e) | _ => true end.
  Definition payload (t : gotype) : bool :=
    if has_method env t
    then match t with
         | TNamed id => match te_unmarshal env id with Some (UOk r _) => negb (has_method env r) && no_bytes r | _ => false end
         | _ => false
         end
    else no_bytes t.

  (** What an absent field is read as takes no bytes: times are read as the epoch, but
      then pointers to them are not nil. *)
  Definition lean_field (f : sfield) : bool :=
    match field_opts 1 f with
    | Some o =>
        negb (fo_write_empty o) && mem (deref_type (sf_type f)) &&
        negb (entries env (sf_type f) && has_method env (sf_type f)) &&
        (if is_ptr (sf_type f) then negb (is_time (deref_type (sf_type f))) && negb (has_method env (deref_type (sf_type f)))
         else is_time (sf_type f) || hol (sf_type f))
    | None => true
    end.
  (** An element with an entry of its own takes at least one byte when it is read, which
      byte slices do not, and at most one when it is empty. *)
  Definition lean_list (e : gotype) : bool :=
    is_uint8 env e ||
    mem (deref_type e) && negb (has_method env (deref_type e)) &&
    (if delimited env e
     then no_bytes (deref_type e) && (is_ptr e || is_time e || hol e)
     else true).
  (** Implementations of an interface are of the set, and prefix bytes are not always
      preceded by disambiguation bytes. *)
  Definition lean_plain (t : gotype) : Prop :=
    match resolve env t with
    | RArray _ e | RSlice e => lean_list e = true
    | RStruct fs => forallb lean_field fs = true
    | RIface i =>
        (forall ci, In ci (cd_concretes c) -> mem (ci_type ci) = true /\ payload (ci_type ci) = true) /\
        (forall ii, In ii (cd_ifaces c) -> ii_id ii = i -> ii_always ii = false)
    | _ => True
    end.
  (** MarshalAmino gives back what UnmarshalAmino was given. *)
  Definition lean_type (t : gotype) : Prop :=
    match t with
    | TNamed id =>
        match te_unmarshal env id with
        | Some (UOk r g) =>
            mem r = true /\
            exists f, te_marshal env id = Some (MOk r f) /\
            forall v w v', g v w = EOk (v', None) -> val_is_ptr v' = false /\ f v' = EOk w
        | Some (UBad _) => False
        | None => te_marshal env id = None /\ lean_plain t
        end
    | _ => lean_plain t
    end.
  Definition lean : Prop :=
    (forall t, mem t = true -> lean_type t) /\ (forall t, hol t = true -> hollow_type t).
End Lean.
