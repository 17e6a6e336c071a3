(** Specification: sets of types amino can read back whatever their values are.
    This is what "supported" means in the round-trip theorems; the restrictions
    are those of the code, see DESIGN.md (findings). *)
From Coq Require Import ZArith String List Bool.
From Verif Require Import Base Types Codec BinEnc SpecNorm.
Import ListNotations.
Local Open Scope Z_scope.

Section Supported.
  Variable env : tenv.
  Variable c : codec.
  Variable mem : gotype -> bool.   (* the set; it holds no pointer types *)

  (** An element of a list: pointers to interfaces cannot be decoded; the type
      must be one amino has information for.  Delimited elements with a
      MarshalAmino method must have a plain delimited representation. *)
  Definition elem_ok (e : gotype) : bool :=
    mem (deref_type e) && negb (is_ptr e && is_iface (deref_type e)) && known env c e &&
    (negb (delimited env e) ||
     match deref_type e with
     | TNamed id => match te_marshal env id with
                    | Some (MOk r _) => delimited env r && negb (has_method env r)
                    | _ => true
                    end
     | _ => true
     end).
  (** A list that is not a field: not a list of lists, nor of a declared byte type. *)
  Definition list_ok (e : gotype) : bool :=
    if is_uint8 env e then gotype_eqb e (TPrim PUint8)
    else negb (is_list env e) && elem_ok e.

  (** A field.  Lists written as entries must not have methods.  Interfaces that
      are write_empty, and pointers to interfaces, cannot be read back. *)
  Definition field_ok (t : gotype) (o : fopts) : bool :=
    if entries env t then
      negb (has_method env t) && match resolve env t with RArray _ e | RSlice e => elem_ok e | _ => false end
    else mem (deref_type t) && negb (is_ptr t && is_iface (deref_type t)) &&
         negb (fo_write_empty o && is_iface (deref_type t)).
  Fixpoint fields_ok (num : Z) (fs : list sfield) : bool :=
    match fs with
    | [] => true
    | f :: fs' =>
        match field_opts num f with
        | None => fields_ok num fs'
        | Some o => (num <? 2 ^ 29) && field_ok (sf_type f) o && fields_ok (num + 1) fs'
        end
    end.

  (** Every registered implementation of an interface must be a struct or list
      of structs, and its registered form must implement the interface too. *)
  Definition iface_ok (i : ifid) : bool :=
    forallb (fun ci =>
      match ci_reg ci with
      | Some r =>
          negb (te_impl env (TPtr (ci_type ci)) i) ||
          (mem (ci_type ci) && struct_like env (ci_type ci) &&
           te_impl env (if ri_ptr r then TPtr (ci_type ci) else ci_type ci) i)
      | None => true
      end) (cd_concretes c).

  (** The method pair of a type reads back (the normal form of) what it writes. *)
  Definition methods_ok (t : gotype) : Prop :=
    match t with
    | TNamed id =>
        match te_marshal env id, te_unmarshal env id with
        | None, None => True
        | Some (MOk r f), Some (UOk r' g) =>
            r = r' /\ mem r = true /\ is_iface r = false /\
            forall k o v w w', has_type env t v = true -> f v = EOk w -> norm k env c r o w = Some w' ->
              exists v', g (zero env t) w' = EOk (v', None)
        | _, _ => False
        end
    | _ => True
    end.

  Definition type_ok (t : gotype) : bool :=
    has_method env t ||
    match resolve env t with
    | RPrim _ | RTime => true
    | RArray _ e | RSlice e => list_ok e
    | RStruct fs => fields_ok 1 fs
    | RIface i => iface_ok i
    | _ => false
    end.

  Definition supported : Prop := forall t, mem t = true -> type_ok t = true /\ methods_ok t.
End Supported.
