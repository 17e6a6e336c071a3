(** Specification: types for which whatever Unmarshal reads, Marshal can write. *)
From Coq Require Import ZArith String List Bool.
From Verif Require Import Base Types Codec BinEnc SpecNorm SpecWritable.
Import ListNotations.
Local Open Scope Z_scope.

Section Echo.
  Variable env : tenv.
  Variable c : codec.
  Variable mem : gotype -> bool.     (* the set of types; it holds no pointer types *)
  Variable calm : gotype -> bool.    (* those that can be written without the unsafe tag *)

  Definition is_registered (t : gotype) : bool := match registered c t with Some _ => true | None => false end.
  (** Times are in range, and interfaces hold values of registered types. *)
  Fixpoint sendable (v : value) : bool :=
    match v with
    | VTime s ns => time_ok s ns
    | VArr l | VStruct l | VSlice (Some l) => forallb sendable l
    | VPtr (Some w) => sendable w
    | VIface (Some (ct, w)) =>
        mem (deref_type ct) && is_registered (deref_type ct) &&
        match under w with Some _ => true | None => false end && sendable w
    | _ => true
    end.

  (** A list of bytes, of types in the set, or of lists of bytes. *)
  Definition echo_list (e : gotype) : bool :=
    is_uint8 env e ||
    mem (deref_type e) && match resolve env e with RArray _ e2 | RSlice e2 => is_uint8 env e2 | _ => true end.
  (** Not tagged empty_elements: arrays of struct pointers are read as nil where they
      are absent, and cannot be written then. *)
  Definition echo_field (f : sfield) : bool :=
    match field_opts 1 f with
    | Some o =>
        mem (deref_type (sf_type f)) && negb (fo_empty_elements o) && (fo_unsafe o || calm (deref_type (sf_type f))) &&
        match resolve env (sf_type f) with
        | RArray _ e | RSlice e => is_uint8 env e || mem (deref_type e) && (fo_unsafe o || calm (deref_type e))
        | _ => true
        end
    | None => true
    end.
  Definition echo_plain (t : gotype) : Prop :=
    match resolve env t with
    | RPrim (PFloat32 | PFloat64) => calm t = false
    | RArray _ e | RSlice e => echo_list e = true /\ (calm t = true -> is_uint8 env e || calm (deref_type e) = true)
    | RStruct fs => forallb echo_field fs = true
    | RIface i => forall ct, te_impl env ct i = true -> is_registered (deref_type ct) = true ->
        mem (deref_type ct) = true /\ (calm t = true -> calm (deref_type ct) = true)
    | _ => True
    end.
  (** MarshalAmino accepts all sendable values, and UnmarshalAmino gives such. *)
  Definition echo_ok (t : gotype) : Prop :=
    known env c t = true /\
    match t with
    | TNamed id =>
        match te_marshal env id with
        | Some (MOk r f) =>
            (calm t = true -> calm r = true) /\
            forall v, has_type env t v = true -> sendable v = true -> exists w, f v = EOk w /\ sendable w = true
        | _ => echo_plain t
        end /\
        match te_unmarshal env id with
        | Some (UOk r g) =>
            mem r = true /\
            forall v w v', has_type env t v = true -> sendable v = true -> has_type env r w = true -> sendable w = true ->
              g v w = EOk (v', None) -> has_type env t v' = true /\ sendable v' = true
        | _ => echo_plain t
        end
    | _ => echo_plain t
    end.
  Definition echoes : Prop := forall t, mem t = true -> echo_ok t.
End Echo.
