(** Specification for C94: two programs that differ in whether the basic types of fields are
    named. *)
From Coq Require Import ZArith String List Bool.
From Verif Require Import Base Prims Types Json.
Import ListNotations.
Local Open Scope Z_scope.

(** [p], or a type defined as [p] without MarshalAmino and UnmarshalAmino methods, one of
    [names]. *)
Definition basic (names : tid -> bool) (env : tenv) (t : gotype) (p : prim) : Prop :=
  t = TPrim p \/ (exists id, t = TNamed id /\ names id = true /\ te_def env id = UType (TPrim p) /\ te_marshal env id = None /\ te_unmarshal env id = None).

(** The same field with another name for its type. *)
Record same_field (names : tid -> bool) (env env' : tenv) (f f' : sfield) : Prop := {
  sa_exported : sf_exported f' = sf_exported f;
  sa_type : sf_type f' = sf_type f \/ (exists p, basic names env (sf_type f) p /\ basic names env' (sf_type f') p);
  sa_binary : sf_binary f' = sf_binary f;
  sa_amino : sf_amino f' = sf_amino f;
  sa_json : sf_json f' = sf_json f;
  sa_name : sf_name f' = sf_name f
}.
Definition same_def (names : tid -> bool) (env env' : tenv) (d d' : udef) : Prop :=
  match d, d' with
  | UStruct fs, UStruct fs' => Forall2 (same_field names env env') fs fs'
  | UType t, UType t' => t' = t
  | _, _ => False
  end.
(** The same program but for these types. *)
Record retyped (names : tid -> bool) (env env' : tenv) : Prop := {
  ry_def : forall id, same_def names env env' (te_def env id) (te_def env' id);
  ry_zero : forall id, te_zero env' id = te_zero env id;
  ry_impl : forall t i, te_impl env' t i = te_impl env t i;
  ry_marshal : forall id, te_marshal env' id = te_marshal env id;
  ry_unmarshal : forall id, te_unmarshal env' id = te_unmarshal env id;
  ry_hash : forall b, te_hash env' b = te_hash env b
}.

(** None of the types has MarshalJSON or UnmarshalJSON methods. *)
Definition no_json_methods (names : tid -> bool) (je : jenv) : Prop := forall id, names id = true -> je_marshal je id = None /\ je_unmarshal je id = None.
