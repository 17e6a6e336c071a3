(** Specification for C89: two programs that differ in the names of struct fields and in
    their JSON tags only. *)
From Coq Require Import ZArith String List Bool.
From Verif Require Import Base Prims Types.
Import ListNotations.
Local Open Scope Z_scope.

(** The same field under another name and another JSON tag, a tag that hides a field
    ("-", codec.go:502-505) staying one. *)
Record same_field (f f' : sfield) : Prop := {
  sa_exported : sf_exported f' = sf_exported f;
  sa_type : sf_type f' = sf_type f;
  sa_binary : sf_binary f' = sf_binary f;
  sa_amino : sf_amino f' = sf_amino f;
  sa_hidden : sf_json f' = bs "-" <-> sf_json f = bs "-"
}.
Definition same_def (d d' : udef) : Prop :=
  match d, d' with
  | UStruct fs, UStruct fs' => Forall2 same_field fs fs'
  | UType t, UType t' => t' = t
  | _, _ => False
  end.
(** The same program but for these names: same types, same methods. *)
Record renamed (env env' : tenv) : Prop := {
  rn_def : forall id, same_def (te_def env id) (te_def env' id);
  rn_zero : forall id, te_zero env' id = te_zero env id;
  rn_impl : forall t i, te_impl env' t i = te_impl env t i;
  rn_marshal : forall id, te_marshal env' id = te_marshal env id;
  rn_unmarshal : forall id, te_unmarshal env' id = te_unmarshal env id;
  rn_hash : forall b, te_hash env' b = te_hash env b
}.
