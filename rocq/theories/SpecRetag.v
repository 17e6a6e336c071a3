(** Specification for C90: two programs that differ in binary and amino tags only. *)
From Coq Require Import ZArith String List Bool.
From Verif Require Import Base Prims Types.
Import ListNotations.
Local Open Scope Z_scope.

(** [w] is one of the comma-separated parts of [s]. *)
Definition part_of (w s : bytes) : Prop :=
  exists p q, s = p ++ w ++ q /\ (p = [] \/ exists p', p = p' ++ [44]) /\ (q = [] \/ exists q', q = 44 :: q').
(** The same field under another binary tag and another amino tag; the amino option
    [unsafe], which lets floats through (reflect.go:37-45), stays. *)
Record same_json_field (f f' : sfield) : Prop := {
  sj_name : sf_name f' = sf_name f;
  sj_exported : sf_exported f' = sf_exported f;
  sj_type : sf_type f' = sf_type f;
  sj_json : sf_json f' = sf_json f;
  sj_unsafe : part_of (bs "unsafe") (sf_amino f') <-> part_of (bs "unsafe") (sf_amino f)
}.
Definition same_json_def (d d' : udef) : Prop :=
  match d, d' with
  | UStruct fs, UStruct fs' => Forall2 same_json_field fs fs'
  | UType t, UType t' => t' = t
  | _, _ => False
  end.
(** The same program but for these tags: same types, same methods. *)
Record retagged (env env' : tenv) : Prop := {
  rt_def : forall id, same_json_def (te_def env id) (te_def env' id);
  rt_zero : forall id, te_zero env' id = te_zero env id;
  rt_impl : forall t i, te_impl env' t i = te_impl env t i;
  rt_marshal : forall id, te_marshal env' id = te_marshal env id;
  rt_unmarshal : forall id, te_unmarshal env' id = te_unmarshal env id;
  rt_hash : forall b, te_hash env' b = te_hash env b
}.
