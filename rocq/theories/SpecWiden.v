(** Specification for C92: two programs that differ in the widths of integer fields. *)
From Coq Require Import ZArith String List Bool.
From Verif Require Import Base Prims Types.
Import ListNotations.
Local Open Scope Z_scope.

(** Integer types of one kind.  [narrow] says whether 32-bit types are among them. *)
Definition kin_prim (narrow : bool) (p p' : prim) : Prop :=
  let signed q := q = PInt \/ q = PInt64 \/ narrow = true /\ q = PInt32 in
  let unsigned q := q = PUint \/ q = PUint64 \/ narrow = true /\ q = PUint32 in
  signed p /\ signed p' \/ unsigned p /\ unsigned p'.

(** The same field with another type of integers in it, unless tagged fixed64 or fixed32. *)
Record same_field (narrow : bool) (f f' : sfield) : Prop := {
  sa_exported : sf_exported f' = sf_exported f;
  sa_type : sf_type f' = sf_type f \/
    (exists p p', sf_type f = TPrim p /\ sf_type f' = TPrim p' /\ kin_prim narrow p p' /\ sf_binary f <> bs "fixed64" /\ sf_binary f <> bs "fixed32");
  sa_binary : sf_binary f' = sf_binary f;
  sa_amino : sf_amino f' = sf_amino f;
  sa_json : sf_json f' = sf_json f;
  sa_name : sf_name f' = sf_name f
}.
Definition same_def (narrow : bool) (d d' : udef) : Prop :=
  match d, d' with
  | UStruct fs, UStruct fs' => Forall2 (same_field narrow) fs fs'
  | UType t, UType t' => t' = t
  | _, _ => False
  end.
(** The same program but for these types. *)
Record resized (narrow : bool) (env env' : tenv) : Prop := {
  rs_def : forall id, same_def narrow (te_def env id) (te_def env' id);
  rs_zero : forall id, te_zero env' id = te_zero env id;
  rs_impl : forall t i, te_impl env' t i = te_impl env t i;
  rs_marshal : forall id, te_marshal env' id = te_marshal env id;
  rs_unmarshal : forall id, te_unmarshal env' id = te_unmarshal env id;
  rs_hash : forall b, te_hash env' b = te_hash env b
}.
