(** Specification for C93: two programs that differ in the widths of integer fields, as far
    as JSON is concerned. *)
From Coq Require Import ZArith String List Bool.
From Verif Require Import Base Prims Types.
Import ListNotations.
Local Open Scope Z_scope.

(** Integer types of one kind: those written in quotes, and, if [narrow], those written as
    numbers. *)
Definition kin_json (narrow : bool) (p p' : prim) : Prop :=
  let long q := q = PInt \/ q = PInt64 in
  let ulong q := q = PUint \/ q = PUint64 in
  let short q := narrow = true /\ (q = PInt8 \/ q = PInt16 \/ q = PInt32) in
  let ushort q := narrow = true /\ (q = PUint8 \/ q = PUint16 \/ q = PUint32) in
  long p /\ long p' \/ ulong p /\ ulong p' \/ short p /\ short p' \/ ushort p /\ ushort p'.

(** The same field with another type of integers in it. *)
Record same_field (narrow : bool) (f f' : sfield) : Prop := {
  sa_exported : sf_exported f' = sf_exported f;
  sa_type : sf_type f' = sf_type f \/ (exists p p', sf_type f = TPrim p /\ sf_type f' = TPrim p' /\ kin_json narrow p p');
  sa_binary : sf_binary f' = sf_binary f;
  sa_amino : sf_amino f' = sf_amino f;
  sa_json : sf_json f' = sf_json f;
  sa_name : sf_name f' = sf_name f
}.
Definition same_def (narrow : bool) (d d' : udef) : Prop :=
  match d, d' with
  | UStruct fs, UStruct fs' => Forall2 (same_field narrow) fs fs'
  | UType t, UType t' => t' = t
  | _, _ => False
  end.
(** The same program but for these types. *)
Record jresized (narrow : bool) (env env' : tenv) : Prop := {
  rj_def : forall id, same_def narrow (te_def env id) (te_def env' id);
  rj_zero : forall id, te_zero env' id = te_zero env id;
  rj_impl : forall t i, te_impl env' t i = te_impl env t i;
  rj_marshal : forall id, te_marshal env' id = te_marshal env id;
  rj_unmarshal : forall id, te_unmarshal env' id = te_unmarshal env id;
  rj_hash : forall b, te_hash env' b = te_hash env b
}.
