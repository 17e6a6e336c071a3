(** Specification for C98: struct types with the same fields. *)
From Coq Require Import ZArith String List Bool.
From Verif Require Import Base Prims Types SpecNorm.
Import ListNotations.
Local Open Scope Z_scope.

(** Two struct types with the same fields, tags included, and without methods: in Go, values of
    one can be converted to the other. *)
Definition convertible (env : tenv) (t t' : gotype) : Prop :=
  (exists fs, resolve env t = RStruct fs /\ resolve env t' = RStruct fs) /\ has_method env t = false /\ has_method env t' = false.
