(** Specification: two versions of a struct type, the newer with fields appended. *)
From Coq Require Import ZArith String List Bool.
From Verif Require Import Base Types Codec SpecNorm SpecProto SpecStruct.
Import ListNotations.
Local Open Scope Z_scope.

(** Fields that are not in the bytes: visible ones read as absent, hidden ones are
    left alone (zero in a fresh variable). *)
Definition missing (env : tenv) (gs : list sfield) : list value :=
  map (fun g => if visible g then absent env (sf_type g) else zero env (sf_type g)) gs.

(** No field written as repeated entries has more than one. *)
Definition single (env : tenv) (gs : list sfield) (l : list value) : Prop :=
  Forall2 (fun g v => visible g = true -> entries env (sf_type g) = true ->
             forall vs, items v vs -> (length vs <= 1)%nat) gs l.
