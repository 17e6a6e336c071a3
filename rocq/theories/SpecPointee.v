(** Specification for C100: variables behind pointers. *)
From Coq Require Import ZArith String List Bool.
From Verif Require Import Base Prims Types.
Import ListNotations.
Local Open Scope Z_scope.

(** What a pointer points to; for nil, the new variable it is made to point to. *)
Definition pointee (env : tenv) (e : gotype) (v : value) : value := match v with VPtr (Some w) => w | _ => zero env e end.
