(** Independent specification of base-128 numbers and of the proto3 key.
    Nothing here refers to the model of the Go code. *)
From Coq Require Import ZArith List.
From Verif Require Import Base.
Import ListNotations.
Local Open Scope Z_scope.

(** The number denoted by little-endian base-128 digits. *)
Fixpoint val128 (ds : list Z) : Z :=
  match ds with
  | [] => 0
  | d :: r => d + 128 * val128 r
  end.

(** The number denoted by little-endian base-256 digits. *)
Fixpoint val256 (ds : list Z) : Z :=
  match ds with
  | [] => 0
  | d :: r => d + 256 * val256 r
  end.

Definition digit128 (d : Z) : Prop := 0 <= d < 128.

(** [bz] is a base-128 representation of [u]: every byte but the last carries
    the continuation bit (128). *)
Definition leb128 (bz : bytes) (u : Z) : Prop :=
  exists ds last,
    bz = map (fun d => d + 128) ds ++ [last] /\
    Forall digit128 ds /\ digit128 last /\ u = val128 (ds ++ [last]).

(** ... the one without superfluous leading zero digits. *)
Definition leb128_min (bz : bytes) (u : Z) : Prop :=
  exists ds last,
    bz = map (fun d => d + 128) ds ++ [last] /\
    Forall digit128 ds /\ digit128 last /\ u = val128 (ds ++ [last]) /\
    (ds = [] \/ last <> 0).

(** Zigzag: 0, -1, 1, -2, 2, ... map to 0, 1, 2, 3, 4, ... *)
Definition zigzag (i : Z) : Z := if i <? 0 then -2 * i - 1 else 2 * i.
