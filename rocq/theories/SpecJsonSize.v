(** Specification: what the bound on the size of values decoded from JSON takes for granted.
    The size of a value is [dsize] of DecSize.v, as for the binary decoder. *)
From Coq Require Import List.
From Verif Require Import Base Types Codec DecSize Json SpecJson.
Import ListNotations.

(** UnmarshalJSON methods add at most three slice elements or string bytes per byte of their
    text: Amino itself adds three where a byte is not UTF-8. *)
Definition json_nogrow (je : jenv) : Prop :=
  forall id g b v v', je_unmarshal je id = Some g -> g b v = EOk v' -> (dsize v' <= dsize v + 3 * length b)%nat.
(** No two fields of a struct go by the same name. *)
Definition json_distinct (env : tenv) : Prop :=
  forall t fs, resolve env t = RStruct fs -> NoDup (json_names fs).
