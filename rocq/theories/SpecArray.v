(** Specification for C95: structs with slices in the place of arrays. *)
From Coq Require Import ZArith String List Bool.
From Verif Require Import Base Prims Types Json SpecNorm SpecStruct.
Import ListNotations.
Local Open Scope Z_scope.

Section Spec.
  Variable env : tenv.

  (** [t] is a type of arrays and [t'] one of slices, of the same elements and without methods. *)
  Definition array_slice (t t' : gotype) : Prop :=
    exists n e, resolve env t = RArray n e /\ resolve env t' = RSlice e /\ has_method env t = false /\ has_method env t' = false.

  (** The fields and contents of two structs: the same, but for arrays in the first and slices
      with the same elements (at least one) in the second.  Hidden fields may be and hold
      anything. *)
  Inductive swapped : list sfield -> list value -> list sfield -> list value -> Prop :=
  | sw_nil : swapped [] [] [] []
  | sw_same f f' v fs l fs' l' : sf_type f' = sf_type f -> sf_exported f' = sf_exported f -> sf_json f' = sf_json f -> sf_binary f' = sf_binary f -> sf_amino f' = sf_amino f ->
      sf_name f' = sf_name f -> swapped fs l fs' l' -> swapped (f :: fs) (v :: l) (f' :: fs') (v :: l')
  | sw_list f f' x xs fs l fs' l' : array_slice (sf_type f) (sf_type f') -> sf_exported f' = sf_exported f -> sf_json f' = sf_json f -> sf_binary f' = sf_binary f ->
      sf_amino f' = sf_amino f -> sf_name f' = sf_name f ->
      swapped fs l fs' l' -> swapped (f :: fs) (VArr (x :: xs) :: l) (f' :: fs') (VSlice (Some (x :: xs)) :: l')
  | sw_hidden f f' v v' fs l fs' l' : visible f = false -> visible f' = false -> swapped fs l fs' l' -> swapped (f :: fs) (v :: l) (f' :: fs') (v' :: l').
End Spec.

(** [t] has no MarshalJSON method. *)
Definition json_plain (je : jenv) (t : gotype) : bool := match t with TNamed id => match je_marshal je id with None => true | Some _ => false end | _ => true end.
