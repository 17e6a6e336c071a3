(** Specification for C96: structs with pointers in the place of values, and with more or fewer
    hidden fields. *)
From Coq Require Import ZArith String List Bool.
From Verif Require Import Base Prims Types SpecNorm SpecStruct.
Import ListNotations.
Local Open Scope Z_scope.

Section Spec.
  Variable env : tenv.

  (** A value that is not blank: a nonzero integer, true, a string that is not empty, or a struct
      with such a value in one of its visible fields.  Types with methods are not considered. *)
  Inductive solid : gotype -> value -> Prop :=
  | solid_int t z : z <> 0 -> has_type env t (VInt z) = true -> has_method env t = false -> solid t (VInt z)
  | solid_uint t z : z <> 0 -> has_type env t (VUint z) = true -> has_method env t = false -> solid t (VUint z)
  | solid_true t : has_type env t (VBool true) = true -> has_method env t = false -> solid t (VBool true)
  | solid_str t x s : has_type env t (VStr (x :: s)) = true -> has_method env t = false -> solid t (VStr (x :: s))
  | solid_struct t fs l i f v : resolve env t = RStruct fs -> has_method env t = false -> nth_error fs i = Some f -> nth_error l i = Some v -> visible f = true ->
      solid (sf_type f) v -> solid t (VStruct l).

  (** Not a list and not a float. *)
  Definition pointable (t : gotype) : bool :=
    match resolve env t with RArray _ _ | RSlice _ | RPrim PFloat32 | RPrim PFloat64 => false | _ => true end.

  (** The fields and contents of two structs: the same, but for values in the first and pointers
      to the same values in the second, and for hidden fields, which either of them may have
      anywhere.  The values that became pointers are not blank, or were
      pointers already, or the field is tagged write_empty. *)
  Inductive pointed : list sfield -> list value -> list sfield -> list value -> Prop :=
  | po_nil : pointed [] [] [] []
  | po_same f f' v fs l fs' l' : sf_type f' = sf_type f -> sf_exported f' = sf_exported f -> sf_json f' = sf_json f -> sf_binary f' = sf_binary f -> sf_amino f' = sf_amino f ->
      sf_name f' = sf_name f -> pointed fs l fs' l' -> pointed (f :: fs) (v :: l) (f' :: fs') (v :: l')
  | po_pointer f f' v fs l fs' l' : sf_type f' = TPtr (sf_type f) -> sf_exported f' = sf_exported f -> sf_json f' = sf_json f -> sf_binary f' = sf_binary f ->
      sf_amino f' = sf_amino f -> sf_name f' = sf_name f -> pointable (sf_type f) = true -> solid (sf_type f) v \/ sf_amino f = bs "write_empty" \/ val_is_ptr v = true ->
      pointed fs l fs' l' -> pointed (f :: fs) (v :: l) (f' :: fs') (VPtr (Some v) :: l')
  | po_less f v fs l fs' l' : visible f = false -> pointed fs l fs' l' -> pointed (f :: fs) (v :: l) fs' l'
  | po_more f' v' fs l fs' l' : visible f' = false -> pointed fs l fs' l' -> pointed fs l (f' :: fs') (v' :: l').
End Spec.
