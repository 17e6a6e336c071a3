(** Specification: two structs, the first with the contents of the leading fields of
    a third and the second with the contents of the rest. *)
From Coq Require Import ZArith String List Bool.
From Verif Require Import Base Types Codec SpecNorm SpecStruct SpecDefault.
Import ListNotations.
Local Open Scope Z_scope.

Section Spec.
  Variable env : tenv.

  (** [w] has the same shape as [v] but no contents: a false, the start of 1970,
      a struct of nothing.  In fields: nil, zero integers, empty strings and
      lists, pointers to these, or no contents; no field is tagged write_empty.
      Hidden fields may hold anything. *)
  Inductive hush : gotype -> value -> value -> Prop :=
  | hush_bool t b : resolve env t = RPrim PBool -> has_method env t = false -> hush t (VBool b) (VBool false)
  | hush_time t s n : resolve env t = RTime -> hush t (VTime s n) (VTime 0 0)
  | hush_struct t fs l lw : resolve env t = RStruct fs -> has_method env t = false -> hush_fields fs l lw -> hush t (VStruct l) (VStruct lw)
  with hush_fields : list sfield -> list value -> list value -> Prop :=
  | hf_nil : hush_fields [] [] []
  | hf_default f fs v w l lw : visible f = true -> writes_empty f = false -> defaultv w = true -> hush_fields fs l lw ->
      hush_fields (f :: fs) (v :: l) (w :: lw)
  | hf_hush f fs v w l lw : visible f = true -> writes_empty f = false -> hush (sf_type f) v w -> hush_fields fs l lw ->
      hush_fields (f :: fs) (v :: l) (w :: lw)
  | hf_hidden f fs v w l lw : visible f = false -> hush_fields fs l lw ->
      hush_fields (f :: fs) (v :: l) (w :: lw).

  (** [w] takes the place of [v] in the field [f] and says nothing. *)
  Definition unsaid (f : sfield) (v w : value) : Prop := writes_empty f = false /\ (defaultv w = true \/ hush (sf_type f) v w).

  (** All fields of the whole are in the second part. *)
  Inductive second : list sfield -> list value -> list value -> list value -> Prop :=
  | sec_nil : second [] [] [] []
  | sec_shown f fs v w l la lb : visible f = true -> unsaid f v w -> second fs l la lb ->
      second (f :: fs) (v :: l) (w :: la) (v :: lb)
  | sec_hidden f fs v w x l la lb : visible f = false -> second fs l la lb ->
      second (f :: fs) (v :: l) (w :: la) (x :: lb).

  (** [joins fs l la lb]: the whole [l] has its leading fields in [la] and the rest
      in [lb]; between them a list field written as one entry per element may be
      divided, its first elements in [la] and the others in [lb].  Hidden fields
      may hold anything. *)
  Inductive joins : list sfield -> list value -> list value -> list value -> Prop :=
  | joins_second fs l la lb : second fs l la lb -> joins fs l la lb
  | joins_first f fs v w l la lb : visible f = true -> unsaid f v w -> joins fs l la lb ->
      joins (f :: fs) (v :: l) (v :: la) (w :: lb)
  | joins_list f fs x xs y ys l la lb : visible f = true -> entries env (sf_type f) = true ->
      second fs l la lb ->
      joins (f :: fs) (VSlice (Some (x :: xs ++ y :: ys)) :: l) (VSlice (Some (x :: xs)) :: la) (VSlice (Some (y :: ys)) :: lb)
  | joins_hidden f fs v w x l la lb : visible f = false -> joins fs l la lb ->
      joins (f :: fs) (v :: l) (w :: la) (x :: lb).
End Spec.
Scheme hush_ind' := Minimality for hush Sort Prop
  with hush_fields_ind' := Minimality for hush_fields Sort Prop.
Combined Scheme hush_mut from hush_ind', hush_fields_ind'.
