(** Specification: values that differ only where nil and empty are the same, and
    the room that the fields of a struct take. *)
From Coq Require Import ZArith String List Bool.
From Verif Require Import Base SpecWire Types Codec SpecNorm SpecStruct.
Import ListNotations.
Local Open Scope Z_scope.

(** Tagged binary:"write_empty". *)
Definition writes_empty (f : sfield) : bool :=
  match parse_field_options f with Some o => fo_write_empty o | None => false end.

Section Spec.
  Variable env : tenv.

  (** A nil pointer, zero integer, empty string or list, nil interface, or a
      pointer to one of these, of type [t]. *)
  Definition nothing (t : gotype) (v : value) : Prop := has_type env t v = true /\ defaultv v = true.

  (** Two values of a type that differ at most in hidden fields, between nil and
      empty slices, between values and pointers to them in interfaces, and, in
      fields without write_empty and in list elements, between nothing and nothing. *)
  Inductive same : gotype -> value -> value -> Prop :=
  | same_refl t v : same t v v
  | same_none t e : resolve env t = RSlice e -> same t (VSlice None) (VSlice (Some []))
  | same_empty t e : resolve env t = RSlice e -> same t (VSlice (Some [])) (VSlice None)
  | same_struct t fs l l' : resolve env t = RStruct fs -> same_fields fs l l' -> same t (VStruct l) (VStruct l')
  | same_array t n e l l' : resolve env t = RArray n e -> same_all e l l' -> same t (VArr l) (VArr l')
  | same_slice t e l l' : resolve env t = RSlice e -> same_all e l l' -> same t (VSlice (Some l)) (VSlice (Some l'))
  | same_ptr e v v' : same e v v' -> same (TPtr e) (VPtr (Some v)) (VPtr (Some v'))
  | same_iface i t v v' : same t v v' -> same (TIface i) (VIface (Some (t, v))) (VIface (Some (t, v')))
  | same_held i t t' v v' x x' : deref_type t' = deref_type t -> under v = Some x -> under v' = Some x' -> same (deref_type t) x x' ->
      same (TIface i) (VIface (Some (t, v))) (VIface (Some (t', v')))
  with same_all : gotype -> list value -> list value -> Prop :=
  | same_nil e : same_all e [] []
  | same_cons e v v' l l' : same e v v' -> same_all e l l' -> same_all e (v :: l) (v' :: l')
  | same_skip e v v' l l' : nothing e v -> nothing e v' -> same_all e l l' -> same_all e (v :: l) (v' :: l')
  with same_fields : list sfield -> list value -> list value -> Prop :=
  | same_done : same_fields [] [] []
  | same_shown f fs v v' l l' : visible f = true -> same (sf_type f) v v' -> same_fields fs l l' ->
      same_fields (f :: fs) (v :: l) (v' :: l')
  | same_default f fs v v' l l' : visible f = true -> writes_empty f = false -> nothing (sf_type f) v -> nothing (sf_type f) v' ->
      same_fields fs l l' -> same_fields (f :: fs) (v :: l) (v' :: l')
  | same_hidden f fs v v' l l' : visible f = false -> same_fields fs l l' ->
      same_fields (f :: fs) (v :: l) (v' :: l').

  (** MarshalAmino methods do not tell such values apart. *)
  Definition same_result (r : gotype) (a b : eres value) : Prop :=
    match a, b with EOk v, EOk w => same r v w | _, _ => a = b end.
  Definition indifferent : Prop := forall id r f v w, te_marshal env id = Some (MOk r f) ->
    same (TNamed id) v w -> same_result r (f v) (f w).

  (** The parts that the fields of a struct take up in its encoding.  The fields
      that have no part are the hidden ones and the blank ones; the others have one that
      starts with the field's number, except (last case) that nothing is said of
      fields holding what amino cannot read back. *)
  Variable c : codec.
  Variable k : nat.
  Inductive parts : Z -> list sfield -> list value -> list bytes -> Prop :=
  | parts_nil num : parts num [] [] []
  | parts_hidden num f fs v l ps : visible f = false -> parts num fs l ps -> parts num (f :: fs) (v :: l) ps
  | parts_blank num f fs v l o ps : field_opts num f = Some o -> blank_field env (blank k env) (sf_type f) o v = true ->
      parts (num + 1) fs l ps -> parts num (f :: fs) (v :: l) ps
  | parts_some num f fs v l o key wt b ps : field_opts num f = Some o -> blank_field env (blank k env) (sf_type f) o v = false ->
      0 <= wt < 8 -> leb128_min key (num * 8 + wt) -> parts (num + 1) fs l ps -> parts num (f :: fs) (v :: l) ((key ++ b) :: ps)
  | parts_odd num f fs v l o b ps : field_opts num f = Some o -> blank_field env (blank k env) (sf_type f) o v = false ->
      2 ^ 29 <= num \/ norm_field env c (blank k env) (fixed_width k env) (norm k env c) (sf_type f) o v = None ->
      parts (num + 1) fs l ps -> parts num (f :: fs) (v :: l) (b :: ps).
End Spec.
Scheme same_ind' := Minimality for same Sort Prop
  with same_all_ind' := Minimality for same_all Sort Prop
  with same_fields_ind' := Minimality for same_fields Sort Prop.
Combined Scheme same_mut from same_ind', same_all_ind', same_fields_ind'.
