(** Specification: types whose values keep their binary encoding when they are passed on
    as JSON. *)
From Coq Require Import ZArith String List Bool.
From Verif Require Import Base Types Codec SpecNorm SpecDefault Json SpecJson SpecJsonAgain.
Import ListNotations.
Local Open Scope Z_scope.

(** No float holds a negative zero, which omitempty takes for nothing (the bits of one in
    32 or 64 bits). *)
Fixpoint unsigned_zeros (v : value) : bool :=
  match v with
  | VFloat b => negb ((b =? 2 ^ 31) || (b =? 2 ^ 63))
  | VArr l | VSlice (Some l) | VStruct l => forallb unsigned_zeros l
  | VPtr (Some w) | VIface (Some (_, w)) => unsigned_zeros w
  | _ => true
  end.

Section Through.
  Variable env : tenv.
  Variable je : jenv.
  Variable c : codec.
  Variable mem : gotype -> bool.   (* as in SpecJson.v *)

  (** Pointers to lists read as nil where the list is nil, and nil cannot be written under
      write_empty; omitempty takes a pointer to an array without elements for nil. *)
  Definition passed_field (f : sfield) : bool :=
    match json_opts f with
    | Some o =>
        negb (is_ptr (sf_type f)) ||
        negb (fo_write_empty o) &&
        negb (fo_omitempty o && match resolve env (deref_type (sf_type f)) with RArray _ _ => true | _ => false end)
    | None => true
    end.
  (** Methods do not write null, and give back a value that is the same to the binary
      encoder.  The binary encoder knows no maps. *)
  Definition passed_ok (t : gotype) : Prop :=
    if methods env je t
    then forall k v n v', has_type env t v = true -> jform k env je c t v = Some (n, v') -> n = false /\ same env t v v'
    else match resolve env t with
         | RStruct fs => forallb passed_field fs = true
         | RMap _ _ => False
         | _ => True
         end.
  Definition passed : Prop := forall t, mem t = true -> passed_ok t.
End Through.
