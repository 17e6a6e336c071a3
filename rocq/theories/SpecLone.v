(** Specification for C97: values that are not structs, and structs with a single visible field. *)
From Coq Require Import ZArith String List Bool.
From Verif Require Import Base Prims Types Codec SpecNorm SpecStruct.
Import ListNotations.
Local Open Scope Z_scope.

Section Spec.
  Variable env : tenv.
  Variable c : codec.

  (** Basic types, lists of numbers or bools, lists of bytes, and lists of structs or times that
      amino has information for; the types and the numbers in lists without methods. *)
  Definition lone (t : gotype) : bool :=
    negb (has_method env t) &&
    match resolve env t with
    | RPrim _ => true
    | RArray _ e | RSlice e =>
        match resolve env e with
        | RPrim PString => false
        | RPrim _ => negb (has_method env e)
        | RStruct _ | RTime => known env c e
        | _ => false
        end
    | _ => false
    end.

  (** The fields [fs] of a struct are hidden, all but one of type [t] without binary and amino
      tags; in the struct with contents [l] that one holds [v]. *)
  Definition holds_only (t : gotype) (v : value) (fs : list sfield) (l : list value) : Prop :=
    exists i f, nth_error fs i = Some f /\ nth_error l i = Some v /\ visible f = true /\ sf_type f = t /\ sf_binary f = [] /\ sf_amino f = [] /\
      forall j g, nth_error fs j = Some g -> j <> i -> visible g = false.
End Spec.
