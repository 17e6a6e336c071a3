(** Specification for C99: when pointers in struct fields make no difference in JSON.  The
    structs are those of SpecPointer.v. *)
From Coq Require Import ZArith String List Bool.
From Verif Require Import Base Prims Types Codec JsonText Json.
Import ListNotations.
Local Open Scope Z_scope.

(** No field is tagged omitempty. *)
Definition never_omitted (fs : list sfield) : Prop := forall f o, In f fs -> parse_field_options f = Some o -> fo_omitempty o = false.
(** No MarshalJSON method has a pointer as receiver: such a method is used only for values that
    have an address. *)
Definition by_value (je : jenv) : Prop := forall id byval f, je_marshal je id = Some (byval, f) -> byval = true.
