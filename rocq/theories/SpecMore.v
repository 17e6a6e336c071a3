(** Specification: codecs with more registrations than others. *)
From Coq Require Import ZArith String List Bool.
From Verif Require Import Base Types Codec Registry SpecRegistry SpecAdmit.
Import ListNotations.

Definition always (o : option iopts) : bool := match o with Some o => io_always o | None => false end.

(** [h'] registers all that [h] registers, in any order.  Interfaces keep their
    AlwaysDisambiguate option; their priority lists may change. *)
Record more (h h' : list op) : Prop := {
  mo_conc : forall x, In x (conc_calls h) -> In x (conc_calls h');
  mo_iface : forall i o, In (i, o) (iface_calls h) -> exists o', In (i, o') (iface_calls h') /\ always o' = always o
}.
(** No added implementer of an old interface has the prefix of an old type. *)
Definition fresh_prefixes (env : tenv) (h h' : list op) : Prop :=
  forall i o x y d d' p, In (i, o) (iface_calls h) -> In x (conc_calls h) -> In y (conc_calls h') -> implementer env i y = true ->
    named env (snd x) d p -> named env (snd y) d' p -> In y (conc_calls h).
(** The type under the pointers of [t] is not among the added ones. *)
Definition not_added (t : gotype) (h h' : list op) : Prop :=
  forall x, In x (conc_calls h') -> conc_of (fst x) = deref_type t -> In x (conc_calls h).
