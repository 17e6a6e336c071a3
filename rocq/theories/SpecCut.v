(** Words for C82: readers whose stream comes to an end.  Nothing here refers to
    the model of the amino functions. *)
From Coq Require Import ZArith String List Bool.
From Verif Require Import Base SpecStream.
Import ListNotations.

(** With nothing left the reader returns no bytes and an error. *)
Definition ends {S} (read : S -> nat -> bytes * option error * S) (holds : S -> bytes -> Prop) : Prop :=
  forall s p, holds s [] -> (0 < p)%nat -> exists e s', read s p = ([], Some e, s').
