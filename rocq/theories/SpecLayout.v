(** Specification: one JSON text laid out in two ways. *)
From Coq Require Import ZArith String List Bool.
From Verif Require Import Base SpecWire SpecJson.
Import ListNotations.
Local Open Scope Z_scope.

(** The same text but for the white space between its tokens. *)
Inductive respaced : bytes -> bytes -> Prop :=
| rs_null : respaced (bs "null") (bs "null")
| rs_true : respaced (bs "true") (bs "true")
| rs_false : respaced (bs "false") (bs "false")
| rs_number n : jnumber n -> respaced n n
| rs_string s : jchars s -> respaced (34 :: s ++ [34]) (34 :: s ++ [34])
| rs_array l l' b b' : jarray l b -> jarray l' b' -> Forall2 respaced l l' -> respaced b b'
| rs_object l l' b b' : jobject l b -> jobject l' b' ->
    Forall2 (fun m m' => fst m = fst m' /\ respaced (snd m) (snd m')) l l' -> respaced b b'.

(** A text laid out over several lines, its parts [d] levels deep.  Every element and
    member stands on a line of its own. *)
Section Layout.
  Variable prefix indent : bytes.
  Definition line (d : nat) : bytes := 10 :: prefix ++ concat (repeat indent d).
  (** The items of an array or object, each on its line. *)
  Fixpoint lines (d : nat) (l : list bytes) : bytes :=
    match l with
    | [] => []
    | [v] => line d ++ v
    | v :: l' => line d ++ v ++ 44 :: lines d l'
    end.
  Definition item (m : bytes * bytes) : bytes := 34 :: fst m ++ [34; 58; 32] ++ snd m.
  Inductive laid_out : nat -> bytes -> bytes -> Prop :=
  | lo_null d : laid_out d (bs "null") (bs "null")
  | lo_true d : laid_out d (bs "true") (bs "true")
  | lo_false d : laid_out d (bs "false") (bs "false")
  | lo_number d n : jnumber n -> laid_out d n n
  | lo_string d s : jchars s -> laid_out d (34 :: s ++ [34]) (34 :: s ++ [34])
  | lo_array_empty d b : jarray [] b -> laid_out d b (bs "[]")
  | lo_array d l l' b : jarray l b -> l <> [] -> Forall2 (laid_out (S d)) l l' ->
      laid_out d b (91 :: lines (S d) l' ++ line d ++ [93])
  | lo_object_empty d b : jobject [] b -> laid_out d b (bs "{}")
  | lo_object d l l' b : jobject l b -> l <> [] ->
      Forall2 (fun m m' => fst m = fst m' /\ laid_out (S d) (snd m) (snd m')) l l' ->
      laid_out d b (123 :: lines (S d) (map item l') ++ line d ++ [125]).
End Layout.
