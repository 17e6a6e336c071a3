(** Specification: JSON texts that say the same about a value of a type. *)
From Coq Require Import ZArith String List Bool.
From Verif Require Import Base SpecWire Types Codec SpecNorm Json SpecJson SpecJsonSafe.
Import ListNotations.
Local Open Scope Z_scope.

(** The members of an object that are called [n]: none, or the last of them. *)
Definition called (n : bytes) (m : bytes * bytes) : Prop := denotes (fst m) n.
Definition no_member (n : bytes) (l : list (bytes * bytes)) : Prop := Forall (fun m => ~ called n m) l.
Definition last_member (n : bytes) (l : list (bytes * bytes)) (text : bytes) : Prop :=
  exists l1 k l2, l = l1 ++ (k, text) :: l2 /\ called n (k, text) /\ no_member n l2.
(** Two objects in which the same member counts, if any; a missing member is as good as
    null if [nullable]. *)
Definition same_member (same : bytes -> bytes -> Prop) (nullable : bool) (n : bytes) (l l' : list (bytes * bytes)) : Prop :=
  no_member n l /\ no_member n l' \/
  (exists x x', last_member n l x /\ last_member n l' x' /\ same x x') \/
  nullable = true /\ (no_member n l /\ last_member n l' (bs "null") \/ last_member n l (bs "null") /\ no_member n l').

(** Two wrappers around the same registered type: the names of the members that count may
    be written in capitals, and the name of the type is nowhere of another JSON type. *)
Definition only_strings (l : list (bytes * bytes)) : Prop :=
  Forall (fun m => key_is (bs "type") (fst m) -> snd m = bs "null" \/ exists s, jchars s /\ snd m = 34 :: s ++ [34]) l.
Definition same_wrapper (same : bytes -> bytes -> bytes -> Prop) (b b' : bytes) : Prop :=
  exists l l' name x x', jobject l b /\ jobject l' b' /\ only_strings l /\ only_strings l' /\
    string_member (bs "type") l name /\ string_member (bs "type") l' name /\
    text_member (bs "value") l x /\ text_member (bs "value") l' x' /\ same name x x'.

(** Two texts that hold the same value of type [t], as far as Amino looks at them.  Members
    of structs and wrappers may be in any order, may be repeated (the last one counts), and
    there may be more of them.  Text for a method UnmarshalJSON must be the same; so must
    the order of the entries of a map. *)
Inductive agree (env : tenv) (je : jenv) (c : codec) : gotype -> bytes -> bytes -> Prop :=
| ag_same t b : agree env je c t b b
| ag_struct t fs l l' b b' : unread env je (deref_type t) -> resolve env (deref_type t) = RStruct fs ->
    jobject l b -> jobject l' b' ->
    (forall f o, In f fs -> json_opts f = Some o ->
       same_member (agree env je c (sf_type f))
         (negb (fo_omitempty o) && negb (is_ptr (sf_type f) && is_iface (deref_type (sf_type f)))) (fo_json_name o) l l') ->
    agree env je c t b b'
| ag_list t e l l' b b' : unread env je (deref_type t) ->
    resolve env (deref_type t) = RSlice e \/ (exists n, resolve env (deref_type t) = RArray n e) -> is_uint8 env e = false ->
    jarray l b -> jarray l' b' -> Forall2 (agree env je c e) l l' -> agree env je c t b b'
| ag_map t kt vt l l' b b' : unread env je (deref_type t) -> resolve env (deref_type t) = RMap kt vt ->
    jobject l b -> jobject l' b' ->
    Forall2 (fun m m' => (exists n, called n m /\ called n m') /\ agree env je c vt (snd m) (snd m')) l l' -> agree env je c t b b'
| ag_iface t i b b' : deref_type t = TIface i ->
    same_wrapper (fun name x x' => forall ct ptr, registration c ct = Some (name, ptr) -> agree env je c ct x x') b b' ->
    agree env je c t b b'
| ag_amino t id r g b b' : deref_type t = TNamed id -> je_unmarshal je id = None -> te_unmarshal env id = Some (UOk r g) ->
    agree env je c r b b' -> agree env je c t b b'.
(** The whole text: a registered type is wrapped. *)
Definition agree_top (env : tenv) (je : jenv) (c : codec) (t : gotype) (b b' : bytes) : Prop :=
  match registration c (deref_type t) with
  | None => agree env je c t b b'
  | Some _ => b = b' \/ same_wrapper (fun _ => agree env je c t) b b'
  end.
