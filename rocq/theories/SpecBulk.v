(** Specification: how many bytes a value warrants when it is written. *)
From Coq Require Import ZArith String List Bool.
From Verif Require Import Base Types Codec Json.
Import ListNotations.

(** In binary: ten bytes for a number or a length, five for the key of each part, eight for
    the prefix and disambiguation bytes of an interface value, and the bytes of strings.
    A nil pointer counts as the number it may stand for in a list of pointers.  [m] bytes
    more for each number leave room for MarshalAmino methods that turn numbers into text. *)
Fixpoint bulk (m : nat) (v : value) : nat :=
  match v with
  | VBool _ | VInt _ | VUint _ | VFloat _ | VPtr None => 10 + m
  | VStr s => 10 + length s
  | VTime _ _ => 32
  | VArr l | VSlice (Some l) | VStruct l => 10 + list_sum (map (fun x => 5 + bulk m x) l)
  | VSlice None | VIface None | VMap None | VFunc _ => 10
  | VPtr (Some w) => bulk m w
  | VIface (Some (_, w)) => 18 + bulk m w
  | VMap (Some l) => 10 + list_sum (map (fun p => bulk m (fst p) + bulk m (snd p)) l)
  | VOther | VInvalid => 0
  end.
(** MarshalAmino methods do not blow up their receiver. *)
Definition repr_nogrow (env : tenv) (m : nat) : Prop :=
  forall id r f v w, te_marshal env id = Some (MOk r f) -> f v = EOk w -> bulk m w <= bulk m v.

(** As JSON, with names of at most [n] characters (as they are written in quotes): a
    character for each bit of a number, six for each byte of a string, and brackets,
    commas, quotation marks and names; [m] as before. *)
Fixpoint jbulk (m n : nat) (v : value) : nat :=
  match v with
  | VBool _ => 5 + m
  | VInt z | VUint z => 4 + m + Z.to_nat (Z.log2 (Z.abs z))
  | VFloat _ => 32 + m
  | VStr s => 4 + 6 * length s
  | VTime _ _ => 40
  | VArr l | VSlice (Some l) => 2 + list_sum (map (fun x => 2 + jbulk m n x) l)
  | VStruct l => 2 + list_sum (map (fun x => n + 2 + jbulk m n x) l)
  | VSlice None | VPtr None | VIface None | VMap None | VFunc _ | VOther | VInvalid => 4
  | VPtr (Some w) => jbulk m n w
  | VIface (Some (_, w)) => n + 20 + jbulk m n w
  | VMap (Some l) => 2 + list_sum (map (fun p => 2 + jbulk m n (fst p) + jbulk m n (snd p)) l)
  end.
(** The names of fields, in quotes, and of registered types have at most [n] characters. *)
Definition short_names (env : tenv) (c : codec) (n : nat) : Prop :=
  (forall t fs f o, resolve env t = RStruct fs -> In f fs -> parse_field_options f = Some o -> 2 + 6 * length (fo_json_name o) <= n) /\
  (forall t ci r, In (t, ci) (cd_types c) -> ci_reg ci = Some r -> length (ri_name r) <= n).
(** Methods do not blow up their receiver; the texts of times and floats are short. *)
Definition json_short (env : tenv) (je : jenv) (m n : nat) : Prop :=
  (forall id r f v w, te_marshal env id = Some (MOk r f) -> f v = EOk w -> jbulk m n w <= jbulk m n v) /\
  (forall id b f v t, je_marshal je id = Some (b, f) -> f v = EOk t -> length t <= jbulk m n v) /\
  (forall s ns t, je_time je s ns = EOk t -> length t <= 40) /\
  (forall p z t, je_float je p z = EOk t -> length t <= 32).
