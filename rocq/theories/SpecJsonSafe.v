(** Specification: what UnmarshalJSON must be given so that it returns, whatever the bytes. *)
From Coq Require Import ZArith String List Bool.
From Verif Require Import Base SpecWire Types Codec BinDec SpecNorm Json SpecJson.
Import ListNotations.
Local Open Scope Z_scope.

(** A call that ends in a value satisfying [Q] or in an error. *)
Definition returns {A} (Q : A -> Prop) (r : eres A) : Prop :=
  match r with EOk a => Q a | EErr _ => True | EPanic _ | EFuel => False end.

(** The functions of the standard library and the methods of the program return, with
    values of the right type. *)
Definition in_time (r : Z * Z) : Prop := in_int 64 (fst r) = true /\ 0 <= snd r <= 999999999.
Record jenv_safe (je : jenv) : Prop := {
  js_time : forall bz, returns in_time (je_untime je bz);
  js_float32 : forall bz, returns (fun b => in_uint 32 b = true) (je_unfloat je PFloat32 bz);
  js_float64 : forall bz, returns (fun b => in_uint 64 b = true) (je_unfloat je PFloat64 bz)
}.
Definition method_safe (env : tenv) (t : gotype) (g : bytes -> value -> eres value) : Prop :=
  forall bz v, has_type env t v = true -> returns (fun w => has_type env t w = true) (g bz v).
Definition amino_safe (env : tenv) (t r : gotype) : Prop :=
  forall v w, has_type env t v = true -> has_type env r w = true ->
  returns (fun p => has_type env t (fst p) = true) (from_repr env t v w).

Section Types.
  Variable env : tenv.
  Variable je : jenv.
  Variable mem : gotype -> Prop.   (* the set of types; it holds no pointer types *)

  (** The type of a part: not a pointer to an interface. *)
  Definition jpart (t : gotype) : Prop := mem (deref_type t) /\ (is_ptr t = true -> is_iface (deref_type t) = false).
  (** Types whose parts are in the set.  Arrays of bytes must be of uint8 itself, maps
      keyed by strings must be keyed by string itself. *)
  Definition jparts (t : gotype) : Prop :=
    match resolve env t with
    | RPrim _ => True
    | RArray _ e => if is_uint8 env e then e = TPrim PUint8 else jpart e
    | RSlice e => if is_uint8 env e then True else jpart e
    | RStruct fs => forall f, In f fs -> sf_exported f = true -> parse_field_options f <> None -> jpart (sf_type f)
    | RMap kt vt => resolve env kt = RPrim PString -> kt = TPrim PString /\ jpart vt
    | _ => False
    end.
  Definition jsafe_type (t : gotype) : Prop :=
    match t with
    | TPtr _ => False
    | TIface _ => True
    | TTime => True
    | _ =>
        (exists ci, new_type_info env t = EOk ci) /\
        match (match t with TNamed id => je_unmarshal je id | _ => None end), unmarshal_repr env t with
        | Some g, _ => method_safe env t g
        | None, EOk (Some r) => jpart r /\ amino_safe env t r
        | None, _ => jparts t
        end
    end.
  Definition jsafe_set : Prop := forall t, mem t -> jsafe_type t.
End Types.

(** UnmarshalAmino methods one after another on the same bytes: fewer than [k]. *)
Fixpoint jchain (env : tenv) (k : nat) (t : gotype) : Prop :=
  match k with
  | O => False
  | S k' => match unmarshal_repr env t with EOk (Some r) => jchain env k' r | _ => True end
  end.

(** ** Used targets *)

(** Types without methods that read JSON. *)
Definition unread (env : tenv) (je : jenv) (t : gotype) : Prop :=
  match t with TNamed id => je_unmarshal je id = None /\ te_unmarshal env id = None | _ => True end.
Definition pointee (env : tenv) (e : gotype) (v : value) : value :=
  match v with VPtr (Some w) => w | _ => zero env e end.
(** A field that is read from JSON, and reset if it is not there. *)
Definition reset_field (f : sfield) : Prop :=
  sf_exported f = true /\ exists o, parse_field_options f = Some o /\ fo_omitempty o = false.

(** Two contents of a variable of type [t] that agree on whatever is not overwritten:
    fields that are hidden, left out ("-") or omitempty; slices of bytes; and what methods
    may look at.  A nil pointer counts as a pointer to zero. *)
Inductive same_kept (env : tenv) (je : jenv) : gotype -> value -> value -> Prop :=
| sk_eq t v : same_kept env je t v v
| sk_over t v v' : unread env je t ->
    match resolve env t with
    | RPrim _ | RTime | RMap _ _ | RIface _ => True
    | RSlice e => is_uint8 env e = false
    | RArray _ e => is_uint8 env e = true
    | _ => False
    end -> same_kept env je t v v'
| sk_array t n e l l' : unread env je t -> resolve env t = RArray n e -> Forall2 (same_kept env je e) l l' ->
    same_kept env je t (VArr l) (VArr l')
| sk_struct t fs l l' : unread env je t -> resolve env t = RStruct fs -> same_fields env je fs l l' ->
    same_kept env je t (VStruct l) (VStruct l')
| sk_ptr e v v' : same_kept env je e (pointee env e v) (pointee env e v') -> same_kept env je (TPtr e) v v'
with same_fields (env : tenv) (je : jenv) : list sfield -> list value -> list value -> Prop :=
| sf_nil : same_fields env je [] [] []
| sf_keep f fs v l l' : same_fields env je fs l l' -> same_fields env je (f :: fs) (v :: l) (v :: l')
| sf_read f fs v v' l l' : reset_field f -> same_kept env je (sf_type f) v v' -> same_fields env je fs l l' ->
    same_fields env je (f :: fs) (v :: l) (v' :: l').

(** ** Accepted texts *)

Definition spaced (Q : bytes -> Prop) (bz : bytes) : Prop :=
  exists w b w', bz = w ++ b ++ w' /\ spaces w /\ spaces w' /\ Q b.
(** JSON texts with white space around them, and numbers (or null) in quotes with white
    space inside the quotes. *)
Definition accepted (bz : bytes) : Prop :=
  spaced jtext bz \/ exists m, bz = 34 :: m ++ [34] /\ spaced (fun b => jnumber b \/ b = bs "null") m.
(** The library's time.Time and the program's methods accept only JSON. *)
Record jenv_strict (je : jenv) : Prop := {
  jt_untime : forall bz r, time_text bz = true -> je_untime je bz = EOk r -> spaced jtext bz;
  jt_unmarshal : forall id g bz v w, je_unmarshal je id = Some g -> g bz v = EOk w -> spaced jtext bz
}.

(** Types of variables all of whose contents are overwritten. *)
Inductive overwritten (env : tenv) (je : jenv) : gotype -> Prop :=
| ow_over t : unread env je t ->
    match resolve env t with
    | RPrim _ | RTime | RMap _ _ | RIface _ => True
    | RSlice e => is_uint8 env e = false
    | RArray _ e => is_uint8 env e = true
    | _ => False
    end -> overwritten env je t
| ow_array t n e : unread env je t -> resolve env t = RArray n e -> overwritten env je e -> overwritten env je t
| ow_struct t fs : unread env je t -> resolve env t = RStruct fs -> (forall f, In f fs -> reset_field f) ->
    (forall f, In f fs -> overwritten env je (sf_type f)) -> overwritten env je t
| ow_ptr e : overwritten env je e -> overwritten env je (TPtr e).
