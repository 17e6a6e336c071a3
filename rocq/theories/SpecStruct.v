(** Specification: visible and hidden fields of structs, values that agree on
    what is visible, and variables whose hidden fields have not been touched.
    Nothing here looks at bytes. *)
From Coq Require Import ZArith String List Bool.
From Verif Require Import Base Types Codec BinDec Amino SpecNorm.
Import ListNotations.
Local Open Scope Z_scope.

(** Exported and not tagged json:"-". *)
Definition visible (f : sfield) : bool := sf_exported f && negb (beqb (sf_json f) (bs "-")).

Section Spec.
  Variable env : tenv.

  (** ** Agreement on visible parts

      Two values of a type that differ at most in hidden fields of structs,
      wherever these occur in them. *)
  Inductive alike : gotype -> value -> value -> Prop :=
  | alike_refl t v : alike t v v
  | alike_struct t fs l l' : resolve env t = RStruct fs -> alike_fields fs l l' -> alike t (VStruct l) (VStruct l')
  | alike_array t n e l l' : resolve env t = RArray n e -> alike_all e l l' -> alike t (VArr l) (VArr l')
  | alike_slice t e l l' : resolve env t = RSlice e -> alike_all e l l' -> alike t (VSlice (Some l)) (VSlice (Some l'))
  | alike_ptr e v v' : alike e v v' -> alike (TPtr e) (VPtr (Some v)) (VPtr (Some v'))
  | alike_iface i t v v' : alike t v v' -> alike (TIface i) (VIface (Some (t, v))) (VIface (Some (t, v')))
  with alike_all : gotype -> list value -> list value -> Prop :=
  | alike_nil e : alike_all e [] []
  | alike_cons e v v' l l' : alike e v v' -> alike_all e l l' -> alike_all e (v :: l) (v' :: l')
  with alike_fields : list sfield -> list value -> list value -> Prop :=
  | alike_done : alike_fields [] [] []
  | alike_shown f fs v v' l l' : visible f = true -> alike (sf_type f) v v' -> alike_fields fs l l' ->
      alike_fields (f :: fs) (v :: l) (v' :: l')
  | alike_hidden f fs v v' l l' : visible f = false -> alike_fields fs l l' ->
      alike_fields (f :: fs) (v :: l) (v' :: l').

  (** MarshalAmino methods, which are arbitrary Go code, look at visible parts only. *)
  Definition same_outcome (r : gotype) (a b : eres value) : Prop :=
    match a, b with EOk v, EOk w => alike r v w | _, _ => a = b end.
  Definition blind : Prop := forall id r f v w, te_marshal env id = Some (MOk r f) ->
    alike (TNamed id) v w -> same_outcome r (f v) (f w).

  (** ** Hidden fields of a variable

      [kept t old new]: a variable of type [t] went from [old] to [new] without
      change to its hidden fields, nor to those of the structs in its fields and
      arrays or behind its pointers; except that any visible field or array
      element may have been reset as a whole ([kept_reset]), and that
      UnmarshalAmino methods do what they like.  What a slice or interface held
      is not part of the variable. *)
  Definition atomic (t : gotype) : bool :=
    match resolve env t with RStruct _ | RArray _ _ | RPtr _ => false | _ => true end.
  Definition unmarshals (t : gotype) : bool :=
    match t with TNamed id => match te_unmarshal env id with Some _ => true | None => false end | _ => false end.

  Inductive kept : gotype -> value -> value -> Prop :=
  | kept_atomic t v w : atomic t = true -> kept t v w
  | kept_method t v w : unmarshals t = true -> kept t v w
  | kept_struct t fs l l' : resolve env t = RStruct fs -> kept_fields fs l l' -> kept t (VStruct l) (VStruct l')
  | kept_array t n e l l' : resolve env t = RArray n e -> kept_all e l l' -> kept t (VArr l) (VArr l')
  | kept_fresh e w : kept (TPtr e) (VPtr None) w
  | kept_ptr e v w : kept e v w -> kept (TPtr e) (VPtr (Some v)) (VPtr (Some w))
  | kept_reset t v w : w = zero env t \/ w = absent env t -> kept t v w
  with kept_all : gotype -> list value -> list value -> Prop :=
  | kept_nil e : kept_all e [] []
  | kept_cons e v v' l l' : kept e v v' -> kept_all e l l' -> kept_all e (v :: l) (v' :: l')
  with kept_fields : list sfield -> list value -> list value -> Prop :=
  | kept_done : kept_fields [] [] []
  | kept_shown f fs v v' l l' : visible f = true -> kept (sf_type f) v v' -> kept_fields fs l l' ->
      kept_fields (f :: fs) (v :: l) (v' :: l')
  | kept_hidden f fs v l l' : visible f = false -> kept_fields fs l l' ->
      kept_fields (f :: fs) (v :: l) (v :: l').

  (** ** Variables that can be decoded into: no visible interface variable is set.
      What slices hold does not matter, they are replaced. *)
  Fixpoint unset (t : gotype) (v : value) {struct v} : bool :=
    match resolve env t, v with
    | RIface _, VIface (Some _) => false
    | RPtr e, VPtr (Some w) => unset e w
    | RArray _ e, VArr l => forallb (unset e) l
    | RStruct fs, VStruct l => forall2b (fun f w => negb (visible f) || unset (sf_type f) w) fs l
    | _, _ => true
    end.

  (** UnmarshalAmino methods overwrite their receiver. *)
  Definition overwriting : Prop := forall id r g v v' w, te_unmarshal env id = Some (UOk r g) ->
    has_type env (TNamed id) v = true -> has_type env (TNamed id) v' = true -> g v w = g v' w.

  (** Two calls of Unmarshal with the same result, up to hidden fields. *)
  Definition usim (t : gotype) (r r' : ures) : Prop :=
    match r, r' with
    | URet v None, URet v' None => alike t v v'
    | URet _ (Some e), URet _ (Some e') => e = e'
    | UPanic p, UPanic p' => p = p'
    | UFuel, UFuel => True
    | _, _ => False
    end.
End Spec.
Scheme alike_ind' := Minimality for alike Sort Prop
  with alike_all_ind' := Minimality for alike_all Sort Prop
  with alike_fields_ind' := Minimality for alike_fields Sort Prop.
Combined Scheme alike_mut from alike_ind', alike_all_ind', alike_fields_ind'.
