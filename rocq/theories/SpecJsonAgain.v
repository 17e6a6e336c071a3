(** Specification: the values whose JSON text stays the same when it is read and
    written again.  Empty slices that are not nil do not (read as nil, written as null),
    nor do fields with omitempty that are omitted once what is not written is gone. *)
From Coq Require Import ZArith String List Bool.
From Verif Require Import Base Types Codec SpecNorm Json SpecJson.
Import ListNotations.
Local Open Scope Z_scope.

Section JLasting.
  Variable env : tenv.
  Variable jnorm : gotype -> value -> option value.
  Variable jlasting : gotype -> value -> Prop.

  (** A field that is written is written again. *)
  Definition jlasting_field (f : sfield) (v : value) : Prop :=
    match json_opts f with
    | None => True
    | Some o =>
        if fo_omitempty o && omitted env (sf_type f) v then True
        else jlasting (sf_type f) v /\
             (fo_omitempty o = true -> forall w, jnorm (sf_type f) v = Some w -> omitted env (sf_type f) w = false)
    end.
  Fixpoint jlasting_fields (fs : list sfield) (l : list value) : Prop :=
    match fs, l with
    | f :: fs', v :: l' => jlasting_field f v /\ jlasting_fields fs' l'
    | _, _ => True
    end.
  (** Types without methods. *)
  Definition jlasting_plain (t : gotype) (w : value) : Prop :=
    match resolve env t, w with
    | RArray _ e, VArr l => if is_uint8 env e then True else Forall (jlasting e) l
    | RSlice e, VSlice (Some l) => l <> [] /\ if is_uint8 env e then True else Forall (jlasting e) l
    | RStruct fs, VStruct l => jlasting_fields fs l
    | RMap _ vt, VMap (Some l) => Forall (fun p => jlasting vt (snd p)) l
    | RIface _, VIface (Some (ct, cv)) => match under cv with Some w => jlasting (deref_type ct) w | None => True end
    | _, _ => True
    end.
End JLasting.

(** Values of types with methods must come back as they were. *)
Fixpoint jlasting (k : nat) (env : tenv) (je : jenv) (c : codec) (t : gotype) (v : value) : Prop :=
  match k with
  | O => True
  | S k' =>
      let plain := jlasting_plain env (jnorm k' env je c) (jlasting k' env je c) (deref_type t) in
      match under v with
      | None => True
      | Some w =>
          match deref_type t with
          | TNamed id =>
              match je_marshal je id, te_marshal env id with
              | None, None => plain w
              | _, _ => jnorm (S k') env je c (deref_type t) w = Some w
              end
          | _ => plain w
          end
      end
  end.

(** ** Types whose values last unless they hold an empty slice *)

(** No empty slice other than nil. *)
Fixpoint full (v : value) : bool :=
  match v with
  | VSlice (Some []) => false
  | VArr l | VSlice (Some l) | VStruct l => forallb full l
  | VPtr (Some w) | VIface (Some (_, w)) => full w
  | VMap (Some l) => forallb (fun p => full (snd p)) l
  | _ => true
  end.
Section JSteady.
  Variable env : tenv.
  Variable je : jenv.
  Variable c : codec.
  Variable mem : gotype -> bool.   (* as in SpecJson.v *)

  Definition methods (t : gotype) : bool :=
    match t with
    | TNamed id => match je_marshal je id, te_marshal env id with None, None => false | _, _ => true end
    | _ => false
    end.
  (** The tag omitempty is on no structs, arrays, or types with methods; pointers to
      structs or arrays may have it. *)
  Definition jsteady_field (f : sfield) : bool :=
    match json_opts f with
    | Some o =>
        negb (fo_omitempty o) ||
        negb (methods (deref_type (sf_type f))) &&
        (is_ptr (sf_type f) || match resolve env (sf_type f) with RStruct _ | RArray _ _ => false | _ => true end)
    | None => true
    end.
  (** Methods give back the value they were given. *)
  Definition jsteady_ok (t : gotype) : Prop :=
    if methods t then forall k v v', has_type env t v = true -> jnorm k env je c t v = Some v' -> v' = v
    else match resolve env t with RStruct fs => forallb jsteady_field fs = true | _ => True end.
  Definition jsteady : Prop := forall t, mem t = true -> jsteady_ok t.
End JSteady.
