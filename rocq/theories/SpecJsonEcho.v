(** Specification: types for which whatever UnmarshalJSON reads, MarshalJSON can write.
    Nothing here looks at texts. *)
From Coq Require Import ZArith String List Bool.
From Verif Require Import Base SpecWire Types Codec BinEnc SpecNorm SpecWritable SpecEcho Json SpecJson SpecJsonWritable.
Import ListNotations.
Local Open Scope Z_scope.

Section JEcho.
  Variable env : tenv.
  Variable je : jenv.
  Variable c : codec.
  Variable mem : gotype -> bool.     (* the set of types; it holds no pointer types *)
  Variable calm : gotype -> bool.    (* those that can be written without the unsafe tag *)

  (** Times and floats have a text, and interfaces hold values of registered types. *)
  Fixpoint jsendable (v : value) : bool :=
    match v with
    | VTime s ns => given (je_time je s ns)
    | VFloat b => given (je_float je PFloat32 b) && given (je_float je PFloat64 b)
    | VArr l | VStruct l | VSlice (Some l) => forallb jsendable l
    | VPtr (Some w) => jsendable w
    | VMap (Some l) => forallb (fun p => jsendable (snd p)) l
    | VIface (Some (ct, w)) =>
        mem (deref_type ct) && is_registered c (deref_type ct) &&
        match under w with Some _ => true | None => false end && jsendable w
    | _ => true
    end.
  Definition jtarget (t : gotype) (v : value) : Prop := has_type env t v = true /\ jsendable v = true.

  Definition jecho_part (t e : gotype) : Prop := mem (deref_type e) = true /\ (calm t = true -> calm (deref_type e) = true).
  Definition jecho_field (f : sfield) : bool :=
    match json_opts f with
    | Some o => mem (deref_type (sf_type f)) && (fo_unsafe o || calm (deref_type (sf_type f)))
    | None => true
    end.
  (** Types without methods. *)
  Definition jecho_plain (t : gotype) : Prop :=
    match resolve env t with
    | RPrim (PFloat32 | PFloat64) => calm t = false
    | RArray _ e | RSlice e => is_uint8 env e = true \/ jecho_part t e
    | RStruct fs => forallb jecho_field fs = true
    | RMap kt vt => resolve env kt = RPrim PString /\ jecho_part t vt
    | RIface i => forall ct, te_impl env ct i = true -> is_registered c (deref_type ct) = true -> jecho_part t ct
    | _ => True
    end.
  (** The methods that write accept all values considered, and those that read give such. *)
  Definition jecho_ok (t : gotype) : Prop :=
    known env c t = true /\
    match t with
    | TTime => forall b r, je_untime je b = EOk r -> jtarget TTime (VTime (fst r) (snd r))
    | TNamed id =>
        match je_marshal je id with
        | Some (_, f) => forall v, jtarget t v -> given (f v) = true
        | None => True
        end /\
        match je_marshal je id, te_marshal env id with
        | Some (true, _), _ => True
        | _, Some (MOk r f) =>
            (calm t = true -> calm r = true) /\
            forall v, jtarget t v -> exists w, f v = EOk w /\ jsendable w = true
        | _, _ => jecho_plain t
        end /\
        match je_unmarshal je id, te_unmarshal env id with
        | Some g, _ => forall b v v', bytes_ok b -> jtarget t v -> g b v = EOk v' -> jtarget t v'
        | None, Some (UOk r g) =>
            mem r = true /\
            forall v w v', jtarget t v -> jtarget r w -> g v w = EOk (v', None) -> jtarget t v'
        | None, _ => jecho_plain t
        end
    | _ => jecho_plain t
    end.
  (** The zero time and the zero of floats, which null stands for, have texts. *)
  Definition jechoes : Prop :=
    jsendable zero_time = true /\ jsendable (VFloat 0) = true /\
    forall t, mem t = true -> jecho_ok t.
End JEcho.
