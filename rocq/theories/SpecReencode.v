(** Specification: the values whose encoding survives being read and written again.
    Reading replaces what takes no room on the wire by [absent] values; the encoding
    lasts if those take no room either.  The values that do not last are nil pointers to
    times in fields (read as pointers to the Unix epoch, which are written), and
    structs holding the epoch (or nothing else) that are left out (read as the year 1,
    which is written). *)
From Coq Require Import ZArith String List Bool.
From Verif Require Import Base Types Codec BinEnc SpecNorm.
Import ListNotations.
Local Open Scope Z_scope.

(** Written as an empty entry of a list. *)
Definition empty_entry (blank : gotype -> fopts -> value -> bool) (e : gotype) (o : fopts) (v : value) : bool :=
  defaultv v || match under v with Some w => blank (deref_type e) o w | None => true end.

Section Lasting.
  Variable env : tenv.
  Variable blank : gotype -> fopts -> value -> bool.
  Variable lasting : gotype -> fopts -> value -> Prop.

  (** Struct pointers of lists with the empty_elements tag are never absent. *)
  Definition lasting_entry (e : gotype) (o : fopts) (v : value) : Prop :=
    let keep := is_ptr e && is_struct env (deref_type e) && fo_empty_elements o in
    if empty_entry blank e (set_num 1 o) v && negb keep then exists j, empty_entry (SpecNorm.blank j env) e (set_num 1 o) (absent env e) = true
    else match under v with Some w => lasting (deref_type e) (set_num 1 o) w | None => True end.
  Definition lasting_packed (e : gotype) (o : fopts) (v : value) : Prop :=
    lasting (deref_type e) o (match under v with Some w => w | None => zero env (deref_type e) end).
  Definition lasting_elems (e : gotype) (o : fopts) (v : value) : Prop :=
    Forall (if delimited env e then lasting_entry e o else lasting_packed e o)
           match v with VArr l | VSlice (Some l) => l | _ => [] end.
  Definition lasting_field (t : gotype) (o : fopts) (v : value) : Prop :=
    if entries env t then match resolve env t with RArray _ e | RSlice e => lasting_elems e o v | _ => True end
    else if blank_field env blank t o v then exists j, blank_field env (SpecNorm.blank j env) t o (absent env t) = true
    else match under v with Some w => lasting (deref_type t) o w | None => True end.
  Fixpoint lasting_fields (num : Z) (fs : list sfield) (l : list value) : Prop :=
    match fs, l with
    | f :: fs', v :: l' =>
        match field_opts num f with
        | None => lasting_fields num fs' l'
        | Some o => lasting_field (sf_type f) o v /\ lasting_fields (num + 1) fs' l'
        end
    | _, _ => True
    end.
End Lasting.

(** [t] is not a pointer type.  Values of types with MarshalAmino and UnmarshalAmino
    methods must come back as they were. *)
Fixpoint lasting (k : nat) (env : tenv) (c : codec) (t : gotype) (o : fopts) (v : value) : Prop :=
  match k with
  | O => True
  | S k' =>
      if has_method env t then norm (S k') env c t o v = Some v
      else
        match resolve env t, v with
        | RArray _ e, _ | RSlice e, _ =>
            if is_uint8 env e then True else lasting_elems env (blank k' env) (lasting k' env c) e o v
        | RStruct fs, VStruct l => lasting_fields env (blank k' env) (lasting k' env c) 1 fs l
        | RIface _, VIface (Some (ct, cv)) =>
            match under cv with Some w => lasting k' env c (deref_type ct) o w | None => True end
        | _, _ => True
        end
  end.

(** ** Types all of whose values last *)
Section Steady.
  Variable env : tenv.
  Variable c : codec.
  Variable mem : gotype -> bool.    (* as in SpecSupported.v *)
  Variable calm : gotype -> bool.   (* types without times outside of pointers and lists *)

  (** If a value of the type can be left out, so can the zero value. *)
  Definition calm_ok (t : gotype) : Prop :=
    t <> TTime /\
    if has_method env t then
      forall k o v, has_type env t v = true -> blank k env t o v = true -> exists j, blank j env t o (zero env t) = true
    else match resolve env t with
         | RStruct fs => Forall (fun f => sf_exported f = true -> is_ptr (sf_type f) = false -> calm (sf_type f) = true) fs
         | _ => True
         end.
  Definition steady_elem (e : gotype) : bool := is_ptr e || gotype_eqb e TTime || calm e.
  Definition steady_field (t : gotype) : bool :=
    if entries env t then match resolve env t with RArray _ e | RSlice e => steady_elem e | _ => true end
    else if is_ptr t then negb (gotype_eqb (deref_type t) TTime)
    else gotype_eqb t TTime || calm t.
  (** Methods give back the value they were given. *)
  Definition steady_ok (t : gotype) : Prop :=
    if has_method env t then forall k o v v', has_type env t v = true -> norm k env c t o v = Some v' -> v' = v
    else match resolve env t with
         | RArray _ e | RSlice e => is_uint8 env e = true \/ delimited env e = false \/ steady_elem e = true
         | RStruct fs => Forall (fun f => sf_exported f = true -> steady_field (sf_type f) = true) fs
         | _ => True
         end.
  Definition steady : Prop := (forall t, mem t = true -> steady_ok t) /\ (forall t, calm t = true -> calm_ok t).
End Steady.
