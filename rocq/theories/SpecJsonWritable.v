(** Specification: the values MarshalJSON accepts, and the types for which it never
    panics.  Nothing here looks at texts. *)
From Coq Require Import ZArith String List Bool.
From Verif Require Import Base Types Codec SpecNorm SpecWritable Json SpecJson.
Import ListNotations.
Local Open Scope Z_scope.

Definition given {A} (r : eres A) : bool := match r with EOk _ => true | _ => false end.

Section JWritable.
  Variable env : tenv.
  Variable je : jenv.
  Variable c : codec.
  Variable jwritable : gotype -> bool -> bool -> value -> bool.

  (** Fields that omitempty leaves out only need a known type. *)
  Fixpoint jwritable_fields (ad : bool) (fs : list sfield) (l : list value) : bool :=
    match fs, l with
    | f :: fs', v :: l' =>
        match json_opts f with
        | None => true
        | Some o => known env c (sf_type f) && (fo_omitempty o && omitted env (sf_type f) v || jwritable (sf_type f) ad (fo_unsafe o) v)
        end && jwritable_fields ad fs' l'
    | _, _ => true
    end.
  (** Lists of a declared byte type are copied, which needs an addressable list. *)
  Definition jwritable_list (ad adelem unsafe : bool) (e : gotype) (l : list value) : bool :=
    if is_uint8 env e then ad || gotype_eqb e (TPrim PUint8) else known env c e && forallb (jwritable e adelem unsafe) l.
  Definition jwritable_member (unsafe : bool) (vt : gotype) (v : value) : bool :=
    match under v with Some w => known env c vt && jwritable (deref_type vt) (val_is_ptr v) unsafe w | None => true end.
  (** Types without methods. *)
  Definition jwritable_plain (t : gotype) (ad unsafe : bool) (w : value) : bool :=
    match resolve env t, w with
    | RPrim ((PFloat32 | PFloat64) as p), VFloat b => unsafe && given (je_float je p b)
    | RPrim _, _ => true
    | RArray _ e, VArr l => jwritable_list ad ad unsafe e l
    | RSlice e, VSlice None => true
    | RSlice e, VSlice (Some l) => jwritable_list ad true unsafe e l
    | RStruct fs, VStruct l => jwritable_fields ad fs l
    | RMap kt vt, VMap o =>
        match resolve env kt with RPrim PString => true | _ => false end &&
        match o with None => true | Some l => forallb (fun p => jwritable_member unsafe vt (snd p)) l end
    | RIface _, VIface None => true
    | RIface _, VIface (Some (ct, cv)) =>
        match registered c (deref_type ct), under cv with
        | Some _, Some w => jwritable (deref_type ct) (val_is_ptr cv) unsafe w
        | _, _ => false
        end
    | _, _ => false
    end.
End JWritable.

(** [ad]: whether the value can be addressed, which methods with pointer receivers need;
    what a pointer points to can be.  [unsafe]: whether floats are allowed.  A nil pointer is
    written as null. *)
Fixpoint jwritable (k : nat) (env : tenv) (je : jenv) (c : codec) (t : gotype) (ad unsafe : bool) (v : value) : bool :=
  match k with
  | O => false
  | S k' =>
      match under v with
      | None => true
      | Some w =>
          let ad' := ad || val_is_ptr v in
          let plain := jwritable_plain env je c (jwritable k' env je c) (deref_type t) ad' unsafe w in
          match deref_type t with
          | TTime => match w with VTime s ns => given (je_time je s ns) | _ => false end
          | TNamed id =>
              let repr :=
                match te_marshal env id with
                | Some (MOk r f) => known env c r && match f w with EOk y => jwritable k' env je c r false unsafe y | _ => false end
                | _ => plain
                end in
              match je_marshal je id with
              | Some (byval, f) => if byval || ad' then given (f w) else repr
              | None => repr
              end
          | _ => plain
          end
      end
  end.
Definition jwritable_top (k : nat) (env : tenv) (je : jenv) (c : codec) (t : gotype) (v : value) : bool :=
  known env c t && jwritable k env je c t false false v.

(** ** Types for which MarshalJSON returns a text or an error *)

(** The result of a method that does not panic. *)
Definition calm {A} (r : eres A) : Prop := match r with EOk _ | EErr _ => True | _ => False end.
Section JSturdy.
  Variable env : tenv.
  Variable je : jenv.
  Variable mem : gotype -> bool.    (* the set; it holds no pointer types *)
  Variable rank : gotype -> nat.    (* decreases along MarshalAmino methods *)

  (** Interfaces hold no nil pointers, nor pointers to interfaces, nor values of
      types outside of the set. *)
  Fixpoint jfirm (v : value) : bool :=
    match v with
    | VArr l | VStruct l | VSlice (Some l) => forallb jfirm l
    | VPtr (Some w) => jfirm w
    | VMap (Some l) => forallb (fun p => jfirm (snd p)) l
    | VIface (Some (ct, w)) =>
        mem (deref_type ct) && negb (is_iface (deref_type ct)) &&
        match under w with Some _ => true | None => false end && jfirm w
    | _ => true
    end.
  (** MarshalAmino and UnmarshalAmino have the right shape. *)
  Definition shaped (t : gotype) : Prop :=
    match t with
    | TNamed id =>
        match te_marshal env id with Some (MBad _) => False | Some (MOk r _) => is_ptr r = false | None => True end /\
        match te_unmarshal env id with Some (UBad _) => False | Some (UOk r _) => is_ptr r = false | None => True end
    | _ => True
    end.
  Definition jsturdy_part (n : nat) (t : gotype) : bool := mem (deref_type t) && (rank (deref_type t) <=? n)%nat.
  Definition jsturdy_field (n : nat) (f : sfield) : bool := match json_opts f with Some _ => jsturdy_part n (sf_type f) | None => true end.
  Definition jsturdy_plain (t : gotype) : Prop :=
    match resolve env t with
    | RPrim _ => True
    | RArray _ e | RSlice e => (if is_uint8 env e then gotype_eqb e (TPrim PUint8) else jsturdy_part (rank t) e) = true
    | RStruct fs => forallb (jsturdy_field (rank t)) fs = true
    | RMap _ vt => jsturdy_part (rank t) vt = true
    | RIface i => forall ct, te_impl env ct i = true -> mem (deref_type ct) = true -> (rank (deref_type ct) <= rank t)%nat
    | _ => False
    end.
  Definition jsturdy_ok (t : gotype) : Prop :=
    parsable env t = true /\ shaped t /\
    match t with
    | TTime => forall s ns, calm (je_time je s ns)
    | TNamed id =>
        match je_marshal je id with
        | Some (_, f) => forall v, has_type env t v = true -> calm (f v)
        | None => True
        end /\
        match je_marshal je id with
        | Some (true, _) => True
        | _ =>
            match te_marshal env id with
            | None => jsturdy_plain t
            | Some (MOk r f) => mem r = true /\ (rank r < rank t)%nat /\
                forall v, has_type env t v = true -> calm (f v) /\ forall w, f v = EOk w -> jfirm w = true
            | Some (MBad _) => False
            end
        end
    | _ => jsturdy_plain t
    end.
  Definition jsturdy : Prop := (forall p b, calm (je_float je p b)) /\ forall t, mem t = true -> jsturdy_ok t.
End JSturdy.
