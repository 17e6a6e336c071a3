(** Specification: two versions of a program, [A] that writes and [B] that reads.
    Any of the struct types may have grown or shrunk at the end. *)
From Coq Require Import ZArith String List Bool.
From Verif Require Import Base Types Codec Registry SpecRegistry SpecNorm SpecProto SpecStruct SpecVersion.
Import ListNotations.
Local Open Scope Z_scope.

(** Values without components. *)
Definition atomic (v : value) : Prop :=
  match v with
  | VBool _ | VInt _ | VUint _ | VFloat _ | VStr _ | VTime _ _
  | VSlice None | VPtr None | VIface None | VMap None | VFunc _ | VOther => True
  | _ => False
  end.

Section Kin.
  Variables A B : tenv.

  (** A field that [B] has and [A] has not. *)
  Definition appended (t : gotype) (g : sfield) : Prop :=
    exists fs gs, resolve A t = RStruct fs /\ resolve B t = RStruct (fs ++ gs) /\ In g gs.
  (** A field that [A] has and [B] has not. *)
  Definition dropped (t : gotype) (g : sfield) : Prop :=
    exists fs gs, resolve A t = RStruct (fs ++ gs) /\ resolve B t = RStruct fs /\ In g gs.

  (** [reread t v w]: the value [w] of [B] is the value [v] of [A], both of type [t], but in all
      structs in it, wherever they are, the fields which [B] has not are gone, and
      those which [A] has not are as a reader finds them when they are not in the bytes,
      or are zero in structs which themselves were not in the bytes. *)
  Inductive reread : gotype -> value -> value -> Prop :=
  | rr_atom t v : atomic v -> reread t v v
  | rr_arr t n e l m : resolve A t = RArray n e -> rereads e l m -> reread t (VArr l) (VArr m)
  | rr_slice t e l m : resolve A t = RSlice e -> rereads e l m -> reread t (VSlice (Some l)) (VSlice (Some m))
  | rr_ptr e v w : reread e v w -> reread (TPtr e) (VPtr (Some v)) (VPtr (Some w))
  | rr_iface t ct v w : reread ct v w -> reread t (VIface (Some (ct, v))) (VIface (Some (ct, w)))
  | rr_struct t fs ga gb l m xa xb :
      resolve A t = RStruct (fs ++ ga) -> resolve B t = RStruct (fs ++ gb) -> ga = [] \/ gb = [] ->
      reread_fields fs l m -> length xa = length ga ->
      xb = missing B gb \/ xb = map (fun g => zero B (sf_type g)) gb ->
      reread t (VStruct (l ++ xa)) (VStruct (m ++ xb))
  with rereads : gotype -> list value -> list value -> Prop :=
  | rrs_nil e : rereads e [] []
  | rrs_cons e v w l m : reread e v w -> rereads e l m -> rereads e (v :: l) (w :: m)
  with reread_fields : list sfield -> list value -> list value -> Prop :=
  | rrf_nil : reread_fields [] [] []
  | rrf_cons f fs v w l m : reread (sf_type f) v w -> reread_fields fs l m -> reread_fields (f :: fs) (v :: l) (w :: m).

  (** The declarations are the same, but for fields added or removed at the end of structs.  Neither
      the methods for interfaces nor the hash function differ.  Types with an
      UnmarshalAmino method have it in both versions, from the same type; given what is the
      same for both, they return what is the same for both. *)
  Record kin : Prop := {
    kin_def : forall id, te_def A id = te_def B id \/
      exists fs gs, (te_def A id = UStruct fs /\ te_def B id = UStruct (fs ++ gs)) \/
                    (te_def A id = UStruct (fs ++ gs) /\ te_def B id = UStruct fs);
    kin_impl : forall t i, te_impl A t i = te_impl B t i;
    kin_hash : forall b, te_hash A b = te_hash B b;
    kin_unmarshal : forall id,
      match te_unmarshal A id, te_unmarshal B id with
      | None, None => True
      | Some (UOk r f), Some (UOk r' g) => r = r' /\
          forall x y v, reread r x y -> f (zero A (TNamed id)) x = EOk (v, None) ->
          exists w, g (zero B (TNamed id)) y = EOk (w, None) /\ reread (TNamed id) v w
      | _, _ => False
      end
  }.
End Kin.

(** The reader [B] registers all that the writer [A] registers, under the same names.  It may register
    more, but under names with other prefixes, and not the type [t] that is written. *)
Record names_kept (A : tenv) (t : gotype) (ha hb : list op) : Prop := {
  nk_kept : forall x, In x (conc_calls ha) -> In x (conc_calls hb);
  nk_new : forall x y d d' p, In x (conc_calls ha) -> In y (conc_calls hb) ->
    disfix_of_hash (te_hash A (snd x)) d p -> disfix_of_hash (te_hash A (snd y)) d' p -> In y (conc_calls ha);
  nk_type : forall x, In x (conc_calls hb) -> conc_of (fst x) = deref_type t -> In x (conc_calls ha)
}.
