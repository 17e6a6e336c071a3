(** What it means for two objects to look alike, and to be separate.  Only the heap
    of DeepCopy.v is used, none of its functions that copy. *)
From Coq Require Import ZArith String List Bool.
From Verif Require Import Base Types DeepCopy.
Import ListNotations.

(** ** Looking alike *)

Inductive Forall3 {A B C} (R : A -> B -> C -> Prop) : list A -> list B -> list C -> Prop :=
| Forall3_nil : Forall3 R [] [] []
| Forall3_cons a b c la lb lc : R a b c -> Forall3 R la lb lc -> Forall3 R (a :: la) (b :: lb) (c :: lc).

Definition scalar (v : hvalue) : bool :=
  match v with HBool _ | HInt _ | HUint _ | HFloat _ | HStr _ => true | _ => false end.

(** [v1] in [h1] and [v2] in [h2], both of type [t], cannot be told apart by
    following at most [n] steps through exported fields, elements, pointers,
    interfaces and map entries: same scalars, same dynamic types, nil where the
    other is nil, same lengths, same entries. *)
Fixpoint alike (n : nat) (env : tenv) (h1 : heap) (t : gotype) (v1 : hvalue) (h2 : heap) (v2 : hvalue) : Prop :=
  match n with
  | O => True
  | S n' =>
      match resolve env t with
      | RPrim _ => v1 = v2 /\ scalar v1 = true
      | RTime => v1 = v2 /\ exists s ns, v1 = HTime s ns
      | RFunc => v1 = v2 /\ exists b, v1 = HFunc b
      | ROther => v1 = v2 /\ exists b, v1 = HOther b
      | RPtr e =>
          match v1, v2 with
          | HPtr None, HPtr None => True
          | HPtr (Some l1), HPtr (Some l2) =>
              exists x1 x2, load h1 l1 = Some x1 /\ load h2 l2 = Some x2 /\ alike n' env h1 e x1 h2 x2
          | _, _ => False
          end
      | RIface _ =>
          match v1, v2 with
          | HIface None, HIface None => True
          | HIface (Some (c1, x1)), HIface (Some (c2, x2)) => c1 = c2 /\ alike n' env h1 c1 x1 h2 x2
          | _, _ => False
          end
      | RArray _ e =>
          match v1, v2 with
          | HArr l1, HArr l2 => Forall2 (fun x1 x2 => alike n' env h1 e x1 h2 x2) l1 l2
          | _, _ => False
          end
      | RSlice e =>
          match v1, v2 with
          | HSlice None, HSlice None => True
          | HSlice (Some (l1, o1, k1)), HSlice (Some (l2, o2, k2)) =>
              exists es1 es2, load_slice h1 l1 o1 k1 = Some es1 /\ load_slice h2 l2 o2 k2 = Some es2 /\
                Forall2 (fun x1 x2 => alike n' env h1 e x1 h2 x2) es1 es2
          | _, _ => False
          end
      | RStruct fs =>
          match v1, v2 with
          | HStruct l1, HStruct l2 =>
              Forall3 (fun sf x1 x2 => sf_exported sf = true -> alike n' env h1 (sf_type sf) x1 h2 x2) fs l1 l2
          | _, _ => False
          end
      | RMap k e =>
          match v1, v2 with
          | HMap None, HMap None => True
          | HMap (Some a1), HMap (Some a2) =>
              exists es1 es2, load_map h1 a1 = Some es1 /\ load_map h2 a2 = Some es2 /\
                Forall2 (fun p1 p2 => alike n' env h1 k (fst p1) h2 (fst p2) /\ alike n' env h1 e (snd p1) h2 (snd p2)) es1 es2
          | _, _ => False
          end
      | RBad => False
      end
  end.

(** [v] is a well-formed object of type [t]: it looks like itself. *)
Definition object (env : tenv) (h : heap) (t : gotype) (v : hvalue) : Prop :=
  forall n, alike n env h t v h v.

(** ** Objects that can be copied *)

(** No DeepCopy method, and no MarshalAmino and UnmarshalAmino with which to copy. *)
Definition methodless (cm : cmethods) (t : gotype) : Prop :=
  cm_copy cm t = None /\ cm_amino cm (match t with TPtr e => e | _ => t end) = None.

(** The object is finite, at most [n] deep; its types have no methods for copying; nothing below a pointer is a nil
    pointer, interface or map; there are no non-nil functions or channels.  With
    [below] the value is what a pointer points to. *)
Fixpoint copyable (n : nat) (env : tenv) (cm : cmethods) (below : bool) (h : heap) (t : gotype) (v : hvalue) : Prop :=
  match n with
  | O => False
  | S n' =>
      if h_isnil v
      then below = false \/ (match resolve env t with RSlice _ => True | _ => False end)
      else
        (below = false -> methodless cm t) /\
        match resolve env t, v with
        | RPrim _, _ => True
        | RTime, HTime _ _ => True
        | RPtr e, HPtr (Some l) => exists x, load h l = Some x /\ copyable n' env cm true h e x
        | RIface _, HIface (Some (ct, x)) => copyable n' env cm false h ct x
        | RArray _ e, HArr l => Forall (fun x => copyable n' env cm false h e x) l
        | RSlice e, HSlice (Some (l, off, len)) =>
            exists es, load_slice h l off len = Some es /\ Forall (fun x => copyable n' env cm false h e x) es
        | RStruct fs, HStruct l => Forall2 (fun sf x => sf_exported sf = true -> copyable n' env cm false h (sf_type sf) x) fs l
        | RMap _ _, HMap (Some a) => exists es, load_map h a = Some es
        | _, _ => False
        end
  end.

(** ** Separation *)

(** The cells mentioned by a value. *)
Fixpoint refs (v : hvalue) : list nat :=
  match v with
  | HArr l | HStruct l => flat_map refs l
  | HPtr (Some (a, _)) => [a]
  | HSlice (Some ((a, _), _, _)) => [a]
  | HIface (Some (_, x)) => refs x
  | HMap (Some a) => [a]
  | _ => []
  end.
Definition cell_refs (c : cell) : list nat :=
  match c with
  | CVal v => refs v
  | CMap l => flat_map (fun p => refs (fst p) ++ refs (snd p)) l
  end.

(** The cells that can be reached from a value, through any field, exported or not. *)
Inductive reach (h : heap) (v : hvalue) : nat -> Prop :=
| reach_ref a : In a (refs v) -> reach h v a
| reach_step a c b : reach h v a -> nth_error h a = Some c -> In b (cell_refs c) -> reach h v b.

(** No cell mentions one that does not exist. *)
Definition closed (h : heap) (v : hvalue) : Prop :=
  (forall a, In a (refs v) -> (a < length h)%nat) /\
  (forall i c a, nth_error h i = Some c -> In a (cell_refs c) -> (a < length h)%nat).

(** No slice in the exported part, no map whose entries hold references, and no type
    with methods for copying; seen [n] steps deep. *)
Fixpoint sliceless (n : nat) (env : tenv) (cm : cmethods) (h : heap) (t : gotype) (v : hvalue) : Prop :=
  match n with
  | O => True
  | S n' =>
      methodless cm t /\
      match resolve env t, v with
      | RPtr e, HPtr (Some l) => forall x, load h l = Some x -> sliceless n' env cm h e x
      | RIface _, HIface (Some (ct, x)) => sliceless n' env cm h ct x
      | RArray _ e, HArr l => Forall (fun x => sliceless n' env cm h e x) l
      | RStruct fs, HStruct l => Forall2 (fun sf x => sf_exported sf = true -> sliceless n' env cm h (sf_type sf) x) fs l
      | RSlice _, HSlice (Some _) => False
      | RMap _ _, HMap (Some a) => forall es, load_map h a = Some es -> cell_refs (CMap es) = []
      | _, _ => True
      end
  end.

(** ** Methods for copying *)

(** Ways into an object: what a pointer points to, what an interface holds, an element or a
    field. *)
Inductive way := WPtr | WIface | WElem (i : nat).
Fixpoint follow (h : heap) (v : hvalue) (p : list way) : option hvalue :=
  match p with
  | [] => Some v
  | WPtr :: p' => match v with HPtr (Some l) => match load h l with Some x => follow h x p' | None => None end | _ => None end
  | WIface :: p' => match v with HIface (Some (_, x)) => follow h x p' | _ => None end
  | WElem i :: p' => match v with HArr l | HStruct l => match nth_error l i with Some x => follow h x p' | None => None end | _ => None end
  end.

(** [met env cm h direct addr t v p addr' t' x]: on the way [p] into [v] one meets [x] of type
    [t'], passing no slice, no map, no unexported field and nothing that has methods for
    copying itself.  [direct] is false for what a pointer points to, which is not met: the
    pointer is.  [addr]: whether the value is in a variable, so that it has an address. *)
Inductive met (env : tenv) (cm : cmethods) (h : heap) : bool -> bool -> gotype -> hvalue -> list way -> bool -> gotype -> hvalue -> Prop :=
| met_here addr t v : met env cm h true addr t v [] addr t v
| met_ptr direct addr t e l x p a' t' y : resolve env t = RPtr e -> (direct = true -> methodless cm t) -> load h l = Some x ->
    met env cm h false true e x p a' t' y -> met env cm h direct addr t (HPtr (Some l)) (WPtr :: p) a' t' y
| met_iface direct addr t i ct x p a' t' y : resolve env t = RIface i -> (direct = true -> methodless cm t) ->
    met env cm h true false ct x p a' t' y -> met env cm h direct addr t (HIface (Some (ct, x))) (WIface :: p) a' t' y
| met_elem direct addr t n e l i x p a' t' y : resolve env t = RArray n e -> (direct = true -> methodless cm t) ->
    match resolve env e with RPrim _ => False | _ => True end -> nth_error l i = Some x ->
    met env cm h true addr e x p a' t' y -> met env cm h direct addr t (HArr l) (WElem i :: p) a' t' y
| met_field direct addr t fs f l i x p a' t' y : resolve env t = RStruct fs -> (direct = true -> methodless cm t) ->
    nth_error fs i = Some f -> sf_exported f = true -> nth_error l i = Some x ->
    met env cm h true addr (sf_type f) x p a' t' y -> met env cm h direct addr t (HStruct l) (WElem i :: p) a' t' y.

(** The first [b] cells are as before, and none is lost. *)
Definition keeps (b : nat) (h h' : heap) : Prop :=
  (length h <= length h')%nat /\ forall i, (i < b)%nat -> nth_error h' i = nth_error h i.
(** Methods that write only to variables of their own; UnmarshalAmino also to its receiver
    and to what was made after it. *)
Record tame (cm : cmethods) : Prop := {
  tame_copy : forall t ot f h v h' x, cm_copy cm t = Some (ot, f) -> f h v = COk h' x -> keeps (length h) h h';
  tame_marshal : forall t mar unm h v h' r, cm_amino cm t = Some (mar, unm) -> mar h v = COk h' r -> keeps (length h) h h';
  tame_unmarshal : forall t mar unm h a r h' e, cm_amino cm t = Some (mar, unm) -> unm h (HPtr (Some (a, []))) r = COk h' e -> keeps a h h'
}.
