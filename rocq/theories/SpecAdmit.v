(** Specification: the histories of codec calls in which no call panics, read off the
    calls alone. *)
From Coq Require Import ZArith String List Bool.
From Verif Require Import Base Types Codec Registry SpecRegistry SpecNorm SpecWritable.
Import ListNotations.

(** Types amino can describe: concrete types whose fields can be written and whose methods
    have the right shape. *)
Definition describable (env : tenv) (t : gotype) : bool :=
  parsable env t &&
  match t with
  | TPtr _ | TIface _ => false
  | TNamed id =>
      match te_marshal env id with Some (MBad _) | Some (MOk (TPtr _) _) => false | _ => true end &&
      match te_unmarshal env id with Some (UBad _) | Some (UOk (TPtr _) _) => false | _ => true end
  | _ => true
  end.
(** The hash of the name gives disambiguation bytes and a prefix. *)
Definition named (env : tenv) (name d p : bytes) : Prop := disfix_of_hash (te_hash env name) d p.

(** Priority lists, and the types found to implement an interface. *)
Definition listed (o : option iopts) : list bytes := match o with Some o => io_prio o | None => [] end.
Definition implementer (env : tenv) (i : ifid) (x : gotype * bytes) : bool := te_impl env (TPtr (conc_of (fst x))) i.

(** Before [x] in the history. *)
Definition earlier (h : list op) (y x : op) : Prop := exists h1 h2, h = h1 ++ x :: h2 /\ In y h1.
Definition registers (x : op) : bool := match x with OIface _ _ | OConc _ _ => true | _ => false end.

Record admissible (env : tenv) (h : list op) : Prop := {
  (* what is registered is a T or a *T that can be described, under a name that has a prefix *)
  ad_conc : forall t n, In (t, n) (conc_calls h) -> describable env (conc_of t) = true /\ exists d p, named env n d p;
  (* types and names are new *)
  ad_types : NoDup (map (fun x => conc_of (fst x)) (conc_calls h));
  ad_names : NoDup (map snd (conc_calls h));
  ad_disfix : forall x y d p, In x (conc_calls h) -> In y (conc_calls h) -> named env (snd x) d p -> named env (snd y) d p -> snd x = snd y;
  ad_iface : NoDup (map fst (iface_calls h));
  ad_prio : forall i o n, In (i, o) (iface_calls h) -> In n (listed o) -> exists d p, named env n d p;
  (* implementers of an interface with the same prefix are in its priority list *)
  ad_conflict : forall i o x y d d' p, In (i, o) (iface_calls h) -> In x (conc_calls h) -> In y (conc_calls h) -> x <> y ->
    implementer env i x = true -> implementer env i y = true -> named env (snd x) d p -> named env (snd y) d' p ->
    exists n a b, In n (listed o) /\ named env n a b /\ d ++ p = a ++ b;
  (* nothing is registered after Seal, and no type after its first use *)
  ad_seal : forall x, registers x = true -> ~ earlier h OSeal x;
  ad_use : forall t n u, earlier h (OUse u) (OConc t n) -> deref_type u <> conc_of t
}.
