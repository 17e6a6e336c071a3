(** Histories of operations on one codec (codec.go), run one after another. *)
From Coq Require Import ZArith String List Bool.
From Verif Require Import Base Prims Types Codec.
Import ListNotations.
Local Open Scope Z_scope.

(** One call.  [OUse t] is one type-information lookup (codec.go:366-390
    getTypeInfoWlock) as made by Marshal*/Unmarshal* calls, which touch the codec
    in no other way; whatever the lookup returns, the calls that follow see the
    codec it leaves. *)
Inductive op :=
| OIface (i : ifid) (o : option iopts)
| OConc (t : gotype) (name : bytes)
| OSeal
| OUse (t : gotype).

Definition step (env : tenv) (c : codec) (x : op) : rres :=
  match x with
  | OIface i o => register_interface env c i o
  | OConc t n => register_concrete env c t n
  | OSeal => (seal c, None)
  | OUse t => (fst (get_type_info_st env c t), None)
  end.

(** The codec after a history; panics are recovered by the caller. *)
Fixpoint run (env : tenv) (c : codec) (h : list op) : codec :=
  match h with
  | [] => c
  | x :: h' => run env (fst (step env c x)) h'
  end.

(** No call of the history panicked. *)
Fixpoint clean (env : tenv) (c : codec) (h : list op) : bool :=
  match h with
  | [] => true
  | x :: h' =>
      match step env c x with
      | (c', None) => clean env c' h'
      | (_, Some _) => false
      end
  end.
