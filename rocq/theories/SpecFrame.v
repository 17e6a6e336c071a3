(** Specification: the entries of a message as they stand on the wire, and the order
    of their numbers. *)
From Coq Require Import ZArith String List Bool.
From Verif Require Import Base SpecWire Types Codec SpecNorm SpecStruct.
Import ListNotations.
Local Open Scope Z_scope.

(** Payloads by wire type.  Varints may have superfluous zero digits, lengths not. *)
Inductive payload_of : Z -> bytes -> Prop :=
| po_varint b u : leb128 b u -> payload_of 0 b
| po_64 b : length b = 8%nat -> payload_of 1 b
| po_len l b : leb128_min l (zlen b) -> payload_of 2 (l ++ b)
| po_32 b : length b = 4%nat -> payload_of 5 b.

(** [bz] is a sequence of entries with the field numbers [ns]. *)
Inductive sequence : list Z -> bytes -> Prop :=
| sq_nil : sequence [] []
| sq_cons num wt key p ns r : 0 <= wt < 8 -> leb128 key (num * 8 + wt) -> payload_of wt p -> sequence ns r ->
    sequence (num :: ns) (key ++ p ++ r).

(** Numbers increase strictly, except that those in [R] may be repeated. *)
Fixpoint rising (R : Z -> Prop) (ns : list Z) : Prop :=
  match ns with
  | [] => True
  | a :: r => Forall (fun b => a < b \/ (a = b /\ R a)) r /\ rising R r
  end.

(** The visible fields of a struct type with their numbers. *)
Fixpoint numbered (num : Z) (fs : list sfield) : list (Z * sfield) :=
  match fs with
  | [] => []
  | f :: r => if visible f then (num, f) :: numbered (num + 1) r else numbered num r
  end.
Definition repeated (env : tenv) (fs : list sfield) (num : Z) : Prop :=
  exists f, In (num, f) (numbered 1 fs) /\ entries env (sf_type f) = true.

(** Non-pointer types read from one payload: scalars, strings, bytes, interfaces,
    packed lists and structs other than times, not read through UnmarshalAmino. *)
Definition one_payload (env : tenv) (t : gotype) : bool :=
  match t with TNamed id => match te_unmarshal env id with None => true | _ => false end | _ => true end &&
  match resolve env t with
  | RPrim _ | RIface _ | RStruct _ => true
  | RArray _ e | RSlice e => is_uint8 env e || negb (delimited env e)
  | _ => false
  end.
(** ... read from a length and a frame, which is then decoded by itself. *)
Definition in_frame (env : tenv) (t : gotype) : bool :=
  one_payload env t &&
  match resolve env t with
  | RIface _ | RStruct _ => true
  | RArray _ e | RSlice e => negb (is_uint8 env e)
  | _ => false
  end.
(** Field types: those, or lists of those with one entry per element. *)
Definition one_or_entries (env : tenv) (t : gotype) : bool :=
  if entries env t
  then match t with TNamed id => match te_unmarshal env id with None => true | _ => false end | _ => true end &&
       match resolve env t with RArray _ e | RSlice e => one_payload env (deref_type e) | _ => false end
  else one_payload env (deref_type t).
