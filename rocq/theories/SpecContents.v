(** Specification: the contents of a value, that is the scalars, strings and byte
    lists in it that are not default, each as the payload that proto3 has for
    it, in order; and what it means that they are all present in a byte string. *)
From Coq Require Import ZArith String List Bool.
From Verif Require Import Base SpecWire Types Codec SpecNorm SpecProto.
Import ListNotations.
Local Open Scope Z_scope.

Definition elements (v : value) : list value :=
  match v with VArr l | VSlice (Some l) => l | _ => [] end.
Definition uints (l : list value) : bytes := map (fun v => match v with VUint z => z | _ => 0 end) l.

Section Contents.
  Variable env : tenv.
  Variable contents : gotype -> fopts -> value -> list payload.
  (** A part that is default (nil, zero, empty) has no contents. *)
  Definition part_contents (t : gotype) (o : fopts) (v : value) : list payload :=
    if defaultv v then [] else match under v with Some w => contents (deref_type t) o w | None => [] end.
  (** Lists written as entries ignore the methods of the list type. *)
  Definition one_field (t : gotype) (o : fopts) (v : value) : list payload :=
    match resolve env t with
    | RArray _ e | RSlice e => if entries env t then flat_map (part_contents e o) (elements v) else part_contents t o v
    | _ => part_contents t o v
    end.
  Fixpoint field_contents (num : Z) (fs : list sfield) (l : list value) : list payload :=
    match fs, l with
    | f :: fs', v :: l' =>
        match field_opts num f with
        | None => field_contents num fs' l'
        | Some o => one_field (sf_type f) o v ++ field_contents (num + 1) fs' l'
        end
    | _, _ => []
    end.
End Contents.

(** [t] is not a pointer type.  Parts deeper than [k] are not counted. *)
Fixpoint contents (k : nat) (env : tenv) (t : gotype) (o : fopts) (v : value) : list payload :=
  match k with
  | O => []
  | S k' =>
      let plain :=
        match resolve env t, v with
        | RPrim p, _ => match prim_wire p o v with Some q => if zero_payload q then [] else [q] | None => [] end
        | RTime, VTime s ns => map snd (time_entries s ns)
        | RArray _ e, _ | RSlice e, _ =>
            if is_uint8 env e then match elements v with [] => [] | l => [Plen (uints l)] end
            else flat_map (part_contents (contents k' env) e o) (elements v)
        | RStruct fs, VStruct l => field_contents env (contents k' env) 1 fs l
        | RIface _, VIface (Some (ct, cv)) => match under cv with Some w => contents k' env (deref_type ct) o w | None => [] end
        | _, _ => []
        end in
      match t with
      | TNamed id =>
          match te_marshal env id with
          | Some (MOk r f) => match f v with EOk w => contents k' env r o w | _ => [] end
          | _ => plain
          end
      | _ => plain
      end
  end.

(** All payloads are in the bytes, in this order and without overlap. *)
Inductive present : list payload -> bytes -> Prop :=
| present_nil b : present [] b
| present_cons q qs skip b rest : payload_bytes q b -> present qs rest -> present (q :: qs) (skip ++ b ++ rest).
