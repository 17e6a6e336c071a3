(** What a history of codec calls asks to be registered, read off the calls
    alone. *)
From Coq Require Import ZArith String List Bool.
From Verif Require Import Base Types Codec Registry.
Import ListNotations.

(** Arguments of the RegisterConcrete calls, in order. *)
Definition conc_calls (h : list op) : list (gotype * bytes) :=
  flat_map (fun x => match x with OConc t n => [(t, n)] | _ => [] end) h.
(** Arguments of the RegisterInterface calls, in order. *)
Definition iface_calls (h : list op) : list (ifid * option iopts) :=
  flat_map (fun x => match x with OIface i o => [(i, o)] | _ => [] end) h.

(** RegisterConcrete of a T or a *T registers T. *)
Definition conc_of (t : gotype) : gotype := match t with TPtr e => e | _ => t end.

(** Documented form of the bytes derived from a hash (codec.go:743-750): leading
    zeros dropped, three disambiguation bytes, zeros dropped, four prefix bytes. *)
Definition disfix_of_hash (h d p : bytes) : Prop :=
  exists i j rest, h = (repeat 0%Z i ++ d ++ repeat 0%Z j ++ p ++ rest)%list /\
    length d = 3%nat /\ length p = 4%nat /\ hd 0%Z d <> 0%Z /\ hd 0%Z p <> 0%Z.
