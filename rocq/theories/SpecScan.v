(** Specification: what a listing of a message shows. *)
From Coq Require Import ZArith String List Bool.
From Verif Require Import Base SpecWire Scan.
Import ListNotations.
Local Open Scope Z_scope.

(** A number of at most 64 bits in at most ten bytes, superfluous zero digits allowed. *)
Definition num64 (b : bytes) (u : Z) : Prop := leb128 b u /\ 0 <= u < 2 ^ 64 /\ (length b <= 10)%nat.

(** [listing bz l]: [bz] is a sequence of entries, and [l] has the parts of each one in
    order: the key plain, numbers and lengths cyan, fixed-size payloads blue, the rest of
    a length-delimited payload green. *)
Inductive listing : bytes -> list part -> Prop :=
| ls_nil : listing [] []
| ls_varint key num p u r l : num64 key (num * 8) -> num64 p u -> listing r l ->
    listing (key ++ p ++ r) ((Plain, key) :: (Cyan, p) :: l)
| ls_64 key num p r l : num64 key (num * 8 + 1) -> length p = 8%nat -> listing r l ->
    listing (key ++ p ++ r) ((Plain, key) :: (Blue, p) :: l)
| ls_len key num n p r l : num64 key (num * 8 + 2) -> num64 n (zlen p) -> zlen p < 2 ^ 63 -> listing r l ->
    listing (key ++ n ++ p ++ r) ((Plain, key) :: (Cyan, n) :: (Green, p) :: l)
| ls_32 key num p r l : num64 key (num * 8 + 5) -> length p = 4%nat -> listing r l ->
    listing (key ++ p ++ r) ((Plain, key) :: (Blue, p) :: l).
