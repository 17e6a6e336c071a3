(** Model of the functions that produce text for people: codec.go [PrintTypes] and
    [getLengthStr], amino.go [Typ3.String]; the verbs of Go's fmt they use. *)
From Coq Require Import ZArith String List Bool.
From Verif Require Import Base Prims Types Codec Stream.
Import ListNotations.
Local Open Scope Z_scope.

(** fmt, verb %X of a byte slice, byte array or string: two digits for every byte. *)
Definition upper_digit (d : Z) : Z := if d <? 10 then 48 + d else 55 + d.
Definition hex_upper (b : bytes) : bytes := flat_map (fun x => [upper_digit (x / 16); upper_digit (x mod 16)]) b.
(** fmt, verb %X of an unsigned integer: no leading zeros. *)
Fixpoint hex_digits (k : nat) (z : Z) (acc : bytes) : bytes :=
  match k with
  | O => acc
  | S k' => if z <? 16 then upper_digit z :: acc else hex_digits k' (z / 16) (upper_digit (z mod 16) :: acc)
  end.
Definition hex_num (z : Z) : bytes := hex_digits 16 z [].

(** amino.go:110-131 [Typ3.String] *)
Definition typ3_string (t : Z) : bytes :=
  if t =? Typ3Varint then bs "(U)Varint"
  else if t =? Typ38Byte then bs "8Byte"
  else if t =? Typ3ByteLength then bs "ByteLength"
  else if t =? Typ3_4Byte then bs "4Byte"
  else bs "<Invalid Typ3 " ++ hex_num t ++ bs ">".

(** What reflect says about types: [Type.Name()], [Type.Size()] in bytes, and whether the
    kind is Complex64 or Complex128 (of the types [TOther] stands for). *)
Record penv := {
  pe_name : gotype -> bytes;
  pe_size : gotype -> Z;
  pe_complex : gotype -> bool
}.

(** codec.go:311-325 [getLengthStr] *)
Definition length_str (env : tenv) (pe : penv) (t : gotype) : bytes :=
  let sized := bs "0x" ++ hex_num (pe_size pe t) in
  match resolve env t with
  | RArray _ _ => sized
  | RPrim (PInt8 | PInt16 | PInt32 | PInt64 | PFloat32 | PFloat64) => sized
  | ROther => if pe_complex pe t then sized else bs "variable"
  | _ => bs "variable"
  end.

(** codec.go:262-268: the two strings of the header *)
Definition types_header : list bytes :=
  [bs "| Type | Name | Prefix | Length | Notes |" ++ [10]; bs "| ---- | ---- | ------ | ----- | ------ |" ++ [10]].
(** codec.go:269-306: the strings written for one registered type, in order *)
Definition types_row (env : tenv) (pe : penv) (ci : cinfo) : list bytes :=
  let '(name, prefix) := match ci_reg ci with Some r => (ri_name r, ri_prefix r) | None => ([], [0; 0; 0; 0]) end in
  [bs "| "; pe_name pe (ci_type ci); bs " | "; name; bs " | "; bs "0x" ++ hex_upper prefix; bs " | ";
   length_str env pe (ci_type ci); bs " | "; bs " |" ++ [10]].

(** codec.go:253-309 [PrintTypes]: strings are written one after another until the writer
    fails. *)
Section Print.
  Variable W : Type.
  Variable write : W -> bytes -> nat * option error * W.
  Fixpoint write_strings (w : W) (l : list bytes) : wres W :=
    match l with
    | [] => WRet None w
    | s :: l' => w_then W (w_write W write w s) (fun w' => write_strings w' l')
    end.
  Definition print_types (env : tenv) (pe : penv) (c : codec) (w : W) : wres W :=
    write_strings w (types_header ++ flat_map (types_row env pe) (cd_concretes c)).
End Print.
