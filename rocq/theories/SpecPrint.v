(** Specification: hexadecimal and decimal text, and the table of registered types. *)
From Coq Require Import ZArith String List Bool.
From Verif Require Import Base Types Codec SpecRegistry Print.
Import ListNotations.
Local Open Scope Z_scope.

(** Upper case digits of base 16. *)
Definition hexits : bytes := bs "0123456789ABCDEF".
Definition hexit (d : Z) : Z := nth (Z.to_nat d) hexits 0.
(** [hex_text b s]: [s] has two digits for each byte of [b]. *)
Inductive hex_text : bytes -> bytes -> Prop :=
| ht_nil : hex_text [] []
| ht_byte hi lo b s : 0 <= hi < 16 -> 0 <= lo < 16 -> hex_text b s -> hex_text (hi * 16 + lo :: b) (hexit hi :: hexit lo :: s).
(** Value of a text of digits of base 16, and the text of a number: no superfluous zeros. *)
Inductive hex_number : Z -> bytes -> Prop :=
| hn_digit d : 0 <= d < 16 -> hex_number d [hexit d]
| hn_more n s d : hex_number n s -> 0 < n -> 0 <= d < 16 -> hex_number (n * 16 + d) (s ++ [hexit d]).

(** The kinds that have a fixed size in memory, as far as PrintTypes is concerned. *)
Definition sized_kind (env : tenv) (pe : penv) (t : gotype) : Prop :=
  (exists n e, resolve env t = RArray n e) \/
  (exists p, resolve env t = RPrim p /\ In p [PInt8; PInt16; PInt32; PInt64; PFloat32; PFloat64]) \/
  (resolve env t = ROther /\ pe_complex pe t = true).

(** The line for RegisterConcrete of a [t] under the name [name]. *)
Definition table_row (env : tenv) (pe : penv) (call : gotype * bytes) (row : bytes) : Prop :=
  let t := conc_of (fst call) in
  exists d p hex len, name_to_disfix env (snd call) = EOk (d, p) /\ hex_text p hex /\
    (sized_kind env pe t /\ (exists x, len = bs "0x" ++ x /\ hex_number (pe_size pe t) x) \/ ~ sized_kind env pe t /\ len = bs "variable") /\
    row = bs "| " ++ pe_name pe t ++ bs " | " ++ snd call ++ bs " | 0x" ++ hex ++ bs " | " ++ len ++ bs " |  |" ++ [10].
Definition table_head : bytes :=
  bs "| Type | Name | Prefix | Length | Notes |" ++ [10] ++ bs "| ---- | ---- | ------ | ----- | ------ |" ++ [10].
