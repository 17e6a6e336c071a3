(** Specification: what the tags of a struct field mean, read from the tag strings.
    Words of a tag stand between commas. *)
From Coq Require Import ZArith String List Bool.
From Verif Require Import Base SpecWire Types Codec SpecNorm SpecProto.
Import ListNotations.
Local Open Scope Z_scope.

Definition comma : Z := 44.
(** [s] is empty or ends (begins) with a comma. *)
Definition upto (s : bytes) : Prop := s = [] \/ exists a, s = a ++ [comma].
Definition onward (s : bytes) : Prop := s = [] \/ exists a, s = comma :: a.
(** The word [w] stands somewhere in the tag. *)
Definition listed (w : string) (tag : bytes) : Prop :=
  exists a b, tag = a ++ bs w ++ b /\ upto a /\ onward b.
(** The first word; the second word. *)
Definition first_word (w tag : bytes) : Prop :=
  ~ In comma w /\ exists b, tag = w ++ b /\ onward b.
Definition second_word (w : string) (tag : bytes) : Prop :=
  exists a b, ~ In comma a /\ tag = a ++ comma :: bs w ++ b /\ onward b.

(** Fields that are written at all: exported and not tagged [json:"-"]. *)
Definition written (f : sfield) : Prop := sf_exported f = true /\ sf_json f <> bs "-".

(** The options of field [f], which has number [num]. *)
Record documented (num : Z) (f : sfield) (o : fopts) : Prop := {
  do_num : fo_num o = num;
  do_fixed64 : fo_fixed64 o = true <-> sf_binary f = bs "fixed64";
  do_fixed32 : fo_fixed32 o = true <-> sf_binary f = bs "fixed32";
  do_unsafe : fo_unsafe o = true <-> listed "unsafe" (sf_amino f);
  do_write_empty : fo_write_empty o = true <-> listed "write_empty" (sf_amino f);
  do_empty_elements : fo_empty_elements o = true <-> listed "empty_elements" (sf_amino f);
  do_omitempty : fo_omitempty o = true <-> second_word "omitempty" (sf_json f);
  do_name : first_word [] (sf_json f) /\ fo_json_name o = sf_name f \/
            first_word (fo_json_name o) (sf_json f) /\ fo_json_name o <> []
}.

(** The field descriptions of a struct with fields [fs], of which the first stands
    at index [i] and the first written one has number [num]. *)
Inductive described (env : tenv) : nat -> Z -> list sfield -> list finfo -> Prop :=
| ds_nil i num : described env i num [] []
| ds_skip i num f fs infos : ~ written f -> described env (S i) num fs infos -> described env i num (f :: fs) infos
| ds_field i num f fs fi infos : written f ->
    fi_name fi = sf_name f -> fi_index fi = i -> fi_type fi = sf_type f ->
    fi_unpacked fi = entries env (sf_type f) -> documented num f (fi_opts fi) ->
    described env (S i) (num + 1) fs infos -> described env i num (f :: fs) (fi :: infos).

(** ** The encoding of integers *)

(** Number of the field at index [i]. *)
Fixpoint number_at (fs : list sfield) (i : nat) : Z :=
  match i, fs with
  | S i', f :: fs' => (if sf_exported f && negb (beqb (sf_json f) (bs "-")) then 1 else 0) + number_at fs' i'
  | _, _ => 1
  end.
(** [binary:"fixed64"] applies to 64-bit types, [binary:"fixed32"] to 32-bit types. *)
Definition tag_payload (tag : bytes) (p : prim) (v : value) : option payload :=
  match p, v with
  | PInt64, VInt z => Some (if beqb tag (bs "fixed64") then P64 (z mod 2 ^ 64) else Pvarint (z mod 2 ^ 64))
  | PUint64, VUint z => Some (if beqb tag (bs "fixed64") then P64 z else Pvarint z)
  | PInt32, VInt z => Some (if beqb tag (bs "fixed32") then P32 (z mod 2 ^ 32) else Pvarint (z mod 2 ^ 64))
  | PUint32, VUint z => Some (if beqb tag (bs "fixed32") then P32 z else Pvarint z)
  | PInt, VInt z => Some (Pvarint (z mod 2 ^ 64))
  | PUint, VUint z => Some (Pvarint z)
  | _, _ => None
  end.
