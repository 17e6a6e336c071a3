(** A concrete Go program's declarations, used by the Examples, and the
    project's own test vectors run through the model (tests of the model, not
    proofs about it). *)
From Coq Require Import ZArith String List Bool.
From Verif Require Import Base Prims Types Codec BinEnc BinDec Amino Sha256.
Import ListNotations.
Local Open Scope Z_scope.

Definition fld (n : string) (t : gotype) (bin am : string) : sfield :=
  {| sf_name := bs n; sf_exported := true; sf_type := t; sf_json := []; sf_binary := bs bin; sf_amino := bs am |}.
Definition hidden (n : string) (t : gotype) : sfield :=
  {| sf_name := bs n; sf_exported := false; sf_type := t; sf_json := []; sf_binary := []; sf_amino := [] |}.

Definition TInt := TPrim PInt.
Definition TStr := TPrim PString.
Definition TByte := TPrim PUint8.

(** Type identifiers of the demo program. *)
Definition t_foo := TNamed 0%nat.       (* struct { A, B int } *)
Definition t_foos := TNamed 1%nat.      (* struct { Fs []Foo } *)
Definition t_inner := TNamed 2%nat.     (* binary_test.go InnerWriteEmpty *)
Definition t_outer := TNamed 3%nat.     (* binary_test.go OuterWriteEmpty *)
Definition t_bcmsg := TNamed 4%nat.     (* example_test.go bcMessage *)
Definition t_conc1 := TNamed 5%nat.     (* tests.Concrete1 *)
Definition t_conc2 := TNamed 6%nat.     (* tests.Concrete2 *)
Definition t_typedef := TNamed 7%nat.   (* tests.ConcreteTypeDef, [4]byte *)
Definition t_wrapped := TNamed 8%nat.   (* tests.ConcreteWrappedBytes *)
Definition t_hasif := TNamed 9%nat.     (* struct{ tests.Interface1 } *)
Definition t_node := TNamed 10%nat.     (* recursive: Val int64; Next *Node; Kids []Node; secret int *)
Definition t_all := TNamed 11%nat.      (* one field of every sort *)
Definition t_temp := TNamed 12%nat.     (* int32 with MarshalAmino to string *)
Definition t_temps := TNamed 13%nat.    (* struct{ A Temp; B *Temp } *)
Definition i_msg : ifid := 0%nat.   (* example_test.go Message: interface{} *)
Definition i_1 : ifid := 1%nat.     (* tests.Interface1 *)

Definition demo_def (id : tid) : udef :=
  match id with
  | 0%nat => UStruct [fld "A" TInt "" ""; fld "B" TInt "" ""]
  | 1%nat => UStruct [fld "Fs" (TSlice t_foo) "" ""]
  | 2%nat => UStruct [fld "ValIn" (TPrim PInt32) "fixed32" "write_empty"]
  | 3%nat => UStruct [fld "In" t_inner "" "write_empty"; fld "Val" TInt "fixed32" "write_empty"]
  | 4%nat => UStruct [fld "Message" TStr "" ""; fld "Height" TInt "" ""]
  | 7%nat => UType (TArray 4 TByte)
  | 8%nat => UStruct [fld "Value" (TSlice TByte) "" ""]
  | 9%nat => UStruct [fld "Interface1" (TIface i_1) "" ""]
  | 10%nat => UStruct [fld "Val" (TPrim PInt64) "fixed64" ""; fld "Next" (TPtr (TNamed 10%nat)) "" "";
                       hidden "secret" TInt; fld "Kids" (TSlice (TNamed 10%nat)) "" ""]
  | 11%nat => UStruct [fld "B" (TPrim PBool) "" ""; fld "I8" (TPrim PInt8) "" ""; fld "U" (TPrim PUint) "" "";
                       fld "F" (TPrim PFloat32) "" "unsafe"; fld "S" TStr "" ""; fld "T" TTime "" "";
                       fld "Bz" (TSlice TByte) "" ""; fld "Ar" (TArray 3 TInt) "" "";
                       fld "Ps" (TSlice (TPtr TInt)) "" ""; fld "Ss" (TSlice TStr) "" "";
                       fld "Fp" (TPtr t_foo) "" ""; fld "Fe" (TSlice (TPtr t_foo)) "" "empty_elements";
                       fld "If" (TIface i_msg) "" ""; fld "Is" (TSlice (TIface i_msg)) "" "";
                       fld "BB" (TSlice (TSlice TByte)) "" ""]
  | 12%nat => UType (TPrim PInt32)
  | 13%nat => UStruct [fld "A" (TNamed 12%nat) "" ""; fld "B" (TPtr (TNamed 12%nat)) "" ""]
  | _ => UStruct []
  end.

(** MarshalAmino of Temp: one 'a' per degree (panics below zero). *)
Definition temp_marshal (v : value) : eres value :=
  match v with
  | VInt z => if z <? 0 then EErr "negative"%string else EOk (VStr (repeat 97 (Z.to_nat z)))
  | _ => EPanic "not a Temp"%string
  end.
Definition temp_unmarshal (_ r : value) : eres (value * option error) :=
  match r with
  | VStr s => EOk (VInt (i32 (zlen s)), None)
  | _ => EPanic "not a string"%string
  end.

Definition demo_impl (t : gotype) (i : ifid) : bool :=
  match i with
  | 0%nat => true
  | 1%nat => match t with
             | TNamed id | TPtr (TNamed id) => (id =? 5)%nat || (id =? 6)%nat || (id =? 7)%nat || (id =? 8)%nat
             | _ => false
             end
  | _ => false
  end.

(** Zero values of the declared types, in dependency order. *)
Definition demo_zero (id : tid) : value :=
  let z0 := VStruct [VInt 0; VInt 0] in
  match id with
  | 0%nat => z0
  | 1%nat => VStruct [VSlice None]
  | 2%nat => VStruct [VInt 0]
  | 3%nat => VStruct [VStruct [VInt 0]; VInt 0]
  | 4%nat => VStruct [VStr []; VInt 0]
  | 7%nat => VArr [VUint 0; VUint 0; VUint 0; VUint 0]
  | 8%nat => VStruct [VSlice None]
  | 9%nat => VStruct [VIface None]
  | 10%nat => VStruct [VInt 0; VPtr None; VInt 0; VSlice None]
  | 11%nat => VStruct [VBool false; VInt 0; VUint 0; VFloat 0; VStr []; zero_time; VSlice None;
                       VArr [VInt 0; VInt 0; VInt 0]; VSlice None; VSlice None; VPtr None; VSlice None;
                       VIface None; VSlice None; VSlice None]
  | 12%nat => VInt 0
  | 13%nat => VStruct [VInt 0; VPtr None]
  | _ => VStruct []
  end.

Definition demo : tenv :=
  {| te_def := demo_def; te_zero := demo_zero; te_impl := demo_impl;
     te_marshal := fun id => if (id =? 12)%nat then Some (MOk TStr temp_marshal) else None;
     te_unmarshal := fun id => if (id =? 12)%nat then Some (UOk TStr temp_unmarshal) else None;
     te_hash := sha256 |}.

(** example_test.go: Message and bcMessage registered. *)
Definition codec_bc : codec :=
  fst (register_concrete demo (fst (register_interface demo new_codec i_msg None)) (TPtr t_bcmsg) (bs "bcMessage")).
(** reflect_test.go: Interface1 with four implementations. *)
Definition codec_1 : codec :=
  let c := fst (register_interface demo new_codec i_1 None) in
  let c := fst (register_concrete demo c t_conc1 (bs "Concrete1")) in
  let c := fst (register_concrete demo c t_conc2 (bs "Concrete2")) in
  let c := fst (register_concrete demo c t_typedef (bs "ConcreteTypeDef")) in
  fst (register_concrete demo c t_wrapped (bs "ConcreteWrappedBytes")).

Definition foo (a b : Z) : value := VStruct [VInt a; VInt b].

(** binary_test.go:160-190 TestStructSlice *)
Example foos_bytes :
  marshal_bare 10 demo new_codec t_foos (VStruct [VSlice (Some [foo 100 101; foo 102 103])])
  = EOk [0x0A; 0x04; 0x08; 0x64; 0x10; 0x65; 0x0A; 0x04; 0x08; 0x66; 0x10; 0x67].
Proof. vm_compute. reflexivity. Qed.
Example foos_back :
  unmarshal_bare 10 demo new_codec [0x0A; 0x04; 0x08; 0x64; 0x10; 0x65; 0x0A; 0x04; 0x08; 0x66; 0x10; 0x67]
                 t_foos (zero demo t_foos)
  = URet (VStruct [VSlice (Some [foo 100 101; foo 102 103])]) None.
Proof. vm_compute. reflexivity. Qed.

(** binary_test.go:138-158 TestForceWriteEmpty *)
Example outer_bytes :
  marshal_bare 10 demo new_codec t_outer (zero demo t_outer) = EOk [10; 5; 13; 0; 0; 0; 0; 16; 0].
Proof. vm_compute. reflexivity. Qed.
Example inner_bytes :
  marshal_bare 10 demo new_codec t_inner (zero demo t_inner) = EOk [13; 0; 0; 0; 0].
Proof. vm_compute. reflexivity. Qed.

(** binary_test.go:111-136 TestWriteEmpty *)
Example foo_empty : marshal_bare 10 demo new_codec t_foo (foo 0 0) = EOk [].
Proof. vm_compute. reflexivity. Qed.

(** example_test.go *)
Definition bc_abc : value := VStruct [VStr [65; 66; 67]; VInt 100].
Example bc_bytes :
  marshal_length_prefixed 10 demo codec_bc (TPtr t_bcmsg) (VPtr (Some bc_abc))
  = EOk [0x0B; 0x74; 0x06; 0x13; 0x65; 0x0A; 0x03; 0x41; 0x42; 0x43; 0x10; 0x64].
Proof. vm_compute. reflexivity. Qed.
Example bc_back :
  unmarshal_length_prefixed 10 demo codec_bc
    [0x0B; 0x74; 0x06; 0x13; 0x65; 0x0A; 0x03; 0x41; 0x42; 0x43; 0x10; 0x64] (TIface i_msg) (VIface None)
  = URet (VIface (Some (TPtr t_bcmsg, VPtr (Some bc_abc)))) None.
Proof. vm_compute. reflexivity. Qed.

(** reflect_test.go:208-229 TestCodecRegisterAndMarshalMultipleConcrete *)
Example conc1_bytes :
  marshal_bare 10 demo codec_1 t_hasif (VStruct [VIface (Some (t_conc1, VStruct []))])
  = EOk [0xa; 0x4; 0xe3; 0xda; 0xb8; 0x33].
Proof. vm_compute. reflexivity. Qed.
Example conc2_bytes :
  marshal_bare 10 demo codec_1 t_hasif (VStruct [VIface (Some (t_conc2, VStruct []))])
  = EOk [0xa; 0x4; 0x6a; 0x9; 0xca; 0x1].
Proof. vm_compute. reflexivity. Qed.

(** reflect_test.go:231-252 *)
Definition b0123 : value := VArr (bytes_val [0x30; 0x31; 0x32; 0x33]).
Definition typedef_enc : bytes := [0x11; 0x1e; 0x93; 0x82; 0xa; 0x4; 0x30; 0x31; 0x32; 0x33].
Example typedef_bytes : marshal_bare 10 demo codec_1 t_typedef b0123 = EOk typedef_enc.
Proof. vm_compute. reflexivity. Qed.
Example typedef_iface :
  unmarshal_bare 10 demo codec_1 typedef_enc (TIface i_1) (VIface None) = URet (VIface (Some (t_typedef, b0123))) None.
Proof. vm_compute. reflexivity. Qed.
Example typedef_conc :
  unmarshal_bare 10 demo codec_1 typedef_enc t_typedef (zero demo t_typedef) = URet b0123 None.
Proof. vm_compute. reflexivity. Qed.

(** reflect_test.go:254-277 *)
Example wrapped_bytes :
  marshal_bare 10 demo codec_1 t_wrapped (VStruct [VSlice (Some (bytes_val [0x30; 0x31; 0x32; 0x33]))])
  = EOk [0x49; 0x3f; 0xa0; 0x4b; 0xa; 0x4; 0x30; 0x31; 0x32; 0x33].
Proof. vm_compute. reflexivity. Qed.

Example demo_wf_zero : forall id, te_zero demo id = zero_of_def demo (te_def demo id).
Proof. intro id. do 14 (destruct id as [|id]; [vm_compute; reflexivity|]). reflexivity. Qed.
Example demo_wf_def : forall id, resolve demo (TNamed id) <> RBad.
Proof. intro id. do 14 (destruct id as [|id]; [vm_compute; discriminate|]). vm_compute. discriminate. Qed.
