(** Property theorems: pointers in struct fields are written in JSON as what they point to. *)
From Coq Require Import ZArith String List Bool Lia.
From Coq Require Import ZifyBool ZifyNat.
From Verif Require Import Base Prims SpecWire Types Codec BinEnc BinDec Amino Registry SpecRegistry RegistryFacts Sane Typing
  Demo DemoFacts SpecNorm SpecStruct SpecJson JsonText Json JsonTextFacts SpecArray SpecPointer SpecPointerJson PointerJsonFacts Properties_Json Properties_Pointer.
Import ListNotations.
Local Open Scope Z_scope.

(** ** C99 *)

(** The text of a struct is that of the struct with pointers in the place of values, and with more
    or fewer hidden fields. *)
Theorem C99_pointers : forall env h je, clean env new_codec h = true -> by_value je -> let c := run env new_codec h in
  forall k t t' fs fs' l l' b, resolve env t = RStruct fs -> resolve env t' = RStruct fs' -> has_method env t = false -> has_method env t' = false ->
  json_plain je t = true -> json_plain je t' = true -> registered c t = None -> registered c t' = None -> pointed env fs l fs' l' -> never_omitted fs ->
  marshal_json k env je c t (VStruct l) = EOk b -> marshal_json k env je c t' (VStruct l') = EOk b.
Proof.
  intros env h je Hc Hb c k t t' fs fs' l l' b R R' M M' J J' U U' P N.
  exact (json_pointed env c je Hb (sane_run env h) (wf_history env h Hc) k t t' fs fs' l l' b R R' M M' J J' U U' P N).
Qed.
(** A pointer passed to MarshalJSON in the place of a value: any type, registered or not, with or
    without methods, and any codec. *)
Theorem C99_argument : forall env je c k t v b, by_value je -> marshal_json k env je c t v = EOk b -> marshal_json k env je c (TPtr t) (VPtr (Some v)) = EOk b.
Proof.
  intros env je c k t v b Hb H. unfold marshal_json in *. change (get_type_info env c (TPtr t)) with (get_type_info env c t).
  destruct (get_type_info env c t) as [info| | |]; try discriminate H. cbn [ebind] in *.
  destruct (encode_json k env je c info v false no_opts) as [x| | |] eqn:E; try discriminate H. rewrite (encode_pointer env c je Hb k info v no_opts x E). exact H.
Qed.
(** What was written with values is read with pointers. *)
Theorem C99_read_partial : forall env je h mem, wf_env env -> marshal_typed env -> jenv_ok je -> by_value je -> clean env new_codec h = true ->
  let c := run env new_codec h in jsupported env je c mem ->
  forall k t t' fs fs' l l' b, resolve env t = RStruct fs -> resolve env t' = RStruct fs' -> has_method env t = false -> has_method env t' = false ->
  json_plain je t = true -> json_plain je t' = true -> registered c t = None -> registered c t' = None -> pointed env fs l fs' l' -> never_omitted fs ->
  mem t' = true -> has_type env t' (VStruct l') = true -> json_value (VStruct l') = true ->
  marshal_json k env je c t (VStruct l) = EOk b ->
  exists w, jnorm (S k) env je c t' (VStruct l') = Some w /\ forall m, (k < m)%nat -> unmarshal_json m env je c b t' (zero env t') = EOk w.
Proof.
  intros env je h mem We Hm Hj Hb Hc c Hs k t t' fs fs' l l' b R R' M M' J J' U U' P N Hme Ht Hv H.
  assert (D : deref_type t' = t') by (destruct t'; try reflexivity; discriminate R').
  assert (Ip : is_ptr t' = false) by (destruct t'; try reflexivity; discriminate R').
  apply (C49_supported_partial env je h mem We Hm Hj Hc Hs k t' (VStruct l') b).
  - unfold jpart_ok. rewrite D, Hme, Ip. reflexivity.
  - exact Ht.
  - exact Hv.
  - intros name ptr X. exfalso. rewrite D in X. unfold registration in X. unfold registered in U'. unfold c in U'. destruct (find _ _) as [ci|]; [|discriminate X]. destruct (ci_reg ci); discriminate.
  - exact (C99_pointers env h je Hc Hb k t t' fs fs' l l' b R R' M M' J J' U U' P N H).
Qed.

Definition ptr_je : jenv :=
  {| je_time := je_time jdemo_je; je_untime := je_untime jdemo_je; je_float := je_float jdemo_je; je_unfloat := je_unfloat jdemo_je;
     je_marshal := fun id => if (id =? 9)%nat then Some (true, fun _ => EOk (bs "true")) else None; je_unmarshal := fun _ => None |}.
Lemma ptr_by_value : by_value ptr_je.
Proof. intros id bv f H. cbn in H. destruct (id =? 9)%nat; [injection H as <- _; reflexivity|discriminate H]. Qed.
Lemma ptr_never : forall fs, resolve ptr_env t_val = RStruct fs -> never_omitted fs.
Proof. intros fs R f o X P. injection R as <-. repeat (destruct X as [<-|X]; [injection P as <-; reflexivity|]). contradiction X. Qed.
Lemma ptr_je_ok : jenv_ok ptr_je.
Proof.
  split.
  - exact (jo_time _ jdemo_je_ok).
  - exact (jo_untime _ jdemo_je_ok).
  - exact (jo_float _ jdemo_je_ok).
  - intros id bv f v b H. cbn in H. destruct (id =? 9)%nat; [injection H as <- <-|discriminate H]. intros E. injection E as <-.
    split; [exact jt_true|]. apply utf8_ascii. repeat (apply Forall_cons; [lia|]). apply Forall_nil.
Qed.
Lemma ptr_jsupported : jsupported ptr_env ptr_je new_codec ptr_mem.
Proof.
  intros t H. unfold ptr_mem in H. apply existsb_exists in H. destruct H as (t' & H & Et). apply gotype_eqb_eq in Et. subst t'.
  repeat (destruct H as [<-|H]; [vm_compute; reflexivity|]). destruct H.
Qed.
Definition ptr_text : bytes := bs "{""X"":""5"",""S"":""h"",""P"":{""Y"":""0"",""Z"":true},""Q"":{""Y"":""0"",""Z"":false},""W"":""0""}".
Example C99_example : by_value ptr_je /\ json_plain ptr_je t_val = true /\ json_plain ptr_je t_ptr = true /\
  (exists fs fs', resolve ptr_env t_val = RStruct fs /\ resolve ptr_env t_ptr = RStruct fs' /\ pointed ptr_env fs val_value fs' ptr_value) /\
  (forall fs, resolve ptr_env t_val = RStruct fs -> never_omitted fs) /\
  marshal_json 10 ptr_env ptr_je new_codec t_val (VStruct val_value) = EOk ptr_text /\ marshal_json 10 ptr_env ptr_je new_codec t_ptr (VStruct ptr_value) = EOk ptr_text /\
  wf_env ptr_env /\ marshal_typed ptr_env /\ jenv_ok ptr_je /\ jsupported ptr_env ptr_je new_codec ptr_mem /\ ptr_mem t_ptr = true /\ has_type ptr_env t_ptr (VStruct ptr_value) = true /\
  json_value (VStruct ptr_value) = true /\
  marshal_json 10 ptr_env ptr_je new_codec (TPtr t_val) (VPtr (Some (VStruct val_value))) = EOk ptr_text /\
  unmarshal_json 11 ptr_env ptr_je new_codec ptr_text t_ptr (zero ptr_env t_ptr) = EOk (VStruct (firstn 3 ptr_value ++ [VStr []] ++ skipn 4 ptr_value)).
Proof.
  split; [exact ptr_by_value|]. do 2 (split; [reflexivity|]). split; [exact ptr_pointed|]. split; [exact ptr_never|]. do 2 (split; [vm_compute; reflexivity|]).
  split; [exact ptr_wf|]. split; [exact ptr_typed|]. split; [exact ptr_je_ok|]. split; [exact ptr_jsupported|]. do 4 (split; [vm_compute; reflexivity|]). vm_compute; reflexivity.
Qed.

(** type B byte; type Q struct { A [2]B }; type T struct { Q Q `amino:"write_empty"` };
    type U struct { Q *Q `amino:"write_empty"` }; type V struct { N int `json:",omitempty" amino:"write_empty"` };
    type W struct { N *int `json:",omitempty" amino:"write_empty"` } *)
Definition omit_fields (t : gotype) : list sfield :=
  [{| sf_name := bs "N"; sf_exported := true; sf_type := t; sf_json := bs ",omitempty"; sf_binary := []; sf_amino := bs "write_empty" |}].
Definition addr_env : tenv :=
  {| te_def := fun id => match id with
       | 0%nat => UType (TPrim PUint8)
       | 1%nat => UStruct [fld "A" (TArray 2 (TNamed 0%nat)) "" ""]
       | 2%nat => UStruct [fld "Q" (TNamed 1%nat) "" "write_empty"]
       | 3%nat => UStruct [fld "Q" (TPtr (TNamed 1%nat)) "" "write_empty"]
       | 4%nat => UStruct (omit_fields TInt)
       | _ => UStruct (omit_fields (TPtr TInt))
       end;
     te_zero := fun id => match id with
       | 0%nat => VUint 0
       | 1%nat => VStruct [VArr [VUint 0; VUint 0]]
       | 2%nat => VStruct [VStruct [VArr [VUint 0; VUint 0]]]
       | 4%nat => VStruct [VInt 0]
       | _ => VStruct [VPtr None]
       end;
     te_impl := fun _ _ => false; te_marshal := fun _ => None; te_unmarshal := fun _ => None; te_hash := te_hash demo |}.
Lemma addr_wf : wf_env addr_env.
Proof.
  split.
  - intros [|[|[|[|[|id]]]]]; cbn; discriminate.
  - intros [|[|[|[|[|id]]]]]; reflexivity.
  - discriminate.
  - discriminate.
  - exact (we_hash_len _ demo_wf).
  - exact (we_hash_ok _ demo_wf).
Qed.
Definition addr_fields (t : gotype) : list sfield := [fld "Q" t "" "write_empty"].
Definition addr_value : value := VStruct [VArr [VUint 1; VUint 2]].
Lemma addr_pointed : pointed addr_env (addr_fields (TNamed 1%nat)) [addr_value] (addr_fields (TPtr (TNamed 1%nat))) [VPtr (Some addr_value)].
Proof. apply po_pointer; try reflexivity; [right; left; reflexivity|]. apply po_nil. Qed.
(** Behind a pointer an array of a declared byte type can be written, without it it cannot. *)
Theorem C99_converse_refuted : exists env je t t' fs fs' l l' p b, wf_env env /\ by_value je /\ resolve env t = RStruct fs /\ resolve env t' = RStruct fs' /\ pointed env fs l fs' l' /\
  has_type env t (VStruct l) = true /\ has_type env t' (VStruct l') = true /\
  marshal_json 10 env je new_codec t (VStruct l) = EPanic p /\ marshal_json 10 env je new_codec t' (VStruct l') = EOk b.
Proof.
  exists addr_env, ptr_je, (TNamed 2%nat), (TNamed 3%nat). do 2 eexists. exists [addr_value], [VPtr (Some addr_value)]. do 2 eexists.
  split; [exact addr_wf|]. split; [exact ptr_by_value|]. split; [reflexivity|]. split; [reflexivity|]. split; [exact addr_pointed|].
  do 3 (split; [vm_compute; reflexivity|]). vm_compute; reflexivity.
Qed.
(** A MarshalJSON method with a pointer as receiver is used behind a pointer only. *)
Definition recv_je : jenv :=
  {| je_time := je_time jdemo_je; je_untime := je_untime jdemo_je; je_float := je_float jdemo_je; je_unfloat := je_unfloat jdemo_je;
     je_marshal := fun id => if (id =? 2)%nat then Some (false, fun _ => EOk (bs "true")) else None; je_unmarshal := fun _ => None |}.
Theorem C99_receiver_refuted : exists env je t t' fs fs' l l' b b', wf_env env /\ resolve env t = RStruct fs /\ resolve env t' = RStruct fs' /\ pointed env fs l fs' l' /\
  json_plain je t = true /\ json_plain je t' = true /\
  marshal_json 10 env je new_codec t (VStruct l) = EOk b /\ marshal_json 10 env je new_codec t' (VStruct l') = EOk b' /\ b <> b'.
Proof.
  destruct ptr_pointed as (fs & fs' & R & R' & P). exists ptr_env, recv_je, t_val, t_ptr, fs, fs', val_value, ptr_value, ptr_text,
    (bs "{""X"":""5"",""S"":""h"",""P"":true,""Q"":{""Y"":""0"",""Z"":false},""W"":""0""}").
  split; [exact ptr_wf|]. split; [exact R|]. split; [exact R'|]. split; [exact P|]. do 4 (split; [vm_compute; reflexivity|]). discriminate.
Qed.
(** A pointer to 0 is not omitted. *)
Theorem C99_omitempty_refuted : exists env je t t' fs fs' l l' b b', wf_env env /\ by_value je /\ resolve env t = RStruct fs /\ resolve env t' = RStruct fs' /\ pointed env fs l fs' l' /\
  json_plain je t = true /\ json_plain je t' = true /\
  marshal_json 10 env je new_codec t (VStruct l) = EOk b /\ marshal_json 10 env je new_codec t' (VStruct l') = EOk b' /\ b <> b'.
Proof.
  exists addr_env, ptr_je, (TNamed 4%nat), (TNamed 5%nat), (omit_fields TInt), (omit_fields (TPtr TInt)), [VInt 0], [VPtr (Some (VInt 0))], (bs "{}"), (bs "{""N"":""0""}").
  split; [exact addr_wf|]. split; [exact ptr_by_value|]. split; [reflexivity|]. split; [reflexivity|].
  split; [apply po_pointer; try reflexivity; [right; left; reflexivity|]; apply po_nil|]. do 4 (split; [vm_compute; reflexivity|]). discriminate.
Qed.
Print Assumptions C99_omitempty_refuted.
Print Assumptions C99_pointers.
Print Assumptions C99_converse_refuted.
Print Assumptions C99_receiver_refuted.
Print Assumptions C99_read_partial.
Print Assumptions C99_argument.
