(** Property theorems: arrays are written as slices of their elements. *)
From Coq Require Import ZArith String List Bool Lia.
From Coq Require Import ZifyBool ZifyNat.
From Verif Require Import Base Prims SpecWire Types Codec BinEnc BinDec Amino Registry SpecRegistry RegistryFacts Sane Typing
  Demo DemoFacts SpecNorm EncFacts RoundTrip TopFacts SpecStruct SpecSupported SupportedFacts JsonText Json SpecJson SpecArray ArrayFacts Properties_RoundTrip Properties_Json.
Import ListNotations.
Local Open Scope Z_scope.

(** ** C95 *)

(** An array can be written exactly if the slice of its elements can, with the same bytes;
    so can structs with arrays, and the same structs with such slices for some of them. *)
Theorem C95_lists : forall env h, clean env new_codec h = true -> let c := run env new_codec h in
  forall k t t' l, array_slice env t t' -> registered c t = None -> registered c t' = None ->
  forall bz, marshal_bare k env c t (VArr l) = EOk bz <-> marshal_bare k env c t' (VSlice (Some l)) = EOk bz.
Proof. intros env h Hc c k t t' l A U U'. exact (list_swapped env c (sane_run env h) k t t' l (wf_history env h Hc) A U U'). Qed.
Theorem C95_structs : forall env h, clean env new_codec h = true -> let c := run env new_codec h in
  forall k t t' fs fs' l l', resolve env t = RStruct fs -> resolve env t' = RStruct fs' -> has_method env t = false -> has_method env t' = false ->
  registered c t = None -> registered c t' = None -> swapped env fs l fs' l' ->
  forall bz, marshal_bare k env c t (VStruct l) = EOk bz <-> marshal_bare k env c t' (VStruct l') = EOk bz.
Proof.
  intros env h Hc c k t t' fs fs' l l' R R' M M' U U' S. exact (struct_swapped env c (sane_run env h) k t t' fs fs' l l' (wf_history env h Hc) R R' M M' U U' S).
Qed.
(** What was written with arrays is read with slices, and the other way round. *)
Theorem C95_read_partial : forall env h mem, wf_env env -> marshal_typed env -> clean env new_codec h = true -> let c := run env new_codec h in supported env c mem ->
  forall k fd t t' fs fs' l l' bz, resolve env t = RStruct fs -> resolve env t' = RStruct fs' -> has_method env t = false -> has_method env t' = false ->
  registered c t = None -> registered c t' = None -> swapped env fs l fs' l' ->
  mem t = true -> mem t' = true -> has_type env t (VStruct l) = true -> has_type env t' (VStruct l') = true -> zlen bz < 2 ^ 63 -> (2 * k <= fd)%nat ->
  (marshal_bare k env c t (VStruct l) = EOk bz -> exists w, norm k env c t' (set_num 1 no_opts) (VStruct l') = Some w /\ unmarshal_bare fd env c bz t' (zero env t') = URet w None) /\
  (marshal_bare k env c t' (VStruct l') = EOk bz -> exists w, norm k env c t (set_num 1 no_opts) (VStruct l) = Some w /\ unmarshal_bare fd env c bz t (zero env t) = URet w None).
Proof.
  intros env h mem We Hm Hc c Hsup k fd t t' fs fs' l l' bz R R' M M' U U' S Hme Hme' Ht Ht' Hz Hfd.
  assert (X : forall t fs l, resolve env t = RStruct fs -> mem t = true -> has_type env t (VStruct l) = true -> marshal_bare k env c t (VStruct l) = EOk bz ->
    exists w, norm k env c t (set_num 1 no_opts) (VStruct l) = Some w /\ unmarshal_bare fd env c bz t (zero env t) = URet w None).
  { intros ty f0 l0 Rt Mt Tt H. assert (D : deref_type ty = ty) by (destruct ty; try reflexivity; discriminate Rt).
    assert (P : forall v, ptrs ty v = v) by (intros v; destruct ty; try reflexivity; discriminate Rt).
    destruct (C11_supported_partial env h mem We Hm Hc Hsup k fd ty (VStruct l0) bz) as (w & v' & Hu & Hn & Hd); try assumption.
    - rewrite D. exact Mt.
    - rewrite D. unfold struct_like. rewrite Rt. reflexivity.
    - injection Hu as <-. rewrite D in Hn. rewrite P in Hd. eauto. }
  pose proof (C95_structs env h Hc k t t' fs fs' l l' R R' M M' U U' S bz) as E. split; intros H.
  - eapply X; eauto. apply E, H.
  - eapply X; eauto. apply E, H.
Qed.
(** In JSON a pointer to an array is written as one to a slice. *)
Theorem C95_json : forall env je h, clean env new_codec h = true -> let c := run env new_codec h in
  forall k t t' l, array_slice env t t' -> registered c t = None -> registered c t' = None -> json_plain je t = true -> json_plain je t' = true ->
  marshal_json k env je c (TPtr t) (VPtr (Some (VArr l))) = marshal_json k env je c (TPtr t') (VPtr (Some (VSlice (Some l)))).
Proof. intros env je h Hc c k t t' l A U U' J J'. exact (list_json env c (sane_run env h) je k t t' l (wf_history env h Hc) A U U' J J'). Qed.

(** type A struct { X int; N [2]int; P [2]P; B [3]byte; z int }
    type S struct { X int; N []int; P []P; B Bytes; z string }
    type P struct { Y int }; type Bytes []byte *)
Definition arr_env : tenv :=
  {| te_def := fun id => match id with
       | 0%nat => UStruct [fld "X" TInt "" ""; fld "N" (TArray 2 TInt) "" ""; fld "P" (TArray 2 (TNamed 2%nat)) "" ""; fld "B" (TArray 3 TByte) "" ""; hidden "z" TInt]
       | 1%nat => UStruct [fld "X" TInt "" ""; fld "N" (TSlice TInt) "" ""; fld "P" (TSlice (TNamed 2%nat)) "" ""; fld "B" (TNamed 3%nat) "" ""; hidden "z" TStr]
       | 2%nat => UStruct [fld "Y" TInt "" ""]
       | _ => UType (TSlice TByte)
       end;
     te_zero := fun id => match id with
       | 0%nat => VStruct [VInt 0; VArr [VInt 0; VInt 0]; VArr [VStruct [VInt 0]; VStruct [VInt 0]]; VArr [VUint 0; VUint 0; VUint 0]; VInt 0]
       | 1%nat => VStruct [VInt 0; VSlice None; VSlice None; VSlice None; VStr []]
       | 2%nat => VStruct [VInt 0]
       | _ => VSlice None
       end;
     te_impl := fun _ _ => false; te_marshal := fun _ => None; te_unmarshal := fun _ => None; te_hash := te_hash demo |}.
Definition t_arr : gotype := TNamed 0%nat.
Definition t_sli : gotype := TNamed 1%nat.
Lemma arr_wf : wf_env arr_env.
Proof.
  split.
  - intros [|[|[|id]]]; cbn; discriminate.
  - intros [|[|[|id]]]; reflexivity.
  - discriminate.
  - discriminate.
  - exact (we_hash_len _ demo_wf).
  - exact (we_hash_ok _ demo_wf).
Qed.
Lemma arr_typed : marshal_typed arr_env.
Proof. intros id r f v w X. discriminate X. Qed.
Definition arr_types : list gotype := [TNamed 0%nat; TNamed 1%nat; TNamed 2%nat; TNamed 3%nat; TInt; TByte; TArray 2 TInt; TSlice TInt; TArray 2 (TNamed 2%nat); TSlice (TNamed 2%nat); TArray 3 TByte].
Definition arr_mem (t : gotype) : bool := existsb (gotype_eqb t) arr_types.
Lemma arr_supported : supported arr_env new_codec arr_mem.
Proof.
  intros t H. unfold arr_mem in H. apply existsb_exists in H. destruct H as (t' & H & Et). apply gotype_eqb_eq in Et. subst t'.
  split; [|destruct t; exact I].
  assert (F : forallb (type_ok arr_env new_codec arr_mem) arr_types = true) by (vm_compute; reflexivity).
  rewrite forallb_forall in F. exact (F t H).
Qed.
Definition arr_value : list value := [VInt 1; VArr [VInt 5; VInt 0]; VArr [VStruct [VInt 0]; VStruct [VInt 300]]; VArr [VUint 0; VUint 1; VUint 2]; VInt 77].
Definition sli_value : list value := [VInt 1; VSlice (Some [VInt 5; VInt 0]); VSlice (Some [VStruct [VInt 0]; VStruct [VInt 300]]); VSlice (Some [VUint 0; VUint 1; VUint 2]); VStr (bs "z")].
Definition arr_bytes : bytes := [8; 1; 18; 2; 5; 0; 26; 0; 26; 3; 8; 172; 2; 34; 3; 0; 1; 2].
Lemma arr_swapped : exists fs fs', resolve arr_env t_arr = RStruct fs /\ resolve arr_env t_sli = RStruct fs' /\ swapped arr_env fs arr_value fs' sli_value.
Proof.
  do 2 eexists. split; [reflexivity|]. split; [reflexivity|].
  apply sw_same; try reflexivity. do 3 (apply sw_list; try reflexivity; [do 2 eexists; repeat split; reflexivity|]). apply sw_hidden; try reflexivity. apply sw_nil.
Qed.
Example C95_example : wf_env arr_env /\ marshal_typed arr_env /\ supported arr_env new_codec arr_mem /\ arr_mem t_arr = true /\ arr_mem t_sli = true /\
  (exists fs fs', resolve arr_env t_arr = RStruct fs /\ resolve arr_env t_sli = RStruct fs' /\ swapped arr_env fs arr_value fs' sli_value) /\
  registered new_codec t_arr = None /\ registered new_codec t_sli = None /\
  has_type arr_env t_arr (VStruct arr_value) = true /\ has_type arr_env t_sli (VStruct sli_value) = true /\
  marshal_bare 10 arr_env new_codec t_arr (VStruct arr_value) = EOk arr_bytes /\ marshal_bare 10 arr_env new_codec t_sli (VStruct sli_value) = EOk arr_bytes /\
  unmarshal_bare 20 arr_env new_codec arr_bytes t_sli (zero arr_env t_sli) = URet (VStruct (firstn 4 sli_value ++ [VStr []])) None /\
  unmarshal_bare 20 arr_env new_codec arr_bytes t_arr (zero arr_env t_arr) = URet (VStruct (firstn 4 arr_value ++ [VInt 0])) None /\
  array_slice arr_env (TArray 2 TInt) (TSlice TInt) /\
  marshal_bare 10 arr_env new_codec (TArray 2 TInt) (VArr [VInt 5; VInt 0]) = EOk [10; 2; 5; 0] /\
  marshal_json 10 arr_env jdemo_je new_codec (TPtr (TArray 2 TInt)) (VPtr (Some (VArr [VInt 5; VInt 0]))) = EOk (bs "[""5"",""0""]").
Proof.
  split; [exact arr_wf|]. split; [exact arr_typed|]. split; [exact arr_supported|]. do 2 (split; [reflexivity|]). split; [exact arr_swapped|].
  do 8 (split; [vm_compute; reflexivity|]). split; [do 2 eexists; repeat split; reflexivity|]. split; vm_compute; reflexivity.
Qed.
(** An array does not hold a slice with more elements, or fewer, unless it has none: then the
    array is zero. *)
Theorem C95_length_refuted : exists env t t' l1 l3 b1 b3 w1 w3 e1 e3, wf_env env /\ t = t_arr /\ t' = t_sli /\ has_type env t' (VStruct l1) = true /\ has_type env t' (VStruct l3) = true /\
  nth 1 l1 VInvalid = VSlice (Some [VInt 5]) /\ nth 1 l3 VInvalid = VSlice (Some [VInt 5; VInt 6; VInt 7]) /\
  marshal_bare 10 env new_codec t' (VStruct l1) = EOk b1 /\ unmarshal_bare 20 env new_codec b1 t (zero env t) = URet w1 (Some e1) /\
  marshal_bare 10 env new_codec t' (VStruct l3) = EOk b3 /\ unmarshal_bare 20 env new_codec b3 t (zero env t) = URet w3 (Some e3) /\
  marshal_bare 10 env new_codec t' (zero env t') = EOk [] /\ unmarshal_bare 20 env new_codec [] t (zero env t) = URet (zero env t) None.
Proof.
  exists arr_env, t_arr, t_sli, [VInt 0; VSlice (Some [VInt 5]); VSlice None; VSlice None; VStr []], [VInt 0; VSlice (Some [VInt 5; VInt 6; VInt 7]); VSlice None; VSlice None; VStr []],
    [18; 1; 5], [18; 3; 5; 6; 7]. do 4 eexists.
  split; [exact arr_wf|]. do 2 (split; [reflexivity|]). do 9 (split; [vm_compute; reflexivity|]). vm_compute; reflexivity.
Qed.
(** Passed by value, an array has elements that cannot be addressed, so MarshalJSON methods
    declared on the pointer are not used; those of a slice can be. *)
Theorem C95_json_value_refuted : exists env je t t' l b1 b2, wf_env env /\ jenv_ok je /\ array_slice env t t' /\ json_plain je t = true /\ json_plain je t' = true /\
  marshal_json 9 env je new_codec t (VArr l) = EOk b1 /\ marshal_json 9 env je new_codec t' (VSlice (Some l)) = EOk b2 /\ b1 <> b2.
Proof.
  exists jdemo, jdemo_je, (TArray 1 j_pflag), (TSlice j_pflag), [VBool true], (bs "[true]"), (bs "[""yes""]"). split; [exact jdemo_wf|]. split; [exact jdemo_je_ok|].
  split; [do 2 eexists; repeat split; reflexivity|]. do 4 (split; [vm_compute; reflexivity|]). discriminate.
Qed.
Print Assumptions C95_length_refuted.
Print Assumptions C95_json_value_refuted.
Print Assumptions C95_lists.
Print Assumptions C95_structs.
Print Assumptions C95_read_partial.
Print Assumptions C95_json.
