(** Property theorems: pointers are written as what they point to. *)
From Coq Require Import ZArith String List Bool Lia.
From Coq Require Import ZifyBool ZifyNat.
From Verif Require Import Base Prims SpecWire Types Codec BinEnc BinDec Amino Registry SpecRegistry RegistryFacts Sane Typing
  Demo DemoFacts SpecNorm EncFacts RoundTrip TopFacts SpecStruct SpecSupported SupportedFacts SpecPointer PointerFacts Properties_RoundTrip.
Import ListNotations.
Local Open Scope Z_scope.

(** ** C96 *)

(** A struct with pointers for some of its values, and other hidden fields, can be written
    exactly if the one with the values can, with the same bytes. *)
Theorem C96_pointers : forall env h, clean env new_codec h = true -> let c := run env new_codec h in
  forall k t t' fs fs' l l', resolve env t = RStruct fs -> resolve env t' = RStruct fs' -> has_method env t = false -> has_method env t' = false ->
  registered c t = None -> registered c t' = None -> pointed env fs l fs' l' ->
  forall bz, marshal_bare k env c t (VStruct l) = EOk bz <-> marshal_bare k env c t' (VStruct l') = EOk bz.
Proof.
  intros env h Hc c k t t' fs fs' l l' R R' M M' U U' S. exact (struct_pointed env c (sane_run env h) k t t' fs fs' l l' (wf_history env h Hc) R R' M M' U U' S).
Qed.
(** What was written with values is read with pointers, and the other way round. *)
Theorem C96_read_partial : forall env h mem, wf_env env -> marshal_typed env -> clean env new_codec h = true -> let c := run env new_codec h in supported env c mem ->
  forall k fd t t' fs fs' l l' bz, resolve env t = RStruct fs -> resolve env t' = RStruct fs' -> has_method env t = false -> has_method env t' = false ->
  registered c t = None -> registered c t' = None -> pointed env fs l fs' l' ->
  mem t = true -> mem t' = true -> has_type env t (VStruct l) = true -> has_type env t' (VStruct l') = true -> zlen bz < 2 ^ 63 -> (2 * k <= fd)%nat ->
  (marshal_bare k env c t (VStruct l) = EOk bz -> exists w, norm k env c t' (set_num 1 no_opts) (VStruct l') = Some w /\ unmarshal_bare fd env c bz t' (zero env t') = URet w None) /\
  (marshal_bare k env c t' (VStruct l') = EOk bz -> exists w, norm k env c t (set_num 1 no_opts) (VStruct l) = Some w /\ unmarshal_bare fd env c bz t (zero env t) = URet w None).
Proof.
  intros env h mem We Hm Hc c Hsup k fd t t' fs fs' l l' bz R R' M M' U U' S Hme Hme' Ht Ht' Hz Hfd.
  assert (X : forall t fs l, resolve env t = RStruct fs -> mem t = true -> has_type env t (VStruct l) = true -> marshal_bare k env c t (VStruct l) = EOk bz ->
    exists w, norm k env c t (set_num 1 no_opts) (VStruct l) = Some w /\ unmarshal_bare fd env c bz t (zero env t) = URet w None).
  { intros ty f0 l0 Rt Mt Tt H. assert (D : deref_type ty = ty) by (destruct ty; try reflexivity; discriminate Rt).
    assert (P : forall v, ptrs ty v = v) by (intros v; destruct ty; try reflexivity; discriminate Rt).
    destruct (C11_supported_partial env h mem We Hm Hc Hsup k fd ty (VStruct l0) bz) as (w & v' & Hu & Hn & Hd); try assumption.
    - rewrite D. exact Mt.
    - rewrite D. unfold struct_like. rewrite Rt. reflexivity.
    - injection Hu as <-. rewrite D in Hn. rewrite P in Hd. eauto. }
  pose proof (C96_pointers env h Hc k t t' fs fs' l l' R R' M M' U U' S bz) as E. split; intros H.
  - eapply X; eauto. apply E, H.
  - eapply X; eauto. apply E, H.
Qed.

(** type A struct { a int; X int; S *string; P P; Q P; W int `amino:"write_empty"` }
    type B struct { X *int; S **string; P *P; b string; Q P; W *int `amino:"write_empty"` }
    type P struct { Y int; Z bool }; type L struct { L []string }; type M struct { L *[]string } *)
Definition ptr_env : tenv :=
  {| te_def := fun id => match id with
       | 0%nat => UStruct [hidden "a" TInt; fld "X" TInt "" ""; fld "S" (TPtr TStr) "" ""; fld "P" (TNamed 2%nat) "" ""; fld "Q" (TNamed 2%nat) "" ""; fld "W" TInt "" "write_empty"]
       | 1%nat => UStruct [fld "X" (TPtr TInt) "" ""; fld "S" (TPtr (TPtr TStr)) "" ""; fld "P" (TPtr (TNamed 2%nat)) "" ""; hidden "b" TStr; fld "Q" (TNamed 2%nat) "" ""; fld "W" (TPtr TInt) "" "write_empty"]
       | 2%nat => UStruct [fld "Y" TInt "" ""; fld "Z" (TPrim PBool) "" ""]
       | 3%nat => UStruct [fld "L" (TSlice TStr) "" ""]
       | _ => UStruct [fld "L" (TPtr (TSlice TStr)) "" ""]
       end;
     te_zero := fun id => match id with
       | 0%nat => VStruct [VInt 0; VInt 0; VPtr None; VStruct [VInt 0; VBool false]; VStruct [VInt 0; VBool false]; VInt 0]
       | 1%nat => VStruct [VPtr None; VPtr None; VPtr None; VStr []; VStruct [VInt 0; VBool false]; VPtr None]
       | 2%nat => VStruct [VInt 0; VBool false]
       | 3%nat => VStruct [VSlice None]
       | _ => VStruct [VPtr None]
       end;
     te_impl := fun _ _ => false; te_marshal := fun _ => None; te_unmarshal := fun _ => None; te_hash := te_hash demo |}.
Definition t_val : gotype := TNamed 0%nat.
Definition t_ptr : gotype := TNamed 1%nat.
Lemma ptr_wf : wf_env ptr_env.
Proof.
  split.
  - intros [|[|[|[|id]]]]; cbn; discriminate.
  - intros [|[|[|[|id]]]]; reflexivity.
  - discriminate.
  - discriminate.
  - exact (we_hash_len _ demo_wf).
  - exact (we_hash_ok _ demo_wf).
Qed.
Lemma ptr_typed : marshal_typed ptr_env.
Proof. intros id r f v w X. discriminate X. Qed.
Definition ptr_types : list gotype := [TNamed 0%nat; TNamed 1%nat; TNamed 2%nat; TInt; TStr; TPrim PBool].
Definition ptr_mem (t : gotype) : bool := existsb (gotype_eqb t) ptr_types.
Lemma ptr_supported : supported ptr_env new_codec ptr_mem.
Proof.
  intros t H. unfold ptr_mem in H. apply existsb_exists in H. destruct H as (t' & H & Et). apply gotype_eqb_eq in Et. subst t'.
  split; [|destruct t; exact I].
  assert (F : forallb (type_ok ptr_env new_codec ptr_mem) ptr_types = true) by (vm_compute; reflexivity).
  rewrite forallb_forall in F. exact (F t H).
Qed.
Definition some (v : value) : value := VPtr (Some v).
Definition val_value : list value := [VInt 9; VInt 5; some (VStr [104]); VStruct [VInt 0; VBool true]; VStruct [VInt 0; VBool false]; VInt 0].
Definition ptr_value : list value := [some (VInt 5); some (some (VStr [104])); some (VStruct [VInt 0; VBool true]); VStr [122]; VStruct [VInt 0; VBool false]; some (VInt 0)].
Definition ptr_bytes : bytes := [8; 5; 18; 1; 104; 26; 2; 16; 1; 40; 0].
Lemma ptr_pointed : exists fs fs', resolve ptr_env t_val = RStruct fs /\ resolve ptr_env t_ptr = RStruct fs' /\ pointed ptr_env fs val_value fs' ptr_value.
Proof.
  do 2 eexists. split; [reflexivity|]. split; [reflexivity|]. unfold val_value, ptr_value. apply po_less; [reflexivity|].
  apply po_pointer; try reflexivity. { left. apply solid_int; [lia|reflexivity|reflexivity]. }
  apply po_pointer; try reflexivity. { right. right. reflexivity. }
  apply po_pointer; try reflexivity.
  { left. eapply (solid_struct _ _ _ _ 1%nat); try reflexivity. apply solid_true; reflexivity. }
  apply po_more; [reflexivity|]. apply po_same; try reflexivity.
  apply po_pointer; try reflexivity. { right. left. reflexivity. }
  apply po_nil.
Qed.
Example C96_example : wf_env ptr_env /\ marshal_typed ptr_env /\ supported ptr_env new_codec ptr_mem /\ ptr_mem t_val = true /\ ptr_mem t_ptr = true /\
  (exists fs fs', resolve ptr_env t_val = RStruct fs /\ resolve ptr_env t_ptr = RStruct fs' /\ pointed ptr_env fs val_value fs' ptr_value) /\
  registered new_codec t_val = None /\ registered new_codec t_ptr = None /\
  has_type ptr_env t_val (VStruct val_value) = true /\ has_type ptr_env t_ptr (VStruct ptr_value) = true /\
  marshal_bare 10 ptr_env new_codec t_val (VStruct val_value) = EOk ptr_bytes /\ marshal_bare 10 ptr_env new_codec t_ptr (VStruct ptr_value) = EOk ptr_bytes /\
  unmarshal_bare 20 ptr_env new_codec ptr_bytes t_ptr (zero ptr_env t_ptr) = URet (VStruct (firstn 3 ptr_value ++ [VStr []] ++ skipn 4 ptr_value)) None /\
  unmarshal_bare 20 ptr_env new_codec ptr_bytes t_val (zero ptr_env t_val) = URet (VStruct (VInt 0 :: skipn 1 val_value)) None.
Proof.
  split; [exact ptr_wf|]. split; [exact ptr_typed|]. split; [exact ptr_supported|]. do 2 (split; [reflexivity|]). split; [exact ptr_pointed|].
  do 7 (split; [vm_compute; reflexivity|]). vm_compute; reflexivity.
Qed.
(** A pointer to a blank struct is written, the blank struct is not; a pointer to 0 is not
    written either, and so comes back nil. *)
Theorem C96_blank_refuted : exists env t t' l l' b', wf_env env /\ t = t_val /\ t' = t_ptr /\ has_type env t (VStruct l) = true /\ has_type env t' (VStruct l') = true /\
  nth 3 l VInvalid = VStruct [VInt 0; VBool false] /\ nth 2 l' VInvalid = some (nth 3 l VInvalid) /\
  marshal_bare 10 env new_codec t (VStruct l) = EOk [40; 1] /\ marshal_bare 10 env new_codec t' (VStruct l') = EOk b' /\ b' = [26; 0; 40; 1] /\
  exists w, nth 0 l' VInvalid = some (VInt 0) /\ unmarshal_bare 20 env new_codec b' t' (zero env t') = URet (VStruct w) None /\ nth 0 w VInvalid = VPtr None.
Proof.
  exists ptr_env, t_val, t_ptr, [VInt 0; VInt 0; VPtr None; VStruct [VInt 0; VBool false]; VStruct [VInt 0; VBool false]; VInt 1],
    [some (VInt 0); VPtr None; some (VStruct [VInt 0; VBool false]); VStr []; VStruct [VInt 0; VBool false]; some (VInt 1)], [26; 0; 40; 1].
  split; [exact ptr_wf|]. do 9 (split; [vm_compute; reflexivity|]). exists [VPtr None; VPtr None; some (VStruct [VInt 0; VBool false]); VStr []; VStruct [VInt 0; VBool false]; some (VInt 1)].
  split; [reflexivity|]. split; vm_compute; reflexivity.
Qed.
(** A pointer to a list is written as one field with the elements, numbered 1, inside. *)
Theorem C96_list_refuted : exists env t t' l b b', wf_env env /\ t = TNamed 3%nat /\ t' = TNamed 4%nat /\ has_type env t (VStruct [l]) = true /\ has_type env t' (VStruct [some l]) = true /\
  marshal_bare 10 env new_codec t (VStruct [l]) = EOk b /\ marshal_bare 10 env new_codec t' (VStruct [some l]) = EOk b' /\ b = [10; 1; 97; 10; 1; 98] /\ b' = [10; 6; 10; 1; 97; 10; 1; 98].
Proof.
  exists ptr_env, (TNamed 3%nat), (TNamed 4%nat), (VSlice (Some [VStr [97]; VStr [98]])), [10; 1; 97; 10; 1; 98], [10; 6; 10; 1; 97; 10; 1; 98].
  split; [exact ptr_wf|]. do 7 (split; [vm_compute; reflexivity|]). vm_compute; reflexivity.
Qed.
Print Assumptions C96_blank_refuted.
Print Assumptions C96_list_refuted.
Print Assumptions C96_pointers.
Print Assumptions C96_read_partial.
