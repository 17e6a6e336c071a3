(** Property theorems: a value that is not a struct is written as the struct with it as only field. *)
From Coq Require Import ZArith String List Bool Lia.
From Coq Require Import ZifyBool ZifyNat.
From Verif Require Import Base Prims SpecWire Types Codec BinEnc BinDec Amino Registry SpecRegistry RegistryFacts Sane Typing
  Demo DemoFacts SpecNorm EncFacts RoundTrip TopFacts SpecStruct SpecSupported SupportedFacts SpecLone LoneFacts Properties_RoundTrip.
Import ListNotations.
Local Open Scope Z_scope.

(** ** C97 *)

(** The same bytes are written for the value alone and for a struct with it in its only visible
    field, or neither can be written. *)
Theorem C97_only_field : forall env h, clean env new_codec h = true -> let c := run env new_codec h in
  forall t t' v fs l, registered c t = None -> registered c t' = None -> lone env c t = true -> has_type env t v = true ->
  resolve env t' = RStruct fs -> has_method env t' = false -> holds_only t v fs l ->
  forall bz, (exists k, marshal_bare k env c t v = EOk bz) <-> (exists k, marshal_bare k env c t' (VStruct l) = EOk bz).
Proof. intros env h Hc c t t' v fs l U U' L Ht R M H. exact (lone_struct env c (sane_run env h) t t' v fs l (wf_history env h Hc) U U' L Ht R M H). Qed.
(** What was written for the value alone is read as such a struct, one with the normal form of
    the value. *)
Theorem C97_read_partial : forall env h mem, wf_env env -> marshal_typed env -> clean env new_codec h = true -> let c := run env new_codec h in supported env c mem ->
  forall t t' v fs l k bz, registered c t = None -> registered c t' = None -> lone env c t = true -> has_type env t v = true ->
  resolve env t' = RStruct fs -> has_method env t' = false -> holds_only t v fs l -> mem t' = true -> has_type env t' (VStruct l) = true -> zlen bz < 2 ^ 63 ->
  marshal_bare k env c t v = EOk bz ->
  exists k' w, norm k' env c t' (set_num 1 no_opts) (VStruct l) = Some w /\ forall fd, (2 * k' <= fd)%nat -> unmarshal_bare fd env c bz t' (zero env t') = URet w None.
Proof.
  intros env h mem We Hm Hc c Hsup t t' v fs l k bz U U' L Ht R M H Hme Ht' Hz E.
  destruct (proj1 (C97_only_field env h Hc t t' v fs l U U' L Ht R M H bz) (ex_intro _ k E)) as [k' E'].
  assert (D : deref_type t' = t') by (destruct t'; try reflexivity; discriminate R). assert (P : forall v, ptrs t' v = v) by (intros x; destruct t'; try reflexivity; discriminate R).
  assert (X : forall fd, (2 * k' <= fd)%nat -> exists w, norm k' env c t' (set_num 1 no_opts) (VStruct l) = Some w /\ unmarshal_bare fd env c bz t' (zero env t') = URet w None).
  { intros fd Hfd. destruct (C11_supported_partial env h mem We Hm Hc Hsup k' fd t' (VStruct l) bz) as (w & v' & Hu & Hn & Hd); try assumption.
    - rewrite D. exact Hme.
    - rewrite D. unfold struct_like. rewrite R. reflexivity.
    - injection Hu as <-. rewrite D in Hn. rewrite P in Hd. eauto. }
  destruct (X (2 * k')%nat ltac:(lia)) as (w & Hw & _). exists k', w. split; [exact Hw|]. intros fd Hfd. destruct (X fd Hfd) as (w' & Hw' & Hd). congruence.
Qed.
(** What was written for such a struct with a list of structs is read as the list alone. *)
Theorem C97_read_alone_partial : forall env h mem, wf_env env -> marshal_typed env -> clean env new_codec h = true -> let c := run env new_codec h in supported env c mem ->
  forall t t' v fs l k bz, registered c t = None -> registered c t' = None -> lone env c t = true -> has_type env t v = true ->
  resolve env t' = RStruct fs -> has_method env t' = false -> holds_only t v fs l -> mem t = true -> struct_like env t = true -> zlen bz < 2 ^ 63 ->
  marshal_bare k env c t' (VStruct l) = EOk bz ->
  exists k' w, norm k' env c t (set_num 1 no_opts) v = Some w /\ forall fd, (2 * k' <= fd)%nat -> unmarshal_bare fd env c bz t (zero env t) = URet w None.
Proof.
  intros env h mem We Hm Hc c Hsup t t' v fs l k bz U U' L Ht R M H Hme Sl Hz E.
  destruct (proj2 (C97_only_field env h Hc t t' v fs l U U' L Ht R M H bz) (ex_intro _ k E)) as [k' E'].
  assert (D : deref_type t = t) by (destruct t; try reflexivity; discriminate Sl). assert (P : forall v, ptrs t v = v) by (intros x; destruct t; try reflexivity; discriminate Sl).
  assert (Un : under v = Some v).
  { unfold struct_like in Sl. destruct v; try reflexivity. destruct t; try discriminate Sl; cbn [has_type] in Ht; try discriminate Ht.
    destruct (resolve env (TNamed id)) as [p| | | | | | | | | |]; try discriminate Ht; discriminate Sl. }
  assert (X : forall fd, (2 * k' <= fd)%nat -> exists w, norm k' env c t (set_num 1 no_opts) v = Some w /\ unmarshal_bare fd env c bz t (zero env t) = URet w None).
  { intros fd Hfd. destruct (C11_supported_partial env h mem We Hm Hc Hsup k' fd t v bz) as (w & v' & Hu & Hn & Hd); try assumption.
    - rewrite D. exact Hme.
    - rewrite D. exact Sl.
    - rewrite Un in Hu. injection Hu as <-. rewrite D in Hn. rewrite P in Hd. eauto. }
  destruct (X (2 * k')%nat ltac:(lia)) as (w & Hw & _). exists k', w. split; [exact Hw|]. intros fd Hfd. destruct (X fd Hfd) as (w' & Hw' & Hd). congruence.
Qed.

(** type P struct { Y int }; type A struct { z string; L []P; y int }; type B struct { N int };
    type S struct { L []string } *)
Definition lone_env : tenv :=
  {| te_def := fun id => match id with
       | 0%nat => UStruct [fld "Y" TInt "" ""]
       | 1%nat => UStruct [hidden "z" TStr; fld "L" (TSlice (TNamed 0%nat)) "" ""; hidden "y" TInt]
       | 2%nat => UStruct [fld "N" TInt "" ""]
       | _ => UStruct [fld "L" (TSlice TStr) "" ""]
       end;
     te_zero := fun id => match id with
       | 0%nat => VStruct [VInt 0]
       | 1%nat => VStruct [VStr []; VSlice None; VInt 0]
       | 2%nat => VStruct [VInt 0]
       | _ => VStruct [VSlice None]
       end;
     te_impl := fun _ _ => false; te_marshal := fun _ => None; te_unmarshal := fun _ => None; te_hash := te_hash demo |}.
Lemma lone_wf : wf_env lone_env.
Proof.
  split.
  - intros [|[|[|id]]]; cbn; discriminate.
  - intros [|[|[|id]]]; reflexivity.
  - discriminate.
  - discriminate.
  - exact (we_hash_len _ demo_wf).
  - exact (we_hash_ok _ demo_wf).
Qed.
Lemma lone_typed : marshal_typed lone_env.
Proof. intros id r f v w X. discriminate X. Qed.
Definition lone_types : list gotype := [TNamed 0%nat; TNamed 1%nat; TNamed 2%nat; TSlice (TNamed 0%nat); TInt; TStr].
Definition lone_mem (t : gotype) : bool := existsb (gotype_eqb t) lone_types.
Lemma lone_supported : supported lone_env new_codec lone_mem.
Proof.
  intros t H. unfold lone_mem in H. apply existsb_exists in H. destruct H as (t' & H & Et). apply gotype_eqb_eq in Et. subst t'.
  split; [|destruct t; exact I].
  assert (F : forallb (type_ok lone_env new_codec lone_mem) lone_types = true) by (vm_compute; reflexivity).
  rewrite forallb_forall in F. exact (F t H).
Qed.
Definition lone_list : value := VSlice (Some [VStruct [VInt 5]; VStruct [VInt 0]]).
Lemma lone_holds : exists fs, resolve lone_env (TNamed 1%nat) = RStruct fs /\ holds_only (TSlice (TNamed 0%nat)) lone_list fs [VStr [122]; lone_list; VInt 7].
Proof.
  eexists. split; [reflexivity|]. exists 1%nat. eexists. do 6 (split; [reflexivity|]).
  intros [|[|[|j]]] g Hg Hj; cbn in Hg; try (injection Hg as <-; reflexivity); try (destruct Hj; reflexivity). destruct j; discriminate Hg.
Qed.
Example C97_example : wf_env lone_env /\ marshal_typed lone_env /\ supported lone_env new_codec lone_mem /\ lone_mem (TNamed 1%nat) = true /\ lone_mem (TSlice (TNamed 0%nat)) = true /\ struct_like lone_env (TSlice (TNamed 0%nat)) = true /\
  lone lone_env new_codec (TSlice (TNamed 0%nat)) = true /\ has_type lone_env (TSlice (TNamed 0%nat)) lone_list = true /\
  (exists fs, resolve lone_env (TNamed 1%nat) = RStruct fs /\ holds_only (TSlice (TNamed 0%nat)) lone_list fs [VStr [122]; lone_list; VInt 7]) /\
  marshal_bare 10 lone_env new_codec (TSlice (TNamed 0%nat)) lone_list = EOk [10; 2; 8; 5; 10; 0] /\
  marshal_bare 10 lone_env new_codec (TNamed 1%nat) (VStruct [VStr [122]; lone_list; VInt 7]) = EOk [10; 2; 8; 5; 10; 0] /\
  unmarshal_bare 20 lone_env new_codec [10; 2; 8; 5; 10; 0] (TNamed 1%nat) (zero lone_env (TNamed 1%nat)) = URet (VStruct [VStr []; lone_list; VInt 0]) None /\
  unmarshal_bare 20 lone_env new_codec [10; 2; 8; 5; 10; 0] (TSlice (TNamed 0%nat)) (VSlice None) = URet lone_list None /\
  lone lone_env new_codec TInt = true /\
  marshal_bare 10 lone_env new_codec TInt (VInt 300) = EOk [8; 172; 2] /\ marshal_bare 10 lone_env new_codec (TNamed 2%nat) (VStruct [VInt 300]) = EOk [8; 172; 2].
Proof.
  split; [exact lone_wf|]. split; [exact lone_typed|]. split; [exact lone_supported|]. do 5 (split; [vm_compute; reflexivity|]). split; [exact lone_holds|].
  do 6 (split; [vm_compute; reflexivity|]). vm_compute; reflexivity.
Qed.
(** A list of strings alone is written as one field with the elements, numbered 0, inside. *)
Theorem C97_strings_refuted : exists env t t' v b b', wf_env env /\ t = TSlice TStr /\ t' = TNamed 3%nat /\ has_type env t v = true /\
  marshal_bare 10 env new_codec t v = EOk b /\ marshal_bare 10 env new_codec t' (VStruct [v]) = EOk b' /\ b = [10; 3; 2; 1; 97] /\ b' = [10; 1; 97].
Proof.
  exists lone_env, (TSlice TStr), (TNamed 3%nat), (VSlice (Some [VStr [97]])), [10; 3; 2; 1; 97], [10; 1; 97]. split; [exact lone_wf|]. do 6 (split; [vm_compute; reflexivity|]). vm_compute; reflexivity.
Qed.
Print Assumptions C97_strings_refuted.
Print Assumptions C97_only_field.
Print Assumptions C97_read_partial.
Print Assumptions C97_read_alone_partial.
