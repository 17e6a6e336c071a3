(** Property theorems about which values MarshalJSON accepts.  Vocabulary:
    SpecJsonWritable.v. *)
From Coq Require Import ZArith String List Bool Lia.
From Coq Require Import ZifyBool ZifyNat.
From Verif Require Import Base Prims PrimFacts Types Codec Amino FuelFacts Registry SpecRegistry RegistryFacts Sane Typing Sha256 Demo DemoFacts
  SpecNorm EncFacts JsonText Json SpecJson JsonFacts JsonProps SpecWritable WritableFacts SturdyFacts SpecJsonWritable JsonWritableFacts Properties_Tags Properties_Json.
Import ListNotations.
Local Open Scope Z_scope.

(** ** C76 *)

(** MarshalJSON accepts exactly the JSON-writable values, whatever the types and their
    methods, after every history of successful registrations.  [k] bounds the depth of
    recursion. *)
Theorem C76_accepts : forall env je h, wf_env env -> marshal_typed env -> clean env new_codec h = true ->
  forall k t v, let c := run env new_codec h in has_type env t v = true ->
  ((exists bz, marshal_json k env je c t v = EOk bz) <-> jwritable_top k env je c t v = true).
Proof.
  intros env je h We Hm Hc k t v c Ht. rewrite <- (JsonWritableFacts.marshal_okb env je c We (wf_history env h Hc) (sane_run env h) Hm k t v Ht).
  destruct (marshal_json k env je c t v); cbn [okb]; split; intros X; try discriminate; try (destruct X; discriminate); eexists; reflexivity.
Qed.

(** For sturdy types, and values whose interfaces do not hold nil pointers, MarshalJSON
    returns: there is a result that does not depend on the depth of recursion allowed, and
    it is a text or an error, not a panic.  Nil pointers elsewhere are fine. *)
Theorem C76_returns_partial : forall env je h mem rank, wf_env env -> marshal_typed env -> clean env new_codec h = true ->
  jsturdy env je mem rank ->
  forall t v, let c := run env new_codec h in
  mem (deref_type t) = true -> has_type env t v = true -> jfirm mem v = true ->
  exists k, match marshal_json k env je c t v with EOk _ | EErr _ => True | _ => False end /\
            forall k', (k <= k')%nat -> marshal_json k' env je c t v = marshal_json k env je c t v.
Proof.
  intros env je h mem rank We Hm Hc Hst t v c Hmem Ht Hf.
  destruct (jmarshal_fin env je c We (sane_run env h) Hm mem rank Hst t v Hmem Ht Hf) as [k Hk]. exists k. split.
  - destruct (marshal_json k env je c t v); try discriminate Hk; exact I.
  - intros k' Hk'. destruct (ele_marshal env je c k k' t v Hk') as [X|X]; [rewrite X in Hk; discriminate|symmetry; exact X].
Qed.

(** An interface holding a nil pointer makes MarshalJSON panic (json-encode.go:152-160). *)
Theorem C76_nil_pointer_refuted : exists env je h t v p, wf_env env /\ marshal_typed env /\ jenv_ok je /\ clean env new_codec h = true /\
  has_type env t v = true /\ forall k, (5 <= k)%nat -> marshal_json k env je (run env new_codec h) t v = EPanic p.
Proof.
  exists jdemo, jdemo_je, jdemo_history, (TSlice (TIface 0%nat)), (VSlice (Some [VIface (Some (TPtr j_foo, VPtr None))])), "Illegal nil-pointer"%string.
  split; [exact jdemo_wf|]. split; [exact jdemo_marshal_typed|]. split; [exact jdemo_je_ok|]. do 2 (split; [vm_compute; reflexivity|]).
  intros k Hk. do 5 (destruct k as [|k]; [lia|]). vm_compute. reflexivity.
Qed.

Definition j_byte := TNamed 0%nat.     (* type B byte *)
Definition j_self := TNamed 1%nat.     (* type S int, func (s S) MarshalAmino() (S, error) { return s, nil } *)
Definition jodd : tenv :=
  {| te_def := fun id => match id with 0%nat => UType TByte | 1%nat => UType TInt | _ => UStruct [] end;
     te_zero := fun id => match id with 0%nat => VUint 0 | 1%nat => VInt 0 | _ => VStruct [] end;
     te_impl := fun _ _ => false;
     te_marshal := fun id => if (id =? 1)%nat then Some (MOk j_self EOk) else None;
     te_unmarshal := fun _ => None; te_hash := sha256 |}.
Lemma jodd_wf : wf_env jodd.
Proof.
  split; cbn [jodd te_impl te_hash]; try discriminate.
  - intros [|[|id]]; discriminate.
  - intros [|[|id]]; reflexivity.
  - exact sha256_length.
  - exact sha256_ok.
Qed.
Lemma jodd_marshal_typed : marshal_typed jodd.
Proof.
  intros id r f v w. cbn [te_marshal jodd]. destruct (id =? 1)%nat eqn:E; [|discriminate]. intros H. injection H as <- <-. apply Nat.eqb_eq in E. subst id.
  intros Ht X. apply EOk_inj in X. subst w. exact Ht.
Qed.
(** So does an array of a declared byte type, unless reached through a pointer: the array is
    copied into a []byte with reflect.Copy, which wants the same element type
    (json-encode.go:217-225). *)
Theorem C76_byte_array_refuted : exists env je t v p bz, wf_env env /\ jenv_ok je /\ has_type env t v = true /\
  (forall k, (5 <= k)%nat -> marshal_json k env je new_codec t v = EPanic p) /\
  (forall k, (5 <= k)%nat -> marshal_json k env je new_codec (TPtr t) (VPtr (Some v)) = EOk bz).
Proof.
  exists jodd, jdemo_je, (TArray 2 j_byte), (VArr [VUint 1; VUint 255]), "reflect.Copy: elem type mismatch"%string. eexists.
  split; [exact jodd_wf|]. split; [exact jdemo_je_ok|]. split; [vm_compute; reflexivity|].
  split; intros k Hk; (do 5 (destruct k as [|k]; [lia|])); vm_compute; reflexivity.
Qed.
(** For a type whose MarshalAmino gives the type itself MarshalJSON does not end
    (json-encode.go:64-81). *)
Theorem C76_endless_refuted : exists env je t v, wf_env env /\ marshal_typed env /\ jenv_ok je /\ has_type env t v = true /\
  forall k, marshal_json k env je new_codec t v = EFuel.
Proof.
  exists jodd, jdemo_je, j_self, (VInt 1). split; [exact jodd_wf|]. split; [exact jodd_marshal_typed|]. split; [exact jdemo_je_ok|]. split; [reflexivity|].
  assert (G : forall k ci, ci_type ci = j_self -> ci_marshal ci = Some j_self -> encode_json k jodd jdemo_je new_codec (TIConc ci) (VInt 1) false no_opts = EFuel).
  { induction k as [|k IH]; intros [ct cf cm cu cr] E1 E2; [reflexivity|]. cbn [ci_type ci_marshal] in *. subst ct cm. cbn [encode_json].
    change (marshal_override _ _ _ _) with (@None (eres bytes)). cbn. apply IH; reflexivity. }
  intros k. unfold marshal_json. cbn. rewrite G by reflexivity. reflexivity.
Qed.

(** The types of the demo program are sturdy, and also types with unexported or float
    fields, whose values are not all accepted. *)
Definition jsturdy_types : list gotype := jdemo_types ++ [j_float; j_pflag; j_twice; TPrim PFloat64; TMap TInt j_foo; TStr; TInt].
Definition jdemo_mem2 (t : gotype) : bool := existsb (gotype_eqb t) jsturdy_types.
Definition jdemo_rank (t : gotype) : nat := match t with TPrim PString => 0%nat | _ => 1%nat end.
Lemma jdemo_sturdy : jsturdy jdemo jdemo_je jdemo_mem2 jdemo_rank.
Proof.
  split; [intros; exact I|]. intros t H.
  assert (T : jsturdy_ok jdemo jdemo_je jdemo_mem2 jdemo_rank j_temp).
  { split; [reflexivity|]. split; [split; reflexivity|]. cbn [j_temp je_marshal te_marshal jdemo jdemo_je Nat.eqb]. split; [exact I|]. split; [reflexivity|]. split; [cbn; lia|].
    intros v Ht. rewrite (has_type_prim jdemo j_temp PInt32 v eq_refl) in Ht. destruct v; try discriminate Ht. cbn [temp_marshal]. destruct (z <? 0); (split; [exact I|]); [discriminate|].
    intros w X. apply EOk_inj in X. subst w. reflexivity. }
  assert (T1 : jsturdy_ok jdemo jdemo_je jdemo_mem2 jdemo_rank j_flag).
  { split; [reflexivity|]. split; [split; exact I|]. cbn [j_flag je_marshal te_marshal jdemo jdemo_je Nat.eqb]. split; [|exact I].
    intros v Ht. rewrite (has_type_prim jdemo j_flag PBool v eq_refl) in Ht. destruct v; try discriminate Ht; exact I. }
  assert (T2 : jsturdy_ok jdemo jdemo_je jdemo_mem2 jdemo_rank j_pflag).
  { split; [reflexivity|]. split; [split; exact I|]. cbn [j_pflag je_marshal te_marshal jdemo jdemo_je Nat.eqb]. split; [|exact I].
    intros v Ht. rewrite (has_type_prim jdemo j_pflag PBool v eq_refl) in Ht. destruct v; try discriminate Ht; exact I. }
  assert (T3 : jsturdy_ok jdemo jdemo_je jdemo_mem2 jdemo_rank TTime).
  { split; [reflexivity|]. split; [exact I|]. intros s ns. cbn [je_time jdemo_je]. destruct (_ && _); exact I. }
  assert (T4 : jsturdy_ok jdemo jdemo_je jdemo_mem2 jdemo_rank (TIface 0%nat)).
  { split; [reflexivity|]. split; [exact I|]. unfold jsturdy_plain. cbn [resolve]. intros ct _ _. unfold jdemo_rank. destruct (deref_type ct) as [[]| | | | | | | | |]; lia. }
  unfold jdemo_mem2 in H. apply existsb_exists in H. destruct H as (t' & H & Et). apply gotype_eqb_eq in Et. subst t'.
  unfold jsturdy_types, jdemo_types in H. cbn [app In] in H.
  repeat (destruct H as [<-|H]; [first [exact T|exact T1|exact T2|exact T3|exact T4|split; [vm_compute; reflexivity|]; split; [first [exact I|split; exact I]|];
    first [vm_compute; reflexivity|exact I|split; [exact I|]; vm_compute; reflexivity]]|]). destruct H.
Qed.

(** Values that are accepted, values that are refused (a representation that cannot be
    computed; an unregistered type; a float outside of a field that allows it; a map with
    keys that are not strings; a time the text form does not cover), and a firm value of a
    sturdy type. *)
Example C76_example : let c := run jdemo new_codec jdemo_history in
  wf_env jdemo /\ marshal_typed jdemo /\ clean jdemo new_codec jdemo_history = true /\ jsturdy jdemo jdemo_je jdemo_mem2 jdemo_rank /\
  has_type jdemo j_doc doc_value = true /\ jwritable_top 10 jdemo jdemo_je c j_doc doc_value = true /\
  jwritable_top 10 jdemo jdemo_je c j_temp (VInt 3) = true /\
  jwritable_top 10 jdemo jdemo_je c j_temp (VInt (-3)) = false /\
  jwritable_top 10 jdemo jdemo_je c (TIface 0%nat) (VIface (Some (j_foo, jfoo 1 2))) = true /\
  jwritable_top 10 jdemo jdemo_je c (TIface 0%nat) (VIface (Some (j_twice, jfoo 1 2))) = false /\
  jwritable_top 10 jdemo jdemo_je c j_float (VStruct [VFloat 5]) = true /\
  jwritable_top 10 jdemo jdemo_je c (TPrim PFloat64) (VFloat 5) = false /\
  jwritable_top 10 jdemo jdemo_je c (TMap TInt j_foo) (VMap (Some [])) = false /\
  jwritable_top 10 jdemo jdemo_je c TTime (VTime 0 (-1)) = false /\
  jwritable_top 10 jdemo jdemo_je c (TPtr j_foo) (VPtr None) = true /\
  jdemo_mem2 j_doc = true /\ jfirm jdemo_mem2 doc_value = true /\
  match marshal_json 10 jdemo jdemo_je c j_temp (VInt (-3)) with EErr _ => True | _ => False end.
Proof.
  intros c. split; [exact jdemo_wf|]. split; [exact jdemo_marshal_typed|]. split; [vm_compute; reflexivity|]. split; [exact jdemo_sturdy|].
  do 13 (split; [vm_compute; reflexivity|]). vm_compute. exact I.
Qed.
Print Assumptions C76_accepts.
Print Assumptions C76_returns_partial.
Print Assumptions C76_nil_pointer_refuted.
Print Assumptions C76_byte_array_refuted.
Print Assumptions C76_endless_refuted.
