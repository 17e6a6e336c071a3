(** Property theorems: whether basic types are named has no part in the formats. *)
From Coq Require Import ZArith String List Bool Lia.
From Coq Require Import ZifyBool ZifyNat.
From Verif Require Import Base Prims Types Codec BinEnc BinDec Amino Registry RegistryFacts Sane Typing Demo DemoFacts EncFacts JsonText Json JsonIndent
  SpecJson SpecNamed NamedFacts JsonNamedFacts Properties_Json.
Import ListNotations.
Local Open Scope Z_scope.

(** ** C94 *)

(** Fields of basic types (numbers, strings, bool) given named types without methods instead,
    or the other way round, or other such names: registrations panic as before, Marshal writes
    the same bytes, Unmarshal reads the same values, and all of them fail in the same way. *)
Theorem C94_registry : forall names env env', retyped names env env' -> forall h x, let c := run env new_codec h in let c' := run env' new_codec h in
  clean env' new_codec h = clean env new_codec h /\ snd (step env' c' x) = snd (step env c x).
Proof.
  intros names env env' Hr h x c c'. split; [eapply NamedFacts.clean_like; [exact Hr|apply NamedFacts.new_like]|].
  apply (NamedFacts.step_like names env env' Hr c c' x), NamedFacts.run_like; [exact Hr|apply NamedFacts.new_like].
Qed.
Theorem C94_marshal : forall names env env', retyped names env env' -> forall h k t v, let c := run env new_codec h in let c' := run env' new_codec h in
  marshal_bare k env' c' t v = marshal_bare k env c t v /\ marshal_length_prefixed k env' c' t v = marshal_length_prefixed k env c t v.
Proof.
  intros names env env' Hr h k t v c c'. assert (marshal_bare k env' c' t v = marshal_bare k env c t v) as H.
  { apply (NamedFacts.marshal_bare_like names); [exact Hr| |apply sane_run|apply sane_run]. apply NamedFacts.run_like; [exact Hr|apply NamedFacts.new_like]. }
  split; [exact H|]. unfold marshal_length_prefixed. rewrite H. reflexivity.
Qed.
Lemma basic_zero env id p : wf_env env -> te_def env id = UType (TPrim p) -> te_zero env id = zero_prim p.
Proof. intros We E. rewrite (we_zero _ We), E. reflexivity. Qed.
Theorem C94_unmarshal : forall names env env', wf_env env -> retyped names env env' -> forall h k bz t v0, let c := run env new_codec h in let c' := run env' new_codec h in
  unmarshal_bare k env' c' bz t v0 = unmarshal_bare k env c bz t v0 /\ unmarshal_length_prefixed k env' c' bz t v0 = unmarshal_length_prefixed k env c bz t v0.
Proof.
  intros names env env' We Hr h k bz t v0 c c'. assert (forall bz, unmarshal_bare k env' c' bz t v0 = unmarshal_bare k env c bz t v0) as H.
  { intros b. apply (NamedFacts.unmarshal_bare_like names); [exact Hr| |apply sane_run|apply sane_run|intros id p; apply basic_zero, We]. apply NamedFacts.run_like; [exact Hr|apply NamedFacts.new_like]. }
  split; [apply H|]. unfold unmarshal_length_prefixed. destruct bz; [reflexivity|]. destruct (uvarint _) as [u n]. rewrite H. reflexivity.
Qed.
(** In JSON as well, if the types have no MarshalJSON and UnmarshalJSON methods either. *)
Theorem C94_marshal_json : forall names env env' je, retyped names env env' -> no_json_methods names je ->
  forall h k t v p i, let c := run env new_codec h in let c' := run env' new_codec h in
  marshal_json k env' je c' t v = marshal_json k env je c t v /\ marshal_json_indent k env' je c' t v p i = marshal_json_indent k env je c t v p i.
Proof.
  intros names env env' je Hr Hj h k t v p i c c'. assert (marshal_json k env' je c' t v = marshal_json k env je c t v) as H.
  { apply (JsonNamedFacts.marshal_json_like names); [exact Hr| |apply sane_run|apply sane_run|exact Hj]. apply JsonNamedFacts.run_like; [exact Hr|apply JsonNamedFacts.new_like]. }
  split; [exact H|]. unfold marshal_json_indent. rewrite H. reflexivity.
Qed.
Theorem C94_unmarshal_json : forall names env env' je, wf_env env -> retyped names env env' -> no_json_methods names je ->
  forall h k bz t v0, let c := run env new_codec h in let c' := run env' new_codec h in
  unmarshal_json k env' je c' bz t v0 = unmarshal_json k env je c bz t v0.
Proof.
  intros names env env' je We Hr Hj h k bz t v0 c c'.
  apply (JsonNamedFacts.unmarshal_json_like names); [exact Hr| |apply sane_run|apply sane_run|exact Hj|intros id p; apply basic_zero, We].
  apply JsonNamedFacts.run_like; [exact Hr|apply JsonNamedFacts.new_like].
Qed.

(** type S struct { H Height `binary:"fixed64"`; N Name; L []T }
    type T struct { X Real `amino:"unsafe"` }
    type Height int64; type Name string; type Real float64
    and the same with int64, string and float64 for fields. *)
Definition nam_env (named : bool) : tenv :=
  let ty (id : tid) (p : prim) := if named then TNamed id else TPrim p in
  {| te_def := fun id => match id with
       | 0%nat => UStruct [{| sf_name := bs "H"; sf_exported := true; sf_type := ty 2%nat PInt64; sf_json := []; sf_binary := bs "fixed64"; sf_amino := [] |};
           fld "N" (ty 3%nat PString) "" ""; fld "L" (TSlice (TNamed 1%nat)) "" ""]
       | 1%nat => UStruct [{| sf_name := bs "X"; sf_exported := true; sf_type := ty 4%nat PFloat64; sf_json := []; sf_binary := []; sf_amino := bs "unsafe" |}]
       | 2%nat => UType (TPrim PInt64)
       | 3%nat => UType (TPrim PString)
       | _ => UType (TPrim PFloat64)
       end;
     te_zero := fun id => match id with
       | 0%nat => VStruct [VInt 0; VStr []; VSlice None]
       | 1%nat => VStruct [VFloat 0]
       | 2%nat => VInt 0
       | 3%nat => VStr []
       | _ => VFloat 0
       end;
     te_impl := fun _ _ => false; te_marshal := fun _ => None; te_unmarshal := fun _ => None; te_hash := te_hash demo |}.
Definition nam_names (id : tid) : bool := (2 <=? id)%nat && (id <=? 4)%nat.
Definition t_nam : gotype := TNamed 0%nat.
Lemma nam_wf b : wf_env (nam_env b).
Proof.
  split.
  - intros [|[|[|[|id]]]]; cbn; discriminate.
  - intros [|[|[|[|id]]]]; destruct b; reflexivity.
  - discriminate.
  - discriminate.
  - exact (we_hash_len _ demo_wf).
  - exact (we_hash_ok _ demo_wf).
Qed.
Lemma nam_retyped b b' : retyped nam_names (nam_env b) (nam_env b').
Proof.
  split; try reflexivity.
  assert (B : forall d, basic nam_names (nam_env d) (if d then TNamed 2%nat else TPrim PInt64) PInt64 /\ basic nam_names (nam_env d) (if d then TNamed 3%nat else TPrim PString) PString /\
                        basic nam_names (nam_env d) (if d then TNamed 4%nat else TPrim PFloat64) PFloat64).
  { intros [|]; repeat split; try (left; reflexivity); right; eexists; repeat split; reflexivity. }
  intros [|[|[|[|id]]]]; cbn [te_def nam_env same_def]; try reflexivity; repeat (apply Forall2_cons); try apply Forall2_nil; split; try reflexivity; cbn [sf_type fld];
    try (left; reflexivity); right; eexists; split; apply B.
Qed.
Definition nam_value : value := VStruct [VInt (-2); VStr (bs "n"); VSlice (Some [VStruct [VFloat 4607182418800017408]])].
Definition nam_bytes : bytes := [9; 254; 255; 255; 255; 255; 255; 255; 255; 18; 1; 110; 26; 9; 9; 0; 0; 0; 0; 0; 0; 240; 63].
Definition nam_json_value : value := VStruct [VInt (-2); VStr (bs "n"); VSlice (Some [])].
Definition nam_je : jenv :=
  {| je_time := je_time jdemo_je; je_untime := je_untime jdemo_je; je_float := je_float jdemo_je; je_unfloat := je_unfloat jdemo_je;
     je_marshal := fun _ => None; je_unmarshal := fun _ => None |}.
Example C94_example : retyped nam_names (nam_env false) (nam_env true) /\ wf_env (nam_env false) /\ wf_env (nam_env true) /\ no_json_methods nam_names nam_je /\
  has_type (nam_env false) t_nam nam_value = true /\ has_type (nam_env true) t_nam nam_value = true /\
  marshal_bare 10 (nam_env false) new_codec t_nam nam_value = EOk nam_bytes /\ marshal_bare 10 (nam_env true) new_codec t_nam nam_value = EOk nam_bytes /\
  unmarshal_bare 20 (nam_env false) new_codec nam_bytes t_nam (zero (nam_env false) t_nam) = URet nam_value None /\
  unmarshal_bare 20 (nam_env true) new_codec nam_bytes t_nam (zero (nam_env true) t_nam) = URet nam_value None /\
  marshal_json 10 (nam_env true) nam_je new_codec t_nam nam_json_value = EOk (bs "{""H"":""-2"",""N"":""n"",""L"":[]}") /\
  unmarshal_json 10 (nam_env true) nam_je new_codec (bs "{""H"":""-2"",""N"":""n""}") t_nam (zero (nam_env true) t_nam) = EOk (VStruct [VInt (-2); VStr (bs "n"); VSlice None]).
Proof.
  split; [apply nam_retyped|]. split; [apply nam_wf|]. split; [apply nam_wf|]. split; [intros id _; split; reflexivity|].
  repeat (split; [vm_compute; reflexivity|]). vm_compute; reflexivity.
Qed.

(** With a MarshalJSON method, a named type is written as the method says. *)
Definition nam_je_method : jenv :=
  {| je_time := je_time jdemo_je; je_untime := je_untime jdemo_je; je_float := je_float jdemo_je; je_unfloat := je_unfloat jdemo_je;
     je_marshal := fun id => if (id =? 2)%nat then Some (true, fun _ => EOk (bs "true")) else None; je_unmarshal := fun _ => None |}.
Theorem C94_json_method_refuted : exists names env env' je t v b1 b2, wf_env env /\ wf_env env' /\ retyped names env env' /\ has_type env t v = true /\
  marshal_json 10 env je new_codec t v = EOk b1 /\ marshal_json 10 env' je new_codec t v = EOk b2 /\ b1 <> b2.
Proof.
  exists nam_names, (nam_env false), (nam_env true), nam_je_method, t_nam, nam_json_value, (bs "{""H"":""-2"",""N"":""n"",""L"":[]}"), (bs "{""H"":true,""N"":""n"",""L"":[]}").
  split; [apply nam_wf|]. split; [apply nam_wf|]. split; [apply nam_retyped|]. do 3 (split; [vm_compute; reflexivity|]). discriminate.
Qed.
(** Outside of fields the name counts: registered, it is written before the value. *)
Theorem C94_registered_refuted : exists env h v b1 b2, wf_env env /\ clean env new_codec h = true /\ basic nam_names env (TNamed 2%nat) PInt64 /\
  marshal_bare 10 env (run env new_codec h) (TPrim PInt64) v = EOk b1 /\ marshal_bare 10 env (run env new_codec h) (TNamed 2%nat) v = EOk b2 /\ b1 <> b2.
Proof.
  exists (nam_env true), [OConc (TNamed 2%nat) (bs "Height")], (VInt 5). do 2 eexists. split; [apply nam_wf|]. split; [vm_compute; reflexivity|].
  split; [right; eexists; repeat split; reflexivity|]. split; [vm_compute; reflexivity|]. split; [vm_compute; reflexivity|]. discriminate.
Qed.
Print Assumptions C94_registry.
Print Assumptions C94_marshal.
Print Assumptions C94_unmarshal.
Print Assumptions C94_marshal_json.
Print Assumptions C94_unmarshal_json.
Print Assumptions C94_json_method_refuted.
Print Assumptions C94_registered_refuted.
