(** Property theorems: struct types with the same fields are written and read alike. *)
From Coq Require Import ZArith String List Bool Lia.
From Coq Require Import ZifyBool ZifyNat.
From Verif Require Import Base Prims SpecWire Types Codec BinEnc BinDec Amino Registry SpecRegistry RegistryFacts Sane Typing
  Demo DemoFacts SpecNorm JsonText Json SpecJson JsonTextFacts SpecTwin TwinFacts Properties_Json.
Import ListNotations.
Local Open Scope Z_scope.

(** ** C98 *)

(** The same bytes, or the same failure, for every value and depth of recursion. *)
Theorem C98_marshal : forall env h, clean env new_codec h = true -> let c := run env new_codec h in
  forall t t', convertible env t t' -> registered c t = None -> registered c t' = None ->
  forall k v, marshal_bare k env c t v = marshal_bare k env c t' v.
Proof. intros env h Hc c t t' Ht U U'. exact (twin_marshal env c (sane_run env h) (wf_history env h Hc) t t' Ht U U'). Qed.
(** The same value and the same error, for all bytes, well formed or not, and all targets. *)
Theorem C98_unmarshal : forall env h, clean env new_codec h = true -> let c := run env new_codec h in
  forall t t', convertible env t t' -> registered c t = None -> registered c t' = None ->
  forall k bz v, unmarshal_bare k env c bz t v = unmarshal_bare k env c bz t' v.
Proof. intros env h Hc c t t' Ht U U'. exact (twin_unmarshal env c (sane_run env h) (wf_history env h Hc) t t' Ht U U'). Qed.
(** Likewise with length prefixes. *)
Theorem C98_length_prefixed : forall env h, clean env new_codec h = true -> let c := run env new_codec h in
  forall t t', convertible env t t' -> registered c t = None -> registered c t' = None ->
  (forall k v, marshal_length_prefixed k env c t v = marshal_length_prefixed k env c t' v) /\
  (forall k bz v, unmarshal_length_prefixed k env c bz t v = unmarshal_length_prefixed k env c bz t' v).
Proof.
  intros env h Hc c t t' Ht U U'. split.
  - intros k v. unfold marshal_length_prefixed. unfold c. rewrite (C98_marshal env h Hc t t' Ht U U' k v). reflexivity.
  - intros k bz v. unfold unmarshal_length_prefixed. destruct bz as [|b bz]; [reflexivity|]. destruct (uvarint (b :: bz)) as [u n].
    unfold c. rewrite (C98_unmarshal env h Hc t t' Ht U U' k (skipn (Z.to_nat n) (b :: bz)) v). reflexivity.
Qed.
(** Likewise in JSON, for types without JSON methods. *)
Theorem C98_json : forall env h je, wf_env env -> clean env new_codec h = true -> let c := run env new_codec h in
  forall t t', convertible env t t' -> registered c t = None -> registered c t' = None ->
  (forall id, t = TNamed id \/ t' = TNamed id -> je_marshal je id = None /\ je_unmarshal je id = None) ->
  (forall k v, marshal_json k env je c t v = marshal_json k env je c t' v) /\
  (forall k bz v, unmarshal_json k env je c bz t v = unmarshal_json k env je c bz t' v).
Proof.
  intros env h je We Hc c t t' Ht U U' Hj. split.
  - exact (twin_marshal_json env c (sane_run env h) (wf_history env h Hc) t t' Ht U U' je Hj).
  - intros k bz v. exact (twin_unmarshal_json env c (sane_run env h) (wf_history env h Hc) t t' Ht U U' je Hj k bz v We).
Qed.
(** If one of the types is registered, its prefix stands before what is written for the other,
    and all that may follow the prefix is read as the other. *)
Theorem C98_prefix : forall env h u n d p, clean env new_codec h = true -> In (u, n) (conc_calls h) -> name_to_disfix env n = EOk (d, p) ->
  let c := run env new_codec h in forall t', convertible env (conc_of u) t' -> registered c t' = None ->
  (forall k v, marshal_bare k env c (conc_of u) v = ebind (marshal_bare k env c t' v) (fun b => EOk (p ++ b))) /\
  (forall k bz v, unmarshal_bare k env c (p ++ bz) (conc_of u) v = unmarshal_bare k env c bz t' v).
Proof.
  intros env h u n d p Hc Hin Hdp c t' Ht U'. split.
  - exact (twin_reg_marshal env h Hc u t' n d p Hin Hdp Ht U').
  - exact (twin_reg_unmarshal env h Hc u t' n d p Hin Hdp Ht U').
Qed.
(** In JSON its name stands beside what is written for the other. *)
Theorem C98_name : forall env h je u n d p, wf_env env -> clean env new_codec h = true -> In (u, n) (conc_calls h) -> name_to_disfix env n = EOk (d, p) ->
  let c := run env new_codec h in forall t', convertible env (conc_of u) t' -> registered c t' = None ->
  (forall id, conc_of u = TNamed id \/ t' = TNamed id -> je_marshal je id = None /\ je_unmarshal je id = None) ->
  (forall k v, marshal_json k env je c (conc_of u) v = ebind (marshal_json k env je c t' v) (fun b => EOk (wrap_name n b))) /\
  (unescaped n = true -> n <> [] -> forall k bz v, jtext bz -> unmarshal_json k env je c (wrap_name n bz) (conc_of u) v = unmarshal_json k env je c bz t' v).
Proof.
  intros env h je u n d p We Hc Hin Hdp c t' Ht U' Hj. split.
  - exact (twin_reg_marshal_json env h Hc u t' n d p Hin Hdp Ht U' je Hj).
  - intros Hu Ne k bz v Hb. destruct (unescaped_ok n Hu) as [H8 Hp].
    refine (twin_reg_unmarshal_json env h Hc u t' n d p Hin Hdp Ht U' je Hj k bz v We _ (wrapper_ok n bz H8 Hp Ne Hb)).
    destruct (jtext_head bz Hb) as (x & y & E & _). rewrite E. discriminate.
Qed.

(** type P struct { Y int }; type A struct { N int; L []P `json:"list"` }; type B A *)
Definition twin_env : tenv :=
  {| te_def := fun id => match id with
       | 0%nat => UStruct [fld "Y" TInt "" ""]
       | _ => UStruct [fld "N" TInt "" ""; {| sf_name := bs "L"; sf_exported := true; sf_type := TSlice (TNamed 0%nat); sf_json := bs "list"; sf_binary := []; sf_amino := [] |}]
       end;
     te_zero := fun id => match id with
       | 0%nat => VStruct [VInt 0]
       | _ => VStruct [VInt 0; VSlice None]
       end;
     te_impl := fun _ _ => false; te_marshal := fun _ => None; te_unmarshal := fun _ => None; te_hash := te_hash demo |}.
Lemma twin_wf : wf_env twin_env.
Proof.
  split.
  - intros [|id]; cbn; discriminate.
  - intros [|id]; reflexivity.
  - discriminate.
  - discriminate.
  - exact (we_hash_len _ demo_wf).
  - exact (we_hash_ok _ demo_wf).
Qed.
Lemma twin_convertible : convertible twin_env (TNamed 1%nat) (TNamed 2%nat).
Proof. split; [eexists; split; reflexivity|split; reflexivity]. Qed.
Definition twin_je : jenv :=
  {| je_time := je_time jdemo_je; je_untime := je_untime jdemo_je; je_float := je_float jdemo_je; je_unfloat := je_unfloat jdemo_je;
     je_marshal := fun _ => None; je_unmarshal := fun _ => None |}.
Definition twin_value : value := VStruct [VInt 300; VSlice (Some [VStruct [VInt 5]; VStruct [VInt 0]])].
Definition twin_bytes : bytes := [8; 172; 2; 18; 2; 8; 5; 18; 0].
Example C98_example : wf_env twin_env /\ convertible twin_env (TNamed 1%nat) (TNamed 2%nat) /\
  (forall id, je_marshal twin_je id = None /\ je_unmarshal twin_je id = None) /\
  registered new_codec (TNamed 1%nat) = None /\ registered new_codec (TNamed 2%nat) = None /\ has_type twin_env (TNamed 2%nat) twin_value = true /\
  marshal_bare 10 twin_env new_codec (TNamed 1%nat) twin_value = EOk twin_bytes /\ marshal_bare 10 twin_env new_codec (TNamed 2%nat) twin_value = EOk twin_bytes /\
  unmarshal_bare 20 twin_env new_codec twin_bytes (TNamed 2%nat) (zero twin_env (TNamed 2%nat)) = URet twin_value None /\
  marshal_length_prefixed 10 twin_env new_codec (TNamed 1%nat) twin_value = EOk (9 :: twin_bytes) /\
  unmarshal_length_prefixed 20 twin_env new_codec (9 :: twin_bytes) (TNamed 2%nat) (zero twin_env (TNamed 2%nat)) = URet twin_value None /\
  marshal_json 10 twin_env twin_je new_codec (TNamed 2%nat) twin_value = EOk (bs "{""N"":""300"",""list"":[{""Y"":""5""},{""Y"":""0""}]}") /\
  unmarshal_json 10 twin_env twin_je new_codec (bs "{""N"":""300"",""list"":[{""Y"":""5""},{""Y"":""0""}]}") (TNamed 1%nat) (zero twin_env (TNamed 1%nat)) = EOk twin_value.
Proof.
  split; [exact twin_wf|]. split; [exact twin_convertible|]. split; [intros id; split; reflexivity|]. do 9 (split; [vm_compute; reflexivity|]). vm_compute; reflexivity.
Qed.
(** A registered as "A", B not registered *)
Definition twin_hist : list op := [OConc (TPtr (TNamed 1%nat)) (bs "A")].
Example C98_prefix_example : exists d p, clean twin_env new_codec twin_hist = true /\ In (TPtr (TNamed 1%nat), bs "A") (conc_calls twin_hist) /\
  name_to_disfix twin_env (bs "A") = EOk (d, p) /\ registered (run twin_env new_codec twin_hist) (TNamed 2%nat) = None /\
  marshal_bare 10 twin_env (run twin_env new_codec twin_hist) (TNamed 1%nat) twin_value = EOk (p ++ twin_bytes) /\
  marshal_bare 10 twin_env (run twin_env new_codec twin_hist) (TNamed 2%nat) twin_value = EOk twin_bytes /\
  unmarshal_bare 20 twin_env (run twin_env new_codec twin_hist) (p ++ twin_bytes) (TNamed 1%nat) (zero twin_env (TNamed 1%nat)) = URet twin_value None /\
  unescaped (bs "A") = true /\
  marshal_json 10 twin_env twin_je (run twin_env new_codec twin_hist) (TNamed 1%nat) (VStruct [VInt 3; VSlice None]) = EOk (bs "{""type"":""A"",""value"":{""N"":""3"",""list"":null}}") /\
  marshal_json 10 twin_env twin_je (run twin_env new_codec twin_hist) (TNamed 2%nat) (VStruct [VInt 3; VSlice None]) = EOk (bs "{""N"":""3"",""list"":null}") /\
  unmarshal_json 10 twin_env twin_je (run twin_env new_codec twin_hist) (bs "{""type"":""A"",""value"":{""N"":""3"",""list"":null}}") (TNamed 1%nat) (zero twin_env (TNamed 1%nat)) = EOk (VStruct [VInt 3; VSlice None]).
Proof.
  do 2 eexists. split; [vm_compute; reflexivity|]. split; [left; reflexivity|]. split; [vm_compute; reflexivity|]. do 7 (split; [vm_compute; reflexivity|]). vm_compute; reflexivity.
Qed.
(** Registered, the types are told apart by their prefix: the bytes of one are refused by the
    other. *)
Theorem C98_registered_refuted : exists env h t t' v b e w, wf_env env /\ clean env new_codec h = true /\ convertible env t t' /\ has_type env t v = true /\
  marshal_bare 10 env (run env new_codec h) t v = EOk b /\ marshal_bare 10 env (run env new_codec h) t' v <> EOk b /\
  unmarshal_bare 20 env (run env new_codec h) b t' (zero env t') = URet w (Some e).
Proof.
  exists twin_env, [OConc (TNamed 1%nat) (bs "A"); OConc (TNamed 2%nat) (bs "B")], (TNamed 1%nat), (TNamed 2%nat), twin_value. do 3 eexists.
  split; [exact twin_wf|]. split; [vm_compute; reflexivity|]. split; [exact twin_convertible|]. split; [vm_compute; reflexivity|]. split; [vm_compute; reflexivity|].
  split; [vm_compute; discriminate|]. vm_compute; reflexivity.
Qed.
Print Assumptions C98_registered_refuted.
Print Assumptions C98_marshal.
Print Assumptions C98_unmarshal.
Print Assumptions C98_json.
Print Assumptions C98_length_prefixed.
Print Assumptions C98_prefix.
Print Assumptions C98_name.
