(** Property theorems: values of the same JSON text are the same up to normal form. *)
From Coq Require Import ZArith String List Bool Lia.
From Coq Require Import ZifyBool ZifyNat.
From Verif Require Import Base Prims PrimFacts Types Codec BinEnc Amino Registry SpecRegistry RegistryFacts Sane Typing DecSafe Demo DemoFacts SpecNorm EncFacts RoundTrip SpecSupported
  JsonText Json SpecJson JsonFacts JsonProps Properties_Json.
Import ListNotations.
Local Open Scope Z_scope.

(** ** C88 *)

(** Two values with the same JSON text have the same normal form: all that the text of a
    value leaves out is what [jnorm] leaves out.
    Missing for the full statement: the types and values left out by [jsupported] and
    [json_value] (see the refuted statements below). *)
Theorem C88_json_injective_partial : forall env je h mem, wf_env env -> marshal_typed env -> jenv_ok je -> clean env new_codec h = true ->
  jsupported env je (run env new_codec h) mem ->
  forall k1 k2 t v1 v2 bz, let c := run env new_codec h in
  jpart_ok mem t = true -> name_ok c t ->
  has_type env t v1 = true -> json_value v1 = true -> has_type env t v2 = true -> json_value v2 = true ->
  marshal_json k1 env je c t v1 = EOk bz -> marshal_json k2 env je c t v2 = EOk bz ->
  exists w, jnorm (S k1) env je c t v1 = Some w /\ jnorm (S k2) env je c t v2 = Some w.
Proof.
  intros env je h mem We Hm Hj Hc Hs k1 k2 t v1 v2 bz c Hp Hn T1 J1 T2 J2 M1 M2.
  destruct (C49_supported_partial env je h mem We Hm Hj Hc Hs k1 t v1 bz Hp T1 J1 Hn M1) as (w1 & N1 & R1).
  destruct (C49_supported_partial env je h mem We Hm Hj Hc Hs k2 t v2 bz Hp T2 J2 Hn M2) as (w2 & N2 & R2).
  exists w1. split; [exact N1|]. specialize (R1 (S (Nat.max k1 k2)) ltac:(lia)). specialize (R2 (S (Nat.max k1 k2)) ltac:(lia)).
  rewrite R1 in R2. apply EOk_inj in R2. subst w2. exact N2.
Qed.

(** A value equal to its normal form is the only one of that kind with its text: nothing
    else that is in normal form is written the same way. *)
Theorem C88_one_text_partial : forall env je h mem, wf_env env -> marshal_typed env -> jenv_ok je -> clean env new_codec h = true ->
  jsupported env je (run env new_codec h) mem ->
  forall k1 k2 t v1 v2 bz, let c := run env new_codec h in
  jpart_ok mem t = true -> name_ok c t ->
  has_type env t v1 = true -> json_value v1 = true -> has_type env t v2 = true -> json_value v2 = true ->
  jnorm (S k1) env je c t v1 = Some v1 -> jnorm (S k2) env je c t v2 = Some v2 ->
  marshal_json k1 env je c t v1 = EOk bz -> marshal_json k2 env je c t v2 = EOk bz -> v1 = v2.
Proof.
  intros env je h mem We Hm Hj Hc Hs k1 k2 t v1 v2 bz c Hp Hn T1 J1 T2 J2 N1 N2 M1 M2.
  destruct (C88_json_injective_partial env je h mem We Hm Hj Hc Hs k1 k2 t v1 v2 bz Hp Hn T1 J1 T2 J2 M1 M2) as (w & W1 & W2). fold c in W1, W2. congruence.
Qed.

(** The document of Properties_Json.v and its normal form: different, but of the same text. *)
Example C88_example : let c := run jdemo new_codec jdemo_history in
  wf_env jdemo /\ marshal_typed jdemo /\ jenv_ok jdemo_je /\ clean jdemo new_codec jdemo_history = true /\ jsupported jdemo jdemo_je c jdemo_mem /\
  jpart_ok jdemo_mem j_doc = true /\ name_ok c j_doc /\
  has_type jdemo j_doc doc_value = true /\ json_value doc_value = true /\ has_type jdemo j_doc doc_norm = true /\ json_value doc_norm = true /\
  marshal_json 9 jdemo jdemo_je c j_doc doc_value = EOk doc_text /\ marshal_json 9 jdemo jdemo_je c j_doc doc_norm = EOk doc_text /\
  doc_value <> doc_norm /\ jnorm 10 jdemo jdemo_je c j_doc doc_value = Some doc_norm /\ jnorm 10 jdemo jdemo_je c j_doc doc_norm = Some doc_norm.
Proof.
  cbv zeta. split; [exact jdemo_wf|]. split; [exact jdemo_marshal_typed|]. split; [exact jdemo_je_ok|]. split; [vm_compute; reflexivity|].
  split; [exact jdemo_supported|]. split; [reflexivity|]. split; [apply jdemo_names|]. do 6 (split; [vm_compute; reflexivity|]).
  split; [intros X; vm_compute in X; discriminate X|]. split; vm_compute; reflexivity.
Qed.

(** Bytes that are not UTF-8 all become the replacement character. *)
Theorem C88_invalid_utf8_refuted : exists bz, marshal_json 5 jdemo jdemo_je new_codec TStr (VStr [254]) = EOk bz /\ marshal_json 5 jdemo jdemo_je new_codec TStr (VStr [255]) = EOk bz.
Proof. eexists. split; vm_compute; reflexivity. Qed.
(** Nil maps and empty maps are one value in JSON. *)
Theorem C88_nil_map_refuted : exists bz, marshal_json 5 jdemo jdemo_je new_codec (TMap TStr TInt) (VMap None) = EOk bz /\
  marshal_json 5 jdemo jdemo_je new_codec (TMap TStr TInt) (VMap (Some [])) = EOk bz.
Proof. eexists. split; vm_compute; reflexivity. Qed.

Print Assumptions C88_json_injective_partial.
Print Assumptions C88_one_text_partial.
Print Assumptions C88_invalid_utf8_refuted.
Print Assumptions C88_nil_map_refuted.
