(** Property theorems: UnmarshalJSON into a pointer reads what it reads into the variable. *)
From Coq Require Import ZArith String List Bool Lia.
From Coq Require Import ZifyBool ZifyNat.
From Verif Require Import Base Prims SpecWire Types Codec BinEnc BinDec Amino Registry SpecRegistry RegistryFacts Sane Typing
  Demo DemoFacts SpecNorm SpecJson JsonText Json SpecPointee PointeeFacts Properties_Json Properties_Pointer Properties_PointerJson.
Import ListNotations.
Local Open Scope Z_scope.

(** ** C100 *)

(** The pointer ends up pointing to what would be read into the variable, with the same errors; or
    the text is a null, which makes it nil and would clear the variable. *)
Theorem C100_pointer : forall env je h k bz e v, let c := run env new_codec h in is_iface (deref_type e) = false ->
  unmarshal_json k env je c bz (TPtr e) v = ebind (unmarshal_json k env je c bz e (pointee env e v)) (fun w => EOk (VPtr (Some w))) \/
  unmarshal_json k env je c bz (TPtr e) v = EOk (VPtr None) /\ unmarshal_json k env je c bz e (pointee env e v) = EOk (zero env e).
Proof. intros env je h k bz e v c If. exact (unmarshal_pointee env je c e If k bz v (sane_run env h)). Qed.
(** For types that are not registered, null is the only such text. *)
Theorem C100_not_null : forall env je h, clean env new_codec h = true -> forall k bz e v, let c := run env new_codec h in is_iface (deref_type e) = false ->
  registered c (deref_type e) = None -> bz <> bs "null" ->
  unmarshal_json k env je c bz (TPtr e) v = ebind (unmarshal_json k env je c bz e (pointee env e v)) (fun w => EOk (VPtr (Some w))).
Proof. intros env je h Hc k bz e v c If U N. exact (unmarshal_pointee_plain env je c e If k bz v (sane_run env h) (wf_history env h Hc) U N). Qed.
(** And null, if it is accepted at all, does make the pointer nil and clear the variable. *)
Theorem C100_null : forall env je h, clean env new_codec h = true -> forall k e v w z, let c := run env new_codec h in is_iface (deref_type e) = false ->
  registered c (deref_type e) = None -> unmarshal_json k env je c (bs "null") e w = EOk z ->
  z = zero env e /\ unmarshal_json k env je c (bs "null") (TPtr e) v = EOk (VPtr None).
Proof. intros env je h Hc k e v w z c If U. exact (unmarshal_pointee_null env je c e If k v w z (sane_run env h) (wf_history env h Hc) U). Qed.

Definition read_back : value := VStruct (firstn 3 ptr_value ++ [VStr []] ++ skipn 4 ptr_value).
Example C100_example : is_iface (deref_type (TPtr t_ptr)) = false /\ registered new_codec t_ptr = None /\ ptr_text <> bs "null" /\
  unmarshal_json 11 ptr_env ptr_je new_codec ptr_text t_ptr (zero ptr_env t_ptr) = EOk read_back /\
  unmarshal_json 11 ptr_env ptr_je new_codec ptr_text (TPtr t_ptr) (VPtr None) = EOk (VPtr (Some read_back)) /\
  unmarshal_json 11 ptr_env ptr_je new_codec ptr_text (TPtr (TPtr t_ptr)) (VPtr None) = EOk (VPtr (Some (VPtr (Some read_back)))) /\
  unmarshal_json 11 ptr_env ptr_je new_codec (bs "null") t_ptr read_back = EOk (zero ptr_env t_ptr) /\
  unmarshal_json 11 ptr_env ptr_je new_codec (bs "null") (TPtr (TPtr t_ptr)) (VPtr (Some (VPtr (Some read_back)))) = EOk (VPtr None) /\
  unmarshal_json 11 ptr_env ptr_je new_codec (bs "[]") (TPtr t_ptr) (VPtr None) = unmarshal_json 11 ptr_env ptr_je new_codec (bs "[]") t_ptr (zero ptr_env t_ptr).
Proof. do 2 (split; [reflexivity|]). split; [discriminate|]. do 5 (split; [vm_compute; reflexivity|]). vm_compute; reflexivity. Qed.
(** UnmarshalJSON panics on pointers to interfaces. *)
Theorem C100_interface_refuted : exists env je h bz e v w p, wf_env env /\ jenv_ok je /\ clean env new_codec h = true /\ has_type env (TPtr e) v = true /\
  unmarshal_json 9 env je (run env new_codec h) bz e (pointee env e v) = EOk w /\ unmarshal_json 9 env je (run env new_codec h) bz (TPtr e) v = EPanic p.
Proof.
  exists jdemo, jdemo_je, jdemo_history, (bs "{""type"":""Foo"",""value"":{""A"":""1"",""B"":""2""}}"), (TIface 0%nat), (VPtr None). do 2 eexists.
  split; [exact jdemo_wf|]. split; [exact jdemo_je_ok|]. do 3 (split; [vm_compute; reflexivity|]). vm_compute; reflexivity.
Qed.
Print Assumptions C100_pointer.
Print Assumptions C100_not_null.
Print Assumptions C100_interface_refuted.
Print Assumptions C100_null.
