(** Property theorems: binary and amino tags have no part in the JSON format. *)
From Coq Require Import ZArith String List Bool Lia.
From Coq Require Import ZifyBool ZifyNat.
From Verif Require Import Base Prims Types Codec BinEnc BinDec Amino Registry Demo JsonText Json JsonIndent SpecRetag RetagFacts Properties_Json.
Import ListNotations.
Local Open Scope Z_scope.

(** ** C90 *)

(** Binary and amino tags changed but for [unsafe]: registrations panic as before, MarshalJSON
    and MarshalJSONIndent write the same text, UnmarshalJSON reads the same values, and all of
    them fail in the same way. *)
Theorem C90_registry : forall env env', retagged env env' -> forall h x, let c := run env new_codec h in let c' := run env' new_codec h in
  clean env' new_codec h = clean env new_codec h /\ snd (step env' c' x) = snd (step env c x).
Proof.
  intros env env' Hr h x c c'. split; [apply clean_like; [exact Hr|apply new_like]|].
  apply (step_like env env' Hr c c' x), run_like; [exact Hr|apply new_like].
Qed.
Theorem C90_marshal_json : forall env env', retagged env env' -> forall je h k t v p i, let c := run env new_codec h in let c' := run env' new_codec h in
  marshal_json k env' je c' t v = marshal_json k env je c t v /\ marshal_json_indent k env' je c' t v p i = marshal_json_indent k env je c t v p i.
Proof.
  intros env env' Hr je h k t v p i c c'. assert (marshal_json k env' je c' t v = marshal_json k env je c t v) as H.
  { apply marshal_json_like; [exact Hr|]. apply run_like; [exact Hr|apply new_like]. }
  split; [exact H|]. unfold marshal_json_indent. rewrite H. reflexivity.
Qed.
Theorem C90_unmarshal_json : forall env env', retagged env env' -> forall je h k bz t v0, let c := run env new_codec h in let c' := run env' new_codec h in
  unmarshal_json k env' je c' bz t v0 = unmarshal_json k env je c bz t v0.
Proof. intros env env' Hr je h k bz t v0 c c'. apply unmarshal_json_like; [exact Hr|]. apply run_like; [exact Hr|apply new_like]. Qed.

(** The demo program with every field tagged otherwise. *)
Definition retag_field (f : sfield) : sfield :=
  {| sf_name := sf_name f; sf_exported := sf_exported f; sf_type := sf_type f; sf_json := sf_json f; sf_binary := bs "fixed64";
     sf_amino := if beqb (sf_amino f) (bs "unsafe") then bs "write_empty,unsafe" else bs "write_empty,empty_elements" |}.
Definition retag_def (d : udef) : udef := match d with UStruct fs => UStruct (map retag_field fs) | UType t => UType t end.
Definition demo4 : tenv :=
  {| te_def := fun id => retag_def (demo_def id); te_zero := te_zero demo; te_impl := te_impl demo; te_marshal := te_marshal demo;
     te_unmarshal := te_unmarshal demo; te_hash := te_hash demo |}.
Lemma unsafe_plain : no_comma (bs "unsafe").
Proof. intros X. cbn in X. repeat (destruct X as [X|X]; [discriminate X|]). exact X. Qed.
Lemma demo4_field id : match demo_def id with UStruct fs => Forall (fun f => has_tag "unsafe" (split_comma (sf_amino (retag_field f))) = has_tag "unsafe" (split_comma (sf_amino f))) fs | UType _ => True end.
Proof. do 14 (destruct id as [|id]; [cbn [demo_def]; repeat (constructor; try reflexivity)|]). constructor. Qed.
Lemma demo4_retagged : retagged demo demo4.
Proof.
  split; try reflexivity. intros id. cbn [te_def demo demo4]. pose proof (demo4_field id) as H. destruct (demo_def id) as [fs|t]; cbn [retag_def same_json_def]; [|reflexivity].
  induction H as [|f fs H1 H IH]; cbn [map]; constructor; [|exact IH]. split; try reflexivity. rewrite <- !has_tag_part by exact unsafe_plain. rewrite H1. reflexivity.
Qed.
Example C90_example : retagged demo demo4 /\
  marshal_json 9 demo jdemo_je new_codec t_node (VStruct [VInt 3; VPtr (Some (VStruct [VInt 4; VPtr None; VInt 0; VSlice None])); VInt 0; VSlice None]) =
    EOk (bs "{""Val"":""3"",""Next"":{""Val"":""4"",""Next"":null,""Kids"":null},""Kids"":null}") /\
  marshal_json 9 demo4 jdemo_je new_codec t_node (VStruct [VInt 3; VPtr (Some (VStruct [VInt 4; VPtr None; VInt 0; VSlice None])); VInt 0; VSlice None]) =
    EOk (bs "{""Val"":""3"",""Next"":{""Val"":""4"",""Next"":null,""Kids"":null},""Kids"":null}").
Proof. split; [exact demo4_retagged|]. split; vm_compute; reflexivity. Qed.

(** Not so for the binary format. *)
Theorem C90_binary_refuted : exists b1 b2, marshal_bare 9 demo new_codec t_foos (VStruct [VSlice (Some [foo 1 0])]) = EOk b1 /\
  marshal_bare 9 demo4 new_codec t_foos (VStruct [VSlice (Some [foo 1 0])]) = EOk b2 /\ b1 <> b2.
Proof. do 2 eexists. split; [vm_compute; reflexivity|]. split; [vm_compute; reflexivity|]. discriminate. Qed.

(** Nor for [unsafe], without which a type with floats has no type information at all. *)
Definition safe_field (f : sfield) : sfield :=
  {| sf_name := sf_name f; sf_exported := sf_exported f; sf_type := sf_type f; sf_json := sf_json f; sf_binary := sf_binary f; sf_amino := [] |}.
Definition demo5 : tenv :=
  {| te_def := fun id => match demo_def id with UStruct fs => UStruct (map safe_field fs) | d => d end; te_zero := te_zero demo; te_impl := te_impl demo;
     te_marshal := te_marshal demo; te_unmarshal := te_unmarshal demo; te_hash := te_hash demo |}.
Definition is_panic {A} (r : eres A) : bool := match r with EPanic _ => true | _ => false end.
Theorem C90_unsafe_refuted : is_panic (marshal_json 9 demo jdemo_je new_codec t_all (zero demo t_all)) = false /\
  is_panic (marshal_json 9 demo5 jdemo_je new_codec t_all (zero demo t_all)) = true.
Proof. split; vm_compute; reflexivity. Qed.

Print Assumptions C90_registry.
Print Assumptions C90_marshal_json.
Print Assumptions C90_unmarshal_json.
Print Assumptions C90_binary_refuted.
Print Assumptions C90_unsafe_refuted.
