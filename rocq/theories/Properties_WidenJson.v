(** Property theorems: the widths of integer fields in JSON. *)
From Coq Require Import ZArith String List Bool Lia.
From Coq Require Import ZifyBool ZifyNat.
From Verif Require Import Base Prims Types Codec BinEnc BinDec Amino Registry RegistryFacts Sane Typing Demo SpecNorm EncFacts RoundTrip TopFacts JsonText Json JsonIndent
  SpecJson SpecWidenJson JsonWidenFacts Properties_Json Properties_Widen.
Import ListNotations.
Local Open Scope Z_scope.

(** ** C93 *)

(** Fields of type int and int64, uint and uint64, int8, int16 and int32, or uint8, uint16 and
    uint32, exchanged for one another: registrations panic as before, and MarshalJSON and
    MarshalJSONIndent write the same text or fail in the same way. *)
Theorem C93_registry : forall narrow env env', jresized narrow env env' -> forall h x, let c := run env new_codec h in let c' := run env' new_codec h in
  clean env' new_codec h = clean env new_codec h /\ snd (step env' c' x) = snd (step env c x).
Proof.
  intros narrow env env' Hr h x c c'. split; [eapply clean_like; [exact Hr|apply new_like]|].
  apply (step_like narrow env env' Hr c c' x), run_like; [exact Hr|apply new_like].
Qed.
Theorem C93_marshal_json : forall narrow env env', jresized narrow env env' -> forall je h k t v p i, let c := run env new_codec h in let c' := run env' new_codec h in
  marshal_json k env' je c' t v = marshal_json k env je c t v /\ marshal_json_indent k env' je c' t v p i = marshal_json_indent k env je c t v p i.
Proof.
  intros narrow env env' Hr je h k t v p i c c'. assert (marshal_json k env' je c' t v = marshal_json k env je c t v) as H.
  { apply (marshal_json_like narrow); [exact Hr| |apply sane_run|apply sane_run]. apply run_like; [exact Hr|apply new_like]. }
  split; [exact H|]. unfold marshal_json_indent. rewrite H. reflexivity.
Qed.
(** int for int64 and uint for uint64: UnmarshalJSON reads the same values and fails in the
    same way. *)
Theorem C93_unmarshal_json : forall env env', jresized false env env' -> forall je h k bz t v0, let c := run env new_codec h in let c' := run env' new_codec h in
  unmarshal_json k env' je c' bz t v0 = unmarshal_json k env je c bz t v0.
Proof.
  intros env env' Hr je h k bz t v0 c c'. apply (unmarshal_json_like false); [exact Hr| |apply sane_run|apply sane_run|reflexivity].
  apply run_like; [exact Hr|apply new_like].
Qed.
(** What one program writes the other reads, as long as the value fits its types. *)
Theorem C93_read_partial : forall narrow env env' je h mem, jresized narrow env env' -> wf_env env' -> marshal_typed env' -> jenv_ok je -> clean env new_codec h = true ->
  let c := run env new_codec h in let c' := run env' new_codec h in jsupported env' je c' mem ->
  forall k t v bz, jpart_ok mem t = true -> has_type env' t v = true -> json_value v = true -> name_ok c' t ->
  marshal_json k env je c t v = EOk bz ->
  exists w, jnorm (S k) env' je c' t v = Some w /\ forall m, (k < m)%nat -> unmarshal_json m env' je c' bz t (zero env' t) = EOk w.
Proof.
  intros narrow env env' je h mem Hr We Hm Hj Hc c c' Hsup k t v bz Hp Ht Hv Hn H.
  destruct (C93_registry narrow env env' Hr h (OConc t [])) as [Hc' _]. destruct (C93_marshal_json narrow env env' Hr je h k t v [] []) as [E _].
  apply (C49_supported_partial env' je h mem We Hm Hj (eq_trans Hc' Hc) Hsup k t v bz Hp Ht Hv Hn). fold c c' in E. fold c'. congruence.
Qed.

(** The program of C92. *)
Lemma wid_jresized narrow p p' q q' : kin_json narrow p p' -> kin_json narrow q q' -> jresized narrow (wid_env p q) (wid_env p' q').
Proof.
  intros Hp Hq. assert (S : forall f, same_field narrow f f) by (intros f; split; auto).
  assert (K : forall n a b, kin_json narrow a b -> same_field narrow (fld n (TPrim a) "" "") (fld n (TPrim b) "" "")).
  { intros n a b H. split; try reflexivity. right. exists a, b. repeat split; exact H. }
  split; try reflexivity. intros [|id]; cbn [te_def wid_env same_def]; repeat (apply Forall2_cons; [apply S || (apply K; assumption)|]); apply Forall2_nil.
Qed.
Definition widj_types : list gotype := [TNamed 0%nat; TNamed 1%nat; TSlice (TNamed 1%nat); TPrim PInt32; TPrim PUint; TPrim PInt64; TStr].
Definition widj_mem (t : gotype) : bool := existsb (gotype_eqb t) widj_types.
Lemma widj_supported : jsupported (wid_env PInt32 PUint) jdemo_je new_codec widj_mem.
Proof.
  intros t H. unfold widj_mem in H. apply existsb_exists in H. destruct H as (t' & H & Et). apply gotype_eqb_eq in Et. subst t'.
  repeat (destruct H as [<-|H]; [vm_compute; first [reflexivity|exact I]|]). destruct H.
Qed.
Definition widj_text : bytes := bs "{""A"":-5,""L"":[{""X"":7}],""B"":""300"",""C"":""c"",""F"":""1""}".
Example C93_example : jresized true (wid_env PInt16 PUint64) (wid_env PInt32 PUint) /\ jresized false (wid_env PInt PUint) (wid_env PInt64 PUint64) /\
  wf_env (wid_env PInt32 PUint) /\ marshal_typed (wid_env PInt32 PUint) /\ jenv_ok jdemo_je /\ jsupported (wid_env PInt32 PUint) jdemo_je new_codec widj_mem /\
  name_ok new_codec t_wid /\ jpart_ok widj_mem t_wid = true /\ json_value wid_value = true /\
  has_type (wid_env PInt16 PUint64) t_wid wid_value = true /\ has_type (wid_env PInt32 PUint) t_wid wid_value = true /\
  marshal_json 9 (wid_env PInt16 PUint64) jdemo_je new_codec t_wid wid_value = EOk widj_text /\
  marshal_json 9 (wid_env PInt32 PUint) jdemo_je new_codec t_wid wid_value = EOk widj_text /\
  unmarshal_json 10 (wid_env PInt32 PUint) jdemo_je new_codec widj_text t_wid (zero (wid_env PInt32 PUint) t_wid) = EOk wid_value.
Proof.
  split; [apply wid_jresized; unfold kin_json; intuition|]. split; [apply wid_jresized; unfold kin_json; intuition|].
  split; [apply wid_wf; cbn; auto 8|]. split; [apply wid_typed|]. split; [exact jdemo_je_ok|]. split; [exact widj_supported|].
  split; [intros name ptr X; discriminate X|]. repeat (split; [vm_compute; reflexivity|]). vm_compute; reflexivity.
Qed.

Definition is_err {A} (r : eres A) : bool := match r with EErr _ => true | _ => false end.
(** int32 made int64, which is the same in the binary format (C92), is not in JSON: there
    numbers of up to 32 bits are written without quotes, longer ones with quotes, and each is
    refused where the other belongs. *)
Theorem C93_int32_refuted : exists env env' je t v bz bz', wf_env env /\ wf_env env' /\ jenv_ok je /\ has_type env t v = true /\ has_type env' t v = true /\
  env = wid_env PInt32 PUint /\ env' = wid_env PInt64 PUint /\
  marshal_json 9 env je new_codec t v = EOk bz /\ marshal_json 9 env' je new_codec t v = EOk bz' /\ bz <> bz' /\
  is_err (unmarshal_json 9 env' je new_codec bz t (zero env' t)) = true /\ is_err (unmarshal_json 9 env je new_codec bz' t (zero env t)) = true.
Proof.
  exists (wid_env PInt32 PUint), (wid_env PInt64 PUint), jdemo_je, t_wid, wid_value, widj_text, (bs "{""A"":""-5"",""L"":[{""X"":""7""}],""B"":""300"",""C"":""c"",""F"":""1""}").
  split; [apply wid_wf; cbn; auto 8|]. split; [apply wid_wf; cbn; auto 8|]. split; [exact jdemo_je_ok|]. do 2 (split; [vm_compute; reflexivity|]). split; [reflexivity|]. split; [reflexivity|].
  do 2 (split; [vm_compute; reflexivity|]). split; [discriminate|]. split; vm_compute; reflexivity.
Qed.
(** C93_unmarshal_json does not hold with the shorter types: numbers too long for a field are
    refused. *)
Theorem C93_narrow_refuted : exists env env' je t bz v, wf_env env /\ wf_env env' /\ jenv_ok je /\ jresized true env env' /\
  unmarshal_json 9 env je new_codec bz t (zero env t) = EOk v /\ is_err (unmarshal_json 9 env' je new_codec bz t (zero env' t)) = true.
Proof.
  exists (wid_env PInt32 PUint), (wid_env PInt16 PUint), jdemo_je, t_wid, (bs "{""A"":32768}"). eexists.
  split; [apply wid_wf; cbn; auto 8|]. split; [apply wid_wf; cbn; auto 8|]. split; [exact jdemo_je_ok|].
  split; [apply wid_jresized; unfold kin_json; intuition|]. split; vm_compute; reflexivity.
Qed.
Print Assumptions C93_registry.
Print Assumptions C93_marshal_json.
Print Assumptions C93_unmarshal_json.
Print Assumptions C93_read_partial.
Print Assumptions C93_int32_refuted.
Print Assumptions C93_narrow_refuted.
