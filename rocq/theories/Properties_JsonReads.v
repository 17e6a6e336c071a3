(** Which JSON texts UnmarshalJSON reads: C83.  Vocabulary: SpecJsonReads.v. *)
From Coq Require Import ZArith String List Bool Lia.
From Verif Require Import Base Prims SpecWire PrimFacts Types Codec BinDec Amino Registry SpecRegistry RegistryFacts Sane Typing Demo DemoFacts
  SpecNorm EncFacts JsonText Json SpecJson JsonTextFacts JsonFacts JsonProps Properties_Tags Properties_Json SpecJsonSafe JsonSafe SpecMembers MembersFacts
  SpecJsonReads JsonReadsFacts.
Import ListNotations.
Local Open Scope Z_scope.

(** ** C83 *)

(** UnmarshalJSON succeeds on a JSON text exactly if the text fits the type, whatever the
    target holds, and then leaves exactly the value that the text stands for. *)
Theorem C83_reads : forall env je h, wf_env env -> clean env new_codec h = true ->
  forall k t v0 bz v, let c := run env new_codec h in jtext bz -> has_type env t v0 = true ->
  (unmarshal_json k env je c bz t v0 = EOk v <-> reads_top env je c k t v0 bz v).
Proof. intros env je h We Hc k t v0 bz v c. exact (reads_top_iff env je c We (wf_history env h Hc) (sane_run env h) k bz t v0 v). Qed.
(** A text stands for at most one value, and the value does not depend on how deep one is
    prepared to look. *)
Theorem C83_one_value : forall env je h, wf_env env -> clean env new_codec h = true ->
  forall k k' t v0 bz v v', let c := run env new_codec h in jtext bz -> has_type env t v0 = true ->
  reads_top env je c k t v0 bz v -> reads_top env je c k' t v0 bz v' -> v = v'.
Proof.
  intros env je h We Hc k k' t v0 bz v v' c Hb Hv H H'.
  apply (reads_top_more _ _ _ _ (max k k')) in H; [|lia]. apply (reads_top_more _ _ _ _ (max k k')) in H'; [|lia].
  apply (C83_reads env je h We Hc _ _ _ _ _ Hb Hv) in H. apply (C83_reads env je h We Hc _ _ _ _ _ Hb Hv) in H'. rewrite H in H'. apply EOk_inj in H'. exact H'.
Qed.
(** What was read is read with more fuel too. *)
Theorem C83_fuel : forall env je h, wf_env env -> clean env new_codec h = true ->
  forall k k' t v0 bz v, let c := run env new_codec h in jtext bz -> has_type env t v0 = true -> (k <= k')%nat ->
  unmarshal_json k env je c bz t v0 = EOk v -> unmarshal_json k' env je c bz t v0 = EOk v.
Proof.
  intros env je h We Hc k k' t v0 bz v c Hb Hv Hk H. apply (C83_reads env je h We Hc _ _ _ _ _ Hb Hv). apply (C83_reads env je h We Hc _ _ _ _ _ Hb Hv) in H.
  eapply reads_top_more; eassumption.
Qed.
(** Nothing but null is read as a floating-point number, not even where it was marked
    unsafe: what MarshalJSON writes for such a field cannot be read back. *)
Theorem C83_no_floats : forall env je h, wf_env env -> clean env new_codec h = true ->
  forall k t p v0 bz v, let c := run env new_codec h in jtext bz -> has_type env t v0 = true ->
  resolve env (deref_type t) = RPrim p -> p = PFloat32 \/ p = PFloat64 -> unread env je (deref_type t) -> registration c (deref_type t) = None ->
  unmarshal_json k env je c bz t v0 = EOk v -> bz = bs "null".
Proof.
  intros env je h We Hc k t p v0 bz v c Hb Hv Rp Hp U Rg H. apply (C83_reads env je h We Hc _ _ _ _ _ Hb Hv) in H. destruct H as [_ H]. fold c in H. rewrite Rg in H.
  destruct k as [|k]; [contradiction|]. destruct H as [_ [[E _]|(_ & w & H & _)]]; [exact E|exfalso].
  assert (I : int_type p = None) by (destruct Hp as [-> | ->]; reflexivity).
  inversion H as [x s ns E|id g v1 E X|id r g x v1 E X Y|q v1 Ux Rx Hq|e r Ux Rx|n r Ux Rx|e l vs Ux Rx|n e l vs ws Ux Rx|fs l vs ws Ux Rx|vt l names es Ux Rx|kt vt Ux Rx|id name x ct ptr v1 E];
    subst; try congruence; try (rewrite E in Rp; discriminate Rp); try (rewrite E in U; destruct U; congruence).
  rewrite Rp in Rx. injection Rx as <-. inversion Hq; subst; try (destruct Hp; discriminate); congruence.
Qed.
(** What MarshalJSON writes fits the schema.  Missing for the full statement: values
    without a JSON normal form (C49), and names that need escaping (C50). *)
Theorem C83_written_partial : forall env je h, wf_env env -> marshal_typed env -> jenv_ok je -> clean env new_codec h = true ->
  byte_names env -> (forall t0 name, In (t0, name) (conc_calls h) -> unescaped name = true) ->
  forall k t v w, let c := run env new_codec h in
  jnorm k env je c t v = Some w -> has_type env t v = true -> name_ok c t ->
  exists bz, marshal_json k env je c t v = EOk bz /\ reads_top env je c k t (zero env t) bz w.
Proof.
  intros env je h We Hm Hj Hc Hy Hu k t v w c Hn Hv Hk. destruct (C49_normal_form_partial env je h We Hm Hj Hc k t v w Hn Hv Hk) as (bz & H). destruct (H k (Nat.le_refl _)) as (H1 & _ & H3).
  exists bz. split; [exact H1|]. destruct (C50_valid_partial env je h We Hm Hj Hc Hy Hu k t v bz Hv H1) as [Hb _].
  apply (C83_reads env je h We Hc); [exact Hb|apply has_type_zero, We|exact H3].
Qed.

(** A list by the rules, and a document by the theorem. *)
Definition odd_list : bytes := bs "[""1"", "" 2 "",""-0"",null]".
Lemma plain_digits s : Forall (fun b => 32 <= b < 127 /\ b <> 34 /\ b <> 92) s -> jchars s.
Proof. intros H. apply jchars_plain. eapply Forall_impl; [|exact H]. cbv beta. intros; lia. Qed.
Lemma odd_rules c : reads_top jdemo jdemo_je c 2 (TSlice (TPrim PInt64)) (VSlice None) odd_list (VSlice (Some [VInt 1; VInt 2; VInt 0; VInt 0])) <->
  known jdemo c (TSlice (TPrim PInt64)) = true /\ known jdemo c (TPrim PInt64) = true /\ registration c (TSlice (TPrim PInt64)) = None.
Proof.
  assert (A : jarray [bs """1"""; bs """ 2 """; bs """-0"""; bs "null"] odd_list) by (apply array_by; vm_compute; reflexivity).
  split.
  - intros [K H]. split; [exact K|]. change (deref_type (TSlice (TPrim PInt64))) with (TSlice (TPrim PInt64)) in H. destruct (registration c (TSlice (TPrim PInt64))) as [[name ptr]|].
    + destruct H as (x & (l & O & _) & _). destruct (object_head _ _ O) as (r & E). discriminate E.
    + split; [|reflexivity]. destruct H as [_ [[E _]|(_ & w & H & _)]]; [discriminate E|]. inversion H; subst; try discriminate; match goal with X : resolve _ _ = RSlice _ |- _ => injection X as <- end; first [assumption|discriminate].
  - intros (K & Ke & Rg). split; [exact K|]. change (deref_type (TSlice (TPrim PInt64))) with (TSlice (TPrim PInt64)). rewrite Rg.
    split; [discriminate|]. right. split; [discriminate|]. eexists. split; [|reflexivity].
    change (VSlice (Some [VInt 1; VInt 2; VInt 0; VInt 0])) with (slice_of [VInt 1; VInt 2; VInt 0; VInt 0]).
    eapply rf_slice; [exact I|reflexivity|reflexivity|exact Ke|exact A|].
    assert (N : forall w n w' z, spaces w -> spaces w' -> whole true n z -> -9 <= z <= 9 -> bs "null" <> 34 :: (w ++ n ++ w') ++ [34] ->
      reads jdemo jdemo_je c 1 (TPrim PInt64) (VInt 0) (34 :: (w ++ n ++ w') ++ [34]) (VInt z)).
    { intros w n w' z Sw Sw' Wh Hz Hn. split; [discriminate|]. right. split; [congruence|]. exists (VInt z). split; [|reflexivity]. eapply rf_prim; [exact I|reflexivity|].
      apply (rp_quoted PInt64 true 64 w n w' z); try assumption; [reflexivity|]. unfold int_fits. change (2 ^ (64 - 1)) with 9223372036854775808. lia. }
    constructor; [|constructor; [|constructor; [|constructor; [|constructor]]]].
    + apply (N [] [49] [] 1); try (apply Forall_nil); try discriminate; try lia. left. apply dc_pos, (nm_one 1). lia.
    + apply (N [32] [50] [32] 2); try (apply Forall_cons; [left; reflexivity|constructor]); try discriminate; try lia. left. apply dc_pos, (nm_one 2). lia.
    + apply (N [] [45; 48] [] 0); try (apply Forall_nil); try discriminate; try lia. right. auto.
    + split; [discriminate|]. left. split; reflexivity.
Qed.
Example C83_example : let c := run jdemo new_codec jdemo_history in
  jtext odd_list /\ unmarshal_json 2 jdemo jdemo_je c odd_list (TSlice (TPrim PInt64)) (VSlice None) = EOk (VSlice (Some [VInt 1; VInt 2; VInt 0; VInt 0])) /\
  jtext doc_text /\ has_type jdemo j_doc (zero jdemo j_doc) = true /\ unmarshal_json 9 jdemo jdemo_je c doc_text j_doc (zero jdemo j_doc) = EOk doc_norm /\
  reads_top jdemo jdemo_je c 9 j_doc (zero jdemo j_doc) doc_text doc_norm /\
  (* unsigned numbers are not minus zero, numbers of 64 bits are quoted, others are not, and strings are not numbers *)
  (forall v, ~ reads_top jdemo jdemo_je c 9 (TPrim PUint64) (VUint 0) (bs """-0""") v) /\
  (forall v, ~ reads_top jdemo jdemo_je c 9 (TPrim PInt64) (VInt 0) (bs "7") v) /\
  (forall v, ~ reads_top jdemo jdemo_je c 9 (TPrim PInt32) (VInt 0) (bs """7""") v).
Proof.
  intros c. assert (Hc : clean jdemo new_codec jdemo_history = true) by (vm_compute; reflexivity).
  assert (Jo : jtext odd_list) by (eapply jt_array, array_by; vm_compute; reflexivity).
  assert (Jd : jtext doc_text).
  { assert (O : jobject (match json_top doc_text with Some (JObj l) => l | _ => [] end) doc_text) by (apply object_by; vm_compute; reflexivity). eapply jt_object, O. }
  assert (Ud : unmarshal_json 9 jdemo jdemo_je c doc_text j_doc (zero jdemo j_doc) = EOk doc_norm) by (vm_compute; reflexivity).
  assert (Td : has_type jdemo j_doc (zero jdemo j_doc) = true) by (vm_compute; reflexivity).
  split; [exact Jo|]. split.
  { apply (C83_reads jdemo jdemo_je jdemo_history jdemo_wf Hc 2 (TSlice (TPrim PInt64)) (VSlice None) odd_list); [exact Jo|reflexivity|]. apply odd_rules. do 2 (split; [vm_compute; reflexivity|]). vm_compute. reflexivity. }
  split; [exact Jd|]. split; [exact Td|]. split; [exact Ud|]. split; [apply (C83_reads jdemo jdemo_je jdemo_history jdemo_wf Hc _ _ _ _ _ Jd Td), Ud|].
  assert (Js : forall s, Forall (fun b => 32 <= b < 127 /\ b <> 34 /\ b <> 92) s -> jtext (34 :: s ++ [34])) by (intros s H; apply jt_string, plain_digits, H).
  splits; intros v H.
  - apply (C83_reads jdemo jdemo_je jdemo_history jdemo_wf Hc) in H; [vm_compute in H; discriminate H| |reflexivity]. apply (Js (bs "-0")). cbn. repeat (apply Forall_cons; [lia|]). apply Forall_nil.
  - apply (C83_reads jdemo jdemo_je jdemo_history jdemo_wf Hc) in H; [vm_compute in H; discriminate H| |reflexivity].
    apply jt_number. apply (decimal_number _ 7). apply dc_pos, (nm_one 7). lia.
  - apply (C83_reads jdemo jdemo_je jdemo_history jdemo_wf Hc) in H; [vm_compute in H; discriminate H| |reflexivity]. apply (Js (bs "7")). cbn. repeat (apply Forall_cons; [lia|]). apply Forall_nil.
Qed.
(** A value has more than one text even without white space between the tokens: base64 is
    read leniently, and so are numbers in quotes. *)
Theorem C83_one_text_refuted : exists env je h t b b' v, wf_env env /\ clean env new_codec h = true /\ b <> b' /\ length b = length b' /\
  let c := run env new_codec h in
  jtext b /\ jtext b' /\ unmarshal_json 3 env je c b t (zero env t) = EOk v /\ unmarshal_json 3 env je c b' t (zero env t) = EOk v.
Proof.
  exists jdemo, jdemo_je, jdemo_history, (TSlice TByte), (bs """/w=="""), (bs """/x=="""), (VSlice (Some [VUint 255])).
  split; [exact jdemo_wf|]. split; [vm_compute; reflexivity|]. split; [discriminate|]. split; [reflexivity|]. intros c.
  assert (Js : forall s, Forall (fun b => 32 <= b < 127 /\ b <> 34 /\ b <> 92) s -> jtext (34 :: s ++ [34])) by (intros s H; apply jt_string, plain_digits, H).
  split; [apply (Js (bs "/w==")); cbn; repeat (apply Forall_cons; [lia|]); apply Forall_nil|].
  split; [apply (Js (bs "/x==")); cbn; repeat (apply Forall_cons; [lia|]); apply Forall_nil|]. split; vm_compute; reflexivity.
Qed.
Print Assumptions C83_reads.
Print Assumptions C83_one_value.
Print Assumptions C83_fuel.
Print Assumptions C83_no_floats.
Print Assumptions C83_written_partial.
Print Assumptions C83_one_text_refuted.
