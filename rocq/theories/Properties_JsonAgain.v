(** JSON read and written again: C75.  Vocabulary: SpecJson.v, SpecJsonAgain.v. *)
From Coq Require Import ZArith String List Bool Lia Permutation.
From Coq Require Import ZifyBool ZifyNat.
From Verif Require Import Base Prims SpecWire PrimFacts Types Codec Amino Registry SpecRegistry RegistryFacts Sane Typing Demo DemoFacts
  SpecNorm EncFacts FrameFacts JsonText Json SpecJson JsonTextFacts JsonFacts JsonProps SpecJsonAgain JsonAgainFacts Properties_Tags Properties_Json.
Import ListNotations.
Local Open Scope Z_scope.

(** ** C75 *)

(** The text of a value that lasts is read as the normal form of the value, and that is
    written as the same text. *)
Theorem C75_same_text_partial : forall env je h, wf_env env -> marshal_typed env -> jenv_ok je -> clean env new_codec h = true ->
  forall k t v w, let c := run env new_codec h in
  jnorm k env je c t v = Some w -> has_type env t v = true -> name_ok c t -> jlasting k env je c t v ->
  exists bz, forall m, (k <= m)%nat ->
    marshal_json m env je c t v = EOk bz /\ unmarshal_json m env je c bz t (zero env t) = EOk w /\ marshal_json m env je c t w = EOk bz.
Proof.
  intros env je h We Hm Hj Hc k t v w c H Ht Hn Hl.
  destruct (top_round env je c We (wf_history env h Hc) (sane_run env h) Hm Hj k t v w H Ht Hn) as [bz F]. exists bz. intros m Hk.
  destruct (F m Hk) as (F1 & _ & F2). split; [exact F1|]. split; [exact F2|].
  etransitivity; [|exact F1]. exact (top_again env je c We (wf_history env h Hc) (sane_run env h) Hm Hj k t v w H Ht Hl m Hk).
Qed.

(** For types where omitempty is not on structs, arrays or types with methods, and methods
    give values back, that holds of every value without empty slices other than nil. *)
Theorem C75_steady_partial : forall env je h mem, wf_env env -> marshal_typed env -> jenv_ok je -> clean env new_codec h = true ->
  jsupported env je (run env new_codec h) mem -> jsteady env je (run env new_codec h) mem ->
  forall k t v bz, let c := run env new_codec h in
  jpart_ok mem t = true -> has_type env t v = true -> json_value v = true -> full v = true -> name_ok c t ->
  marshal_json k env je c t v = EOk bz ->
  forall m w, (k < m)%nat -> unmarshal_json m env je c bz t (zero env t) = EOk w -> marshal_json m env je c t w = EOk bz.
Proof.
  intros env je h mem We Hm Hj Hc Hs Hst k t v bz c Hp Ht Hv Hf Hn H m w Hk U.
  pose proof (wf_history env h Hc) as Wc. pose proof (sane_run env h) as Sc.
  destruct (top_supported env je c We Wc Sc Hm Hj mem k t v bz Hs Hp Ht Hv Hn H) as (w' & Hw & F).
  rewrite (F m Hk) in U. apply EOk_inj in U. subst w'.
  assert (Hl : jlasting (S k) env je c t v).
  { apply (lasts_all env je c mem We Wc Hs Hst); try assumption. unfold jnorm in Hw. destruct (jform (S k) env je c t v); [discriminate|discriminate Hw]. }
  rewrite (top_again env je c We Wc Sc Hm Hj (S k) t v w Hw Ht Hl m Hk).
  destruct (top_round env je c We Wc Sc Hm Hj (S k) t v w Hw Ht Hn) as [bz' G]. destruct (G (S k) (le_n _)) as [G1 _]. destruct (G m Hk) as [G2 _].
  rewrite G2, <- G1. apply marshal_mono. exact H.
Qed.

Lemma jdemo_steady : jsteady jdemo jdemo_je (run jdemo new_codec jdemo_history) jdemo_mem.
Proof.
  intros t H. unfold jdemo_mem in H. apply existsb_exists in H. destruct H as (t' & H & Et). apply gotype_eqb_eq in Et. subst t'.
  do 2 (destruct H as [<-|H]; [vm_compute; reflexivity|]).
  destruct H as [<-|H].
  { unfold jsteady_ok. change (methods jdemo jdemo_je j_temp) with true. cbv iota. intros k v v' Ht. unfold jnorm. destruct k as [|k]; [discriminate|].
    destruct v as [|z| | | | | | | | | | | | |]; try discriminate Ht. cbn [jform]. change (deref_type j_temp) with j_temp. cbn [is_ptr j_temp andb orb is_iface].
    destruct (negb _); [discriminate|]. cbn [under j_temp jdemo_je je_marshal je_unmarshal te_marshal te_unmarshal jdemo Nat.eqb orb]. unfold temp_marshal.
    destruct (z <? 0) eqn:Z; [discriminate|]. change (gotype_eqb TStr TStr) with true. cbv iota. destruct k as [|k]; [discriminate|]. cbn [jform]. unfold TStr. cbn [is_ptr deref_type is_iface andb orb].
    destruct (negb _); [discriminate|]. cbn [under jnorm_plain resolve]. destruct (valid_utf8 _); [|discriminate]. cbn [ptrs].
    intros H. cbn in H. unfold zlen in H. rewrite repeat_length, Z2Nat.id in H by lia. injection H as <-. f_equal.
    change (in_int 32 z = true) in Ht. unfold in_int in Ht. apply i32_small. lia. }
  destruct H as [<-|H].
  { unfold jsteady_ok. change (methods jdemo jdemo_je j_flag) with true. cbv iota. intros k v v' Ht. unfold jnorm. destruct k as [|k]; [discriminate|].
    destruct v as [b| | | | | | | | | | | | | |]; try discriminate Ht. cbn [jform]. change (deref_type j_flag) with j_flag. cbn [is_ptr j_flag andb orb is_iface].
    destruct (negb _); [discriminate|]. cbn [under j_flag jdemo_je je_marshal je_unmarshal Nat.eqb orb]. destruct b; cbn; intros H; injection H as <-; reflexivity. }
  repeat (destruct H as [<-|H]; [vm_compute; first [reflexivity|exact I]|]). destruct H.
Qed.
(** As [doc_value], without its empty list. *)
Definition doc_full : value :=
  match doc_value with VStruct l => VStruct (firstn 9 l ++ VSlice None :: skipn 10 l) | v => v end.
Example C75_example : let c := run jdemo new_codec jdemo_history in
  wf_env jdemo /\ marshal_typed jdemo /\ jenv_ok jdemo_je /\ clean jdemo new_codec jdemo_history = true /\
  jsupported jdemo jdemo_je c jdemo_mem /\ jsteady jdemo jdemo_je c jdemo_mem /\ jpart_ok jdemo_mem j_doc = true /\ name_ok c j_doc /\
  has_type jdemo j_doc doc_full = true /\ json_value doc_full = true /\ full doc_full = true /\
  jnorm 9 jdemo jdemo_je c j_doc doc_full = Some doc_norm /\ jlasting 9 jdemo jdemo_je c j_doc doc_full /\ doc_norm <> doc_full /\
  marshal_json 8 jdemo jdemo_je c j_doc doc_full = EOk doc_text /\
  unmarshal_json 9 jdemo jdemo_je c doc_text j_doc (zero jdemo j_doc) = EOk doc_norm /\
  marshal_json 9 jdemo jdemo_je c j_doc doc_norm = EOk doc_text.
Proof.
  cbv zeta. split; [exact jdemo_wf|]. split; [exact jdemo_marshal_typed|]. split; [exact jdemo_je_ok|]. split; [vm_compute; reflexivity|].
  split; [exact jdemo_supported|]. split; [exact jdemo_steady|]. split; [reflexivity|]. split; [apply jdemo_names|]. do 4 (split; [vm_compute; reflexivity|]).
  split.
  { apply (lasts_all jdemo jdemo_je _ jdemo_mem jdemo_wf (wf_history jdemo jdemo_history ltac:(vm_compute; reflexivity)) jdemo_supported jdemo_steady); try (vm_compute; reflexivity).
    vm_compute. discriminate. }
  split; [discriminate|]. repeat (split; [vm_compute; reflexivity|]). vm_compute. reflexivity.
Qed.

(** An empty list that is not nil is written as [[]], read as nil, and that is written as
    null. *)
Theorem C75_empty_list_refuted : exists env je t v w bz, wf_env env /\ marshal_typed env /\ jenv_ok je /\ has_type env t v = true /\
  marshal_json 3 env je new_codec t v = EOk bz /\ unmarshal_json 3 env je new_codec bz t (zero env t) = EOk w /\
  bz = bs "[]" /\ marshal_json 3 env je new_codec t w = EOk (bs "null").
Proof.
  exists jdemo, jdemo_je, (TSlice TStr), (VSlice (Some [])). do 2 eexists.
  split; [exact jdemo_wf|]. split; [exact jdemo_marshal_typed|]. split; [exact jdemo_je_ok|]. split; [reflexivity|].
  split; [vm_compute; reflexivity|]. split; [vm_compute; reflexivity|]. split; vm_compute; reflexivity.
Qed.

(** The order of map members is that in which reflection lists the keys (json-encode.go:370),
    which Go leaves open: maps with the same entries are written as different texts. *)
Theorem C75_map_order_refuted : exists env je t l l' bz bz', wf_env env /\ marshal_typed env /\ jenv_ok je /\
  has_type env t (VMap (Some l)) = true /\ distinct (map_keys l) = true /\ Permutation l l' /\
  marshal_json 3 env je new_codec t (VMap (Some l)) = EOk bz /\ marshal_json 3 env je new_codec t (VMap (Some l')) = EOk bz' /\ bz <> bz'.
Proof.
  exists jdemo, jdemo_je, (TMap TStr TInt), [(VStr [97], VInt 1); (VStr [98], VInt 2)], [(VStr [98], VInt 2); (VStr [97], VInt 1)]. do 2 eexists.
  split; [exact jdemo_wf|]. split; [exact jdemo_marshal_typed|]. split; [exact jdemo_je_ok|]. split; [reflexivity|]. split; [reflexivity|].
  split; [apply perm_swap|]. split; [vm_compute; reflexivity|]. split; [vm_compute; reflexivity|]. vm_compute. discriminate.
Qed.

(** A program with structs under omitempty. *)
Definition again_def (id : tid) : udef :=
  match id with
  | 0%nat => UStruct [fld "P" (TPtr (TSlice TStr)) "" ""; hidden "x" TInt]
  | 1%nat => UStruct [tagged "In" (TNamed 0%nat) ",omitempty" "" ""]
  | _ => UStruct []
  end.
Definition again_zero (id : tid) : value :=
  match id with
  | 0%nat => VStruct [VPtr None; VInt 0]
  | 1%nat => VStruct [VStruct [VPtr None; VInt 0]]
  | _ => VStruct []
  end.
Definition again_demo : tenv :=
  {| te_def := again_def; te_zero := again_zero; te_impl := fun _ _ => false; te_marshal := fun _ => None; te_unmarshal := fun _ => None; te_hash := te_hash demo |}.
Lemma again_wf : wf_env again_demo.
Proof.
  split.
  - intros id. do 2 (destruct id as [|id]; [discriminate|]). discriminate.
  - intros id. do 2 (destruct id as [|id]; [reflexivity|]). reflexivity.
  - intros t i _. exact (fun H => H).
  - intros t i. exact (fun H => H).
  - exact (we_hash_len _ demo_wf).
  - exact (we_hash_ok _ demo_wf).
Qed.
Lemma again_typed : marshal_typed again_demo.
Proof. intros id r f v w H. discriminate. Qed.

(** A struct under omitempty that is not zero because of a field that is not written: it is
    written, read as zero, and then left out. *)
Theorem C75_skipped_field_refuted : exists env je t v w bz, wf_env env /\ marshal_typed env /\ jenv_ok je /\ has_type env t v = true /\ full v = true /\
  marshal_json 5 env je new_codec t v = EOk bz /\ unmarshal_json 5 env je new_codec bz t (zero env t) = EOk w /\
  bz = bs "{""In"":{""P"":null}}" /\ marshal_json 5 env je new_codec t w = EOk (bs "{}").
Proof.
  exists again_demo, jdemo_je, (TNamed 1%nat), (VStruct [VStruct [VPtr None; VInt 7]]). do 2 eexists.
  split; [exact again_wf|]. split; [exact again_typed|]. split; [exact jdemo_je_ok|]. split; [reflexivity|]. split; [reflexivity|].
  split; [vm_compute; reflexivity|]. split; [vm_compute; reflexivity|]. split; vm_compute; reflexivity.
Qed.
(** One round need not be enough either: this value is written as three different texts. *)
Theorem C75_three_texts_refuted : exists env je t v v1 v2 b0 b1 b2, wf_env env /\ marshal_typed env /\ jenv_ok je /\ has_type env t v = true /\
  marshal_json 6 env je new_codec t v = EOk b0 /\ unmarshal_json 6 env je new_codec b0 t (zero env t) = EOk v1 /\
  marshal_json 6 env je new_codec t v1 = EOk b1 /\ unmarshal_json 6 env je new_codec b1 t (zero env t) = EOk v2 /\
  marshal_json 6 env je new_codec t v2 = EOk b2 /\
  b0 = bs "{""In"":{""P"":[]}}" /\ b1 = bs "{""In"":{""P"":null}}" /\ b2 = bs "{}".
Proof.
  exists again_demo, jdemo_je, (TNamed 1%nat), (VStruct [VStruct [VPtr (Some (VSlice (Some []))); VInt 0]]). do 5 eexists.
  split; [exact again_wf|]. split; [exact again_typed|]. split; [exact jdemo_je_ok|]. split; [reflexivity|].
  split; [vm_compute; reflexivity|]. split; [vm_compute; reflexivity|]. split; [vm_compute; reflexivity|]. split; [vm_compute; reflexivity|].
  split; [vm_compute; reflexivity|]. split; [|split]; vm_compute; reflexivity.
Qed.
Print Assumptions C75_same_text_partial.
Print Assumptions C75_steady_partial.
Print Assumptions C75_empty_list_refuted.
Print Assumptions C75_map_order_refuted.
Print Assumptions C75_skipped_field_refuted.
Print Assumptions C75_three_texts_refuted.
