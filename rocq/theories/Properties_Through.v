(** Values passed on as JSON: C79.  Vocabulary: SpecJson.v, SpecThrough.v. *)
From Coq Require Import ZArith String List Bool Lia.
From Coq Require Import ZifyBool ZifyNat.
From Verif Require Import Base Prims SpecWire PrimFacts Types Codec BinEnc BinDec Amino Registry SpecRegistry RegistryFacts Sane Typing Demo DemoFacts
  SpecNorm EncFacts FrameFacts JsonText Json SpecJson JsonTextFacts JsonFacts JsonProps SpecJsonAgain JsonAgainFacts
  SpecStruct SpecDefault DefaultFacts SpecThrough ThroughFacts Properties_Tags Properties_Json.
Import ListNotations.
Local Open Scope Z_scope.

(** ** C79 *)

(** A value written as JSON is read back as a value with the same binary encoding, or the
    same failure.  Missing for the full statement: the types and values excluded by
    [jsupported], [json_value], [passed] and [unsigned_zeros]; see the refutations. *)
Theorem C79_same_bytes_partial : forall env je h mem, wf_env env -> marshal_typed env -> indifferent env -> jenv_ok je -> clean env new_codec h = true ->
  jsupported env je (run env new_codec h) mem -> passed env je (run env new_codec h) mem ->
  forall k t v text, let c := run env new_codec h in
  jpart_ok mem t = true -> is_ptr t = false -> has_type env t v = true -> json_value v = true -> unsigned_zeros v = true -> name_ok c t ->
  marshal_json k env je c t v = EOk text ->
  exists w, (forall m, (k < m)%nat -> unmarshal_json m env je c text t (zero env t) = EOk w) /\ same env t v w /\
    forall n, marshal_bare n env c t w = marshal_bare n env c t v /\
              marshal_length_prefixed n env c t w = marshal_length_prefixed n env c t v.
Proof.
  intros env je h mem We Hm Hi Hj Hc Hs Hpa k t v text c Hp P Ht Hv Hu Hn H.
  pose proof (wf_history env h Hc) as Wc. pose proof (sane_run env h) as Sc. fold c in Wc, Sc, Hs, Hpa.
  destruct (top_supported env je c We Wc Sc Hm Hj mem k t v text Hs Hp Ht Hv Hn H) as (w & Hw & F).
  pose proof (top_thru env je c mem We Wc Hs Hpa (S k) t v w Hp P Ht Hu Hw) as S.
  exists w. split; [exact F|]. split; [exact S|]. intros n. pose proof (marshal_same env c We Sc Hi n t v w S) as E.
  split; [symmetry; exact E|]. unfold marshal_length_prefixed. rewrite E. reflexivity.
Qed.

(** The program of Properties_Json.v, with a struct that has no map. *)
Definition j_post := TNamed 5%nat.
Definition post_fields : list sfield :=
  [tagged "ID" (TPrim PInt64) "id" "fixed64" ""; tagged "U" (TPrim PUint64) ",omitempty" "" "write_empty"; fld "Name" TStr "" ""; fld "T" TTime "" "";
   fld "Bz" (TSlice TByte) "" ""; fld "I" (TIface 0%nat) "" ""; fld "Is" (TSlice (TIface 0%nat)) "" "";
   fld "P" (TPtr j_foo) "" ""; tagged "Ps" (TSlice (TPtr TInt)) "ps,omitempty" "" ""; fld "Temp" j_temp "" ""; fld "J" (TPtr j_flag) "" "";
   hidden "secret" TInt; fld "Small" (TPrim PInt8) "" ""; fld "Arr" (TArray 2 (TPrim PBool)) "" ""; fld "Ls" (TPtr (TSlice TStr)) "" ""].
Definition post_env : tenv :=
  {| te_def := fun id => if (id =? 5)%nat then UStruct post_fields else jdemo_def id;
     te_zero := fun id => if (id =? 5)%nat then
                VStruct [VInt 0; VUint 0; VStr []; zero_time; VSlice None; VIface None; VSlice None; VPtr None; VSlice None; VInt 0;
                         VPtr None; VInt 0; VInt 0; VArr [VBool false; VBool false]; VPtr None] else jdemo_zero id;
     te_impl := te_impl jdemo; te_marshal := te_marshal jdemo; te_unmarshal := te_unmarshal jdemo; te_hash := te_hash jdemo |}.
Lemma post_wf : wf_env post_env.
Proof.
  split.
  - intros id. do 8 (destruct id as [|id]; [discriminate|]). discriminate.
  - intros id. do 8 (destruct id as [|id]; [reflexivity|]). reflexivity.
  - intros t i _. exact (fun H => H).
  - intros t i. exact (fun H => H).
  - exact (we_hash_len _ demo_wf).
  - exact (we_hash_ok _ demo_wf).
Qed.
Lemma post_typed : marshal_typed post_env.
Proof.
  intros id r f v w. cbn [te_marshal post_env jdemo]. destruct (id =? 2)%nat; [|discriminate]. intros H. injection H as <- <-.
  destruct v; cbn; try discriminate. destruct (_ <? 0); [discriminate|]. intros _ X. injection X as <-. cbn.
  apply forallb_forall. intros x Hx. apply repeat_spec in Hx. subst. reflexivity.
Qed.
Lemma post_indifferent : indifferent post_env.
Proof.
  intros id r f v w. cbn [te_marshal post_env jdemo]. destruct (id =? 2)%nat eqn:E; [|discriminate]. apply Nat.eqb_eq in E. subst id. intros H. injection H as <- <-.
  intros S. assert (R : resolve post_env (TNamed 2%nat) = RPrim PInt32) by reflexivity.
  inversion S; subst; try congruence. unfold same_result. destruct (temp_marshal w); [constructor|reflexivity|reflexivity|reflexivity].
Qed.
Definition post_types : list gotype :=
  [j_foo; j_post; j_temp; j_flag; TPrim PInt64; TPrim PUint64; TInt; TStr; TPrim PInt8; TPrim PBool; TTime; TSlice TByte; TIface 0%nat; TSlice (TIface 0%nat);
   TSlice (TPtr TInt); TArray 2 (TPrim PBool); TSlice TStr].
Definition post_mem (t : gotype) : bool := existsb (gotype_eqb t) post_types.
Lemma post_supported : jsupported post_env jdemo_je (run post_env new_codec jdemo_history) post_mem.
Proof.
  intros t H. unfold post_mem in H. apply existsb_exists in H. destruct H as (t' & H & Et). apply gotype_eqb_eq in Et. subst t'.
  do 2 (destruct H as [<-|H]; [vm_compute; reflexivity|]).
  destruct H as [<-|H].
  { split; [reflexivity|]. split; [reflexivity|]. split.
    - intros v w _ _ Hf. destruct v; try discriminate. cbn in Hf. destruct (_ <? 0); [discriminate|]. apply EOk_inj in Hf. subst w. cbn [json_value].
      apply valid_utf8_ok, utf8_ascii, Forall_forall. intros x Hx. apply repeat_spec in Hx. lia.
    - intros k v w w' _ Hf Hn. destruct v; try discriminate. cbn in Hf. destruct (_ <? 0); [discriminate|]. apply EOk_inj in Hf. subst w.
      destruct k as [|k]; [discriminate|]. cbn [jform] in Hn. change (is_ptr TStr) with false in Hn. cbn [deref_type is_iface andb orb] in Hn.
      destruct (negb _); [discriminate|]. change (deref_type TStr) with TStr in Hn. unfold TStr in Hn. cbn [under jnorm_plain resolve] in Hn. destruct (valid_utf8 (repeat 97 (Z.to_nat z))); [|discriminate]. injection Hn as <-.
      eexists. reflexivity. }
  destruct H as [<-|H].
  { intros v bz _ Hf _. destruct v as [x| | | | | | | | | | | | | |]; try discriminate. apply EOk_inj in Hf. subst bz. destruct x; eexists; reflexivity. }
  repeat (destruct H as [<-|H]; [vm_compute; first [reflexivity|exact I]|]). destruct H.
Qed.
Lemma post_passed : passed post_env jdemo_je (run post_env new_codec jdemo_history) post_mem.
Proof.
  intros t H. unfold post_mem in H. apply existsb_exists in H. destruct H as (t' & H & Et). apply gotype_eqb_eq in Et. subst t'.
  do 2 (destruct H as [<-|H]; [vm_compute; reflexivity|]).
  destruct H as [<-|H].
  { unfold passed_ok. change (methods post_env jdemo_je j_temp) with true. cbv iota. intros k v n v' Ht. destruct k as [|k]; [discriminate|].
    destruct v as [|z| | | | | | | | | | | | |]; try discriminate Ht. cbn [jform]. change (deref_type j_temp) with j_temp. cbn [is_ptr j_temp andb orb is_iface].
    destruct (negb _); [discriminate|]. cbn [under j_temp jdemo_je je_marshal je_unmarshal te_marshal te_unmarshal post_env jdemo Nat.eqb orb]. unfold temp_marshal.
    destruct (z <? 0) eqn:Z; [discriminate|]. change (gotype_eqb TStr TStr) with true. cbv iota. destruct k as [|k]; [discriminate|]. cbn [jform]. unfold TStr. cbn [is_ptr deref_type is_iface andb orb].
    destruct (negb _); [discriminate|]. cbn [under jnorm_plain resolve]. destruct (valid_utf8 _); [|discriminate]. cbn [ptrs].
    intros H. cbn in H. unfold zlen in H. rewrite repeat_length, Z2Nat.id in H by lia. injection H as <- <-. split; [reflexivity|].
    change (in_int 32 z = true) in Ht. unfold in_int in Ht. rewrite i32_small by lia. constructor. }
  destruct H as [<-|H].
  { unfold passed_ok. change (methods post_env jdemo_je j_flag) with true. cbv iota. intros k v n v' Ht. destruct k as [|k]; [discriminate|].
    destruct v as [b| | | | | | | | | | | | | |]; try discriminate Ht. cbn [jform]. change (deref_type j_flag) with j_flag. cbn [is_ptr j_flag andb orb is_iface].
    destruct (negb _); [discriminate|]. cbn [under j_flag jdemo_je je_marshal je_unmarshal Nat.eqb orb]. destruct b; cbn; intros H; injection H as <- <-; split; [reflexivity|constructor|reflexivity|constructor]. }
  repeat (destruct H as [<-|H]; [vm_compute; first [reflexivity|exact I]|]). destruct H.
Qed.
Lemma post_names t : name_ok (run post_env new_codec jdemo_history) t.
Proof.
  intros name ptr. unfold registration. assert (E : map (fun ci => option_map ri_name (ci_reg ci)) (cd_concretes (run post_env new_codec jdemo_history)) = [Some (bs "Foo"); Some (bs "test/Temp")]) by (vm_compute; reflexivity).
  destruct (cd_concretes _) as [|c1 [|c2 [|c3 l]]]; cbn [map] in E; try discriminate. injection E as E1 E2. cbn [find].
  destruct (ci_reg c1) as [r1|] eqn:R1; [|discriminate]. destruct (ci_reg c2) as [r2|] eqn:R2; [|discriminate]. cbn [option_map] in E1, E2. injection E1 as E1. injection E2 as E2.
  destruct (gotype_eqb (ci_type c1) _); [rewrite R1; intros H; injection H as <- <-; rewrite E1; split; [reflexivity|discriminate]|].
  destruct (gotype_eqb (ci_type c2) _); [rewrite R2; intros H; injection H as <- <-; rewrite E2; split; [reflexivity|discriminate]|discriminate].
Qed.
Definition post_value : value :=
  VStruct [VInt (-9223372036854775808); VUint 0; VStr [104; 34; 60; 195; 169]; VTime 5 7; VSlice (Some [VUint 1; VUint 255]);
           VIface (Some (j_foo, jfoo 3 4)); VSlice (Some [VIface (Some (TPtr j_temp, VPtr (Some (VInt 2)))); VIface None]);
           VPtr (Some (jfoo 0 0)); VSlice (Some []); VInt 3; VPtr (Some (VBool true)); VInt 77; VInt (-5); VArr [VBool true; VBool false];
           VPtr (Some (VSlice None))].
(** As [post_value], with other nothings, and other pointers in interfaces. *)
Definition post_norm : value :=
  VStruct [VInt (-9223372036854775808); VUint 0; VStr [104; 34; 60; 195; 169]; VTime 5 7; VSlice (Some [VUint 1; VUint 255]);
           VIface (Some (TPtr j_foo, VPtr (Some (jfoo 3 4)))); VSlice (Some [VIface (Some (j_temp, VInt 2)); VIface None]);
           VPtr (Some (jfoo 0 0)); VSlice None; VInt 3; VPtr (Some (VBool true)); VInt 0; VInt (-5); VArr [VBool true; VBool false];
           VPtr None].
Definition post_text : bytes :=
  bs "{""id"":""-9223372036854775808"",""Name"":""h\""\u003c" ++ [195; 169] ++ bs """,""T"":""5000000007Z"",""Bz"":""Af8="",""I"":{""type"":""Foo"",""value"":{""A"":""3"",""B"":""4""}},""Is"":[{""type"":""test/Temp"",""value"":""aa""},null],""P"":{""A"":""0"",""B"":""0""},""Temp"":""aaa"",""J"":""yes"",""Small"":-5,""Arr"":[true,false],""Ls"":null}".
Example C79_example : let c := run post_env new_codec jdemo_history in
  wf_env post_env /\ marshal_typed post_env /\ indifferent post_env /\ jenv_ok jdemo_je /\ clean post_env new_codec jdemo_history = true /\
  jsupported post_env jdemo_je c post_mem /\ passed post_env jdemo_je c post_mem /\ jpart_ok post_mem j_post = true /\ is_ptr j_post = false /\
  has_type post_env j_post post_value = true /\ json_value post_value = true /\ unsigned_zeros post_value = true /\ name_ok c j_post /\
  marshal_json 9 post_env jdemo_je c j_post post_value = EOk post_text /\
  unmarshal_json 10 post_env jdemo_je c post_text j_post (zero post_env j_post) = EOk post_norm /\ post_norm <> post_value /\
  exists bz, marshal_bare 9 post_env c j_post post_value = EOk bz /\ zlen bz = 64 /\ marshal_bare 9 post_env c j_post post_norm = EOk bz.
Proof.
  cbv zeta. split; [exact post_wf|]. split; [exact post_typed|]. split; [exact post_indifferent|]. split; [exact jdemo_je_ok|]. split; [vm_compute; reflexivity|].
  split; [exact post_supported|]. split; [exact post_passed|]. split; [reflexivity|]. split; [reflexivity|]. do 3 (split; [vm_compute; reflexivity|]).
  split; [apply post_names|]. split; [vm_compute; reflexivity|]. split; [vm_compute; reflexivity|]. split; [discriminate|]. eexists. repeat (split; [vm_compute; reflexivity|]). vm_compute. reflexivity.
Qed.

(** A program for the refutations. *)
Definition pass_def (id : tid) : udef :=
  match id with
  | 0%nat => UStruct [tagged "F" (TPrim PFloat64) ",omitempty" "" "unsafe"]
  | 1%nat => UStruct [fld "P" (TPtr (TSlice TInt)) "" "write_empty"]
  | 2%nat => UStruct [fld "P" (TPtr TInt) "" ""]
  | _ => UStruct []
  end.
Definition pass_zero (id : tid) : value :=
  match id with
  | 0%nat => VStruct [VFloat 0]
  | 1%nat | 2%nat => VStruct [VPtr None]
  | _ => VStruct []
  end.
Definition pass_demo : tenv :=
  {| te_def := pass_def; te_zero := pass_zero; te_impl := fun _ _ => false; te_marshal := fun _ => None; te_unmarshal := fun _ => None; te_hash := te_hash demo |}.
Lemma pass_wf : wf_env pass_demo.
Proof.
  split.
  - intros id. do 4 (destruct id as [|id]; [discriminate|]). discriminate.
  - intros id. do 4 (destruct id as [|id]; [reflexivity|]). reflexivity.
  - intros t i _. exact (fun H => H).
  - intros t i. exact (fun H => H).
  - exact (we_hash_len _ demo_wf).
  - exact (we_hash_ok _ demo_wf).
Qed.

(** A negative zero is left out under omitempty (json-encode.go:306, 448) and comes back
    as zero, which the binary encoder writes in another way. *)
Theorem C79_negative_zero_refuted : exists env je t v w bz bz', wf_env env /\ jenv_ok je /\ has_type env t v = true /\
  marshal_json 5 env je new_codec t v = EOk (bs "{}") /\ unmarshal_json 5 env je new_codec (bs "{}") t (zero env t) = EOk w /\
  marshal_bare 5 env new_codec t v = EOk bz /\ marshal_bare 5 env new_codec t w = EOk bz' /\ bz <> bz'.
Proof.
  exists pass_demo, jdemo_je, (TNamed 0%nat), (VStruct [VFloat (2 ^ 63)]). do 3 eexists.
  split; [exact pass_wf|]. split; [exact jdemo_je_ok|]. split; [reflexivity|].
  repeat (split; [vm_compute; reflexivity|]). vm_compute. discriminate.
Qed.

(** A pointer to a nil list is written as null and comes back nil; under write_empty the
    binary encoder writes the one and panics on the other. *)
Theorem C79_nil_list_refuted : exists env je t v w bz s, wf_env env /\ jenv_ok je /\ has_type env t v = true /\
  marshal_json 5 env je new_codec t v = EOk (bs "{""P"":null}") /\ unmarshal_json 5 env je new_codec (bs "{""P"":null}") t (zero env t) = EOk w /\
  marshal_bare 5 env new_codec t v = EOk bz /\ marshal_bare 5 env new_codec t w = EPanic s.
Proof.
  exists pass_demo, jdemo_je, (TNamed 1%nat), (VStruct [VPtr (Some (VSlice None))]). do 3 eexists.
  split; [exact pass_wf|]. split; [exact jdemo_je_ok|]. split; [reflexivity|].
  repeat (split; [vm_compute; reflexivity|]). vm_compute. reflexivity.
Qed.

(** The other way round there is no such law: a pointer to zero is read back as nil from
    binary, and the two are written as different JSON. *)
Theorem C79_through_binary_refuted : exists env je t v w bz, wf_env env /\ jenv_ok je /\ has_type env t v = true /\
  marshal_bare 5 env new_codec t v = EOk bz /\ unmarshal_bare 5 env new_codec bz t (zero env t) = URet w None /\
  marshal_json 5 env je new_codec t v = EOk (bs "{""P"":""0""}") /\ marshal_json 5 env je new_codec t w = EOk (bs "{""P"":null}").
Proof.
  exists pass_demo, jdemo_je, (TNamed 2%nat), (VStruct [VPtr (Some (VInt 0))]). do 2 eexists.
  split; [exact pass_wf|]. split; [exact jdemo_je_ok|]. split; [reflexivity|].
  repeat (split; [vm_compute; reflexivity|]). vm_compute. reflexivity.
Qed.

Print Assumptions C79_same_bytes_partial.
Print Assumptions C79_negative_zero_refuted.
Print Assumptions C79_nil_list_refuted.
Print Assumptions C79_through_binary_refuted.
