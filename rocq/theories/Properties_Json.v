(** JSON: C49, C50, C51, C52.  Vocabulary: SpecJson.v. *)
From Coq Require Import ZArith String List Bool Lia.
From Coq Require Import ZifyBool ZifyNat.
From Verif Require Import Base Prims SpecWire PrimFacts Types Codec Amino Registry SpecRegistry RegistryFacts Sane Typing Demo DemoFacts
  SpecNorm EncFacts FrameFacts JsonText Json SpecJson JsonTextFacts JsonFacts JsonProps Properties_Tags.
Import ListNotations.
Local Open Scope Z_scope.

(** ** A program for the examples *)

Definition j_foo := TNamed 0%nat.      (* struct { A, B int } *)
Definition j_doc := TNamed 1%nat.      (* one field of every sort *)
Definition j_temp := TNamed 2%nat.     (* int32, MarshalAmino to string *)
Definition j_flag := TNamed 3%nat.     (* bool, MarshalJSON and UnmarshalJSON *)
Definition j_float := TNamed 4%nat.    (* struct { X float64 `amino:"unsafe"` } *)
Definition j_pflag := TNamed 6%nat.    (* bool, MarshalJSON on the pointer, UnmarshalJSON *)
Definition j_twice := TNamed 7%nat.    (* two fields of the same name *)
Definition doc_fields : list sfield :=
  [tagged "ID" (TPrim PInt64) "id" "" ""; tagged "U" (TPrim PUint64) ",omitempty" "" ""; fld "Name" TStr "" ""; fld "T" TTime "" "";
   fld "Bz" (TSlice TByte) "" ""; fld "M" (TMap TStr j_foo) "" ""; fld "I" (TIface 0%nat) "" ""; fld "Is" (TSlice (TIface 0%nat)) "" "";
   fld "P" (TPtr j_foo) "" ""; tagged "Ps" (TSlice (TPtr TInt)) "ps,omitempty" "" ""; fld "Temp" j_temp "" ""; fld "J" (TPtr j_flag) "" "";
   hidden "secret" TInt; fld "Small" (TPrim PInt8) "" ""; fld "Arr" (TArray 2 (TPrim PBool)) "" ""].
Definition jdemo_def (id : tid) : udef :=
  match id with
  | 0%nat => UStruct [fld "A" TInt "" ""; fld "B" TInt "" ""]
  | 1%nat => UStruct doc_fields
  | 2%nat => UType (TPrim PInt32)
  | 3%nat | 6%nat => UType (TPrim PBool)
  | 4%nat => UStruct [fld "X" (TPrim PFloat64) "" "unsafe"]
  | 7%nat => UStruct [tagged "X" TInt "n" "" ""; tagged "Y" TInt "n" "" ""]
  | _ => UStruct []
  end.
Definition jdemo_zero (id : tid) : value :=
  match id with
  | 0%nat => VStruct [VInt 0; VInt 0]
  | 1%nat => VStruct [VInt 0; VUint 0; VStr []; zero_time; VSlice None; VMap None; VIface None; VSlice None; VPtr None; VSlice None; VInt 0;
                      VPtr None; VInt 0; VInt 0; VArr [VBool false; VBool false]]
  | 2%nat => VInt 0
  | 3%nat | 6%nat => VBool false
  | 4%nat => VStruct [VFloat 0]
  | 7%nat => VStruct [VInt 0; VInt 0]
  | _ => VStruct []
  end.
Definition jdemo : tenv :=
  {| te_def := jdemo_def; te_zero := jdemo_zero; te_impl := fun _ i => (i =? 0)%nat;
     te_marshal := fun id => if (id =? 2)%nat then Some (MOk TStr temp_marshal) else None;
     te_unmarshal := fun id => if (id =? 2)%nat then Some (UOk TStr temp_unmarshal) else None;
     te_hash := te_hash demo |}.
Lemma jdemo_wf : wf_env jdemo.
Proof.
  split.
  - intros id. do 8 (destruct id as [|id]; [discriminate|]). discriminate.
  - intros id. do 8 (destruct id as [|id]; [reflexivity|]). reflexivity.
  - intros t i _. exact (fun H => H).
  - intros t i. exact (fun H => H).
  - exact (we_hash_len _ demo_wf).
  - exact (we_hash_ok _ demo_wf).
Qed.
Lemma jdemo_marshal_typed : marshal_typed jdemo.
Proof.
  intros id r f v w. cbn [te_marshal jdemo]. destruct (id =? 2)%nat; [|discriminate]. intros H. injection H as <- <-.
  destruct v; cbn; try discriminate. destruct (_ <? 0); [discriminate|]. intros _ X. injection X as <-. cbn.
  apply forallb_forall. intros x Hx. apply repeat_spec in Hx. subst. reflexivity.
Qed.
(** Times as a number of nanoseconds, flags as "yes" and "no".  (The real text of a time is
    longer; all that matters here is [jenv_ok].) *)
Definition nanos : Z := 1000000000.
Definition flag_text (v : value) : eres bytes :=
  match v with VBool b => EOk (bs (if b then """yes""" else """no""")) | _ => EPanic "not a flag"%string end.
Definition flag_read (bz : bytes) (_ : value) : eres value :=
  if beqb bz (bs """yes""") then EOk (VBool true) else if beqb bz (bs """no""") then EOk (VBool false) else EErr "not a flag"%string.
Definition jdemo_je : jenv :=
  {| je_time := fun s ns => if (0 <=? ns) && (ns <? nanos) && in_int 64 s then EOk (34 :: itoa (s * nanos + ns) ++ [90; 34]) else EErr "out of range"%string;
     je_untime := fun b => match parse_int (removelast (removelast (tl b))) with Some z => if in_int 64 (z / nanos) then EOk (z / nanos, z mod nanos) else EErr "no time"%string | None => EErr "no time"%string end;
     je_float := fun _ b => EOk (itoa b);
     je_unfloat := fun _ _ => EOk 0;
     je_marshal := fun id => if (id =? 3)%nat then Some (true, flag_text) else if (id =? 6)%nat then Some (false, flag_text) else None;
     je_unmarshal := fun id => if (id =? 3)%nat || (id =? 6)%nat then Some flag_read else None |}.
Lemma jdemo_je_ok : jenv_ok jdemo_je.
Proof.
  assert (D : forall z, jtext (itoa z) /\ utf8 (itoa z)).
  { intros z. split; [apply jt_number, (decimal_number _ z), itoa_ok|]. apply utf8_ascii. eapply Forall_impl; [|apply itoa_ascii]. cbv beta. intros; lia. }
  assert (F : forall v b, flag_text v = EOk b -> jtext b /\ utf8 b).
  { intros v b H. destruct v as [x| | | | | | | | | | | | | |]; try discriminate. apply EOk_inj in H. subst b. split.
    - destruct x; [apply (jt_string [121; 101; 115])|apply (jt_string [110; 111])]; repeat (apply jc_plain; [lia|lia|lia|]); apply jc_nil.
    - destruct x; apply utf8_ascii; cbn; repeat (apply Forall_cons; [lia|]); apply Forall_nil. }
  split.
  - intros s ns b. cbn [je_time jdemo_je]. destruct (_ && _); [|discriminate]. intros H. apply EOk_inj in H. subst b.
    pose proof (itoa_ascii (s * nanos + ns)) as B. set (n := itoa _) in *. clearbody n.
    change (34 :: n ++ [90; 34]) with (34 :: n ++ [90] ++ [34]). rewrite app_assoc. split; [|split].
    + apply jt_string, jchars_plain. apply Forall_app. split; [eapply Forall_impl; [|exact B]; cbv beta; intros; lia|constructor; [lia|constructor]].
    + apply utf8_ascii. constructor; [lia|]. rewrite <- app_assoc. apply Forall_app. split; [eapply Forall_impl; [|exact B]; cbv beta; intros; lia|].
      repeat (apply Forall_cons; [lia|]). apply Forall_nil.
    + exists n. rewrite <- app_assoc. reflexivity.
  - intros s ns b Hn. cbn [je_time je_untime jdemo_je]. destruct (_ && _) eqn:R; [|discriminate]. intros H. apply EOk_inj in H. subst b.
    assert (E : removelast (removelast (tl (34 :: itoa (s * nanos + ns) ++ [90; 34]))) = itoa (s * nanos + ns)).
    { cbn [tl]. change [90; 34] with ([90] ++ [34]). rewrite app_assoc, removelast_last, removelast_last. reflexivity. }
    rewrite E, (parse_int_ok _ _ (itoa_ok _)). unfold nanos in *.
    replace ((s * 1000000000 + ns) / 1000000000) with s by lia. apply andb_true_iff in R. rewrite (proj2 R). f_equal. f_equal; lia.
  - intros p x b H. apply EOk_inj in H. subst b. apply D.
  - intros id byval f v b. cbn [je_marshal jdemo_je]. destruct (id =? 3)%nat; [intros H; injection H as <- <-; apply F|].
    destruct (id =? 6)%nat; [intros H; injection H as <- <-; apply F|discriminate].
Qed.
Definition jdemo_history : list op := [OIface 0%nat None; OConc (TPtr j_foo) (bs "Foo"); OConc j_temp (bs "test/Temp"); OSeal].
Definition jfoo (a b : Z) : value := VStruct [VInt a; VInt b].
Definition doc_value : value :=
  VStruct [VInt (-9223372036854775808); VUint 0; VStr [104; 34; 60; 195; 169]; VTime 5 7; VSlice (Some [VUint 1; VUint 255]);
           VMap (Some [(VStr [107], jfoo 1 2)]); VIface (Some (j_foo, jfoo 3 4)); VSlice (Some [VIface (Some (TPtr j_temp, VPtr (Some (VInt 2)))); VIface None]);
           VPtr (Some (jfoo 0 0)); VSlice (Some []); VInt 3; VPtr (Some (VBool true)); VInt 77; VInt (-5); VArr [VBool true; VBool false]].
Definition doc_norm : value :=
  VStruct [VInt (-9223372036854775808); VUint 0; VStr [104; 34; 60; 195; 169]; VTime 5 7; VSlice (Some [VUint 1; VUint 255]);
           VMap (Some [(VStr [107], jfoo 1 2)]); VIface (Some (TPtr j_foo, VPtr (Some (jfoo 3 4)))); VSlice (Some [VIface (Some (j_temp, VInt 2)); VIface None]);
           VPtr (Some (jfoo 0 0)); VSlice None; VInt 3; VPtr (Some (VBool true)); VInt 0; VInt (-5); VArr [VBool true; VBool false]].
Definition doc_text : bytes :=
  bs "{""id"":""-9223372036854775808"",""Name"":""h\""\u003c" ++ [195; 169] ++ bs """,""T"":""5000000007Z"",""Bz"":""Af8="",""M"":{""k"":{""A"":""1"",""B"":""2""}},""I"":{""type"":""Foo"",""value"":{""A"":""3"",""B"":""4""}},""Is"":[{""type"":""test/Temp"",""value"":""aa""},null],""P"":{""A"":""0"",""B"":""0""},""Temp"":""aaa"",""J"":""yes"",""Small"":-5,""Arr"":[true,false]}".

(** ** C49 *)

(** Whatever has a JSON normal form can be written, also through a pointer, and is read
    back as that normal form. *)
Theorem C49_normal_form_partial : forall env je h, wf_env env -> marshal_typed env -> jenv_ok je -> clean env new_codec h = true ->
  forall k t v w, let c := run env new_codec h in
  jnorm k env je c t v = Some w -> has_type env t v = true -> name_ok c t ->
  exists bz, forall m, (k <= m)%nat ->
    marshal_json m env je c t v = EOk bz /\ marshal_json m env je c (TPtr t) (VPtr (Some v)) = EOk bz /\
    unmarshal_json m env je c bz t (zero env t) = EOk w.
Proof.
  intros env je h We Hm Hj Hc k t v w c. exact (top_round env je c We (wf_history env h Hc) (sane_run env h) Hm Hj k t v w).
Qed.

(** Values of supported types have one, if MarshalJSON accepts them. *)
Theorem C49_supported_partial : forall env je h mem, wf_env env -> marshal_typed env -> jenv_ok je -> clean env new_codec h = true ->
  jsupported env je (run env new_codec h) mem ->
  forall k t v bz, let c := run env new_codec h in
  jpart_ok mem t = true -> has_type env t v = true -> json_value v = true -> name_ok c t ->
  marshal_json k env je c t v = EOk bz ->
  exists w, jnorm (S k) env je c t v = Some w /\ forall m, (k < m)%nat -> unmarshal_json m env je c bz t (zero env t) = EOk w.
Proof.
  intros env je h mem We Hm Hj Hc Hs k t v bz c. exact (top_supported env je c We (wf_history env h Hc) (sane_run env h) Hm Hj mem k t v bz Hs).
Qed.

Definition jdemo_types : list gotype :=
  [j_foo; j_doc; j_temp; j_flag; TPrim PInt64; TPrim PUint64; TInt; TStr; TPrim PInt8; TPrim PBool; TTime; TSlice TByte; TMap TStr j_foo; TIface 0%nat; TSlice (TIface 0%nat);
   TSlice (TPtr TInt); TArray 2 (TPrim PBool)].
Definition jdemo_mem (t : gotype) : bool := existsb (gotype_eqb t) jdemo_types.
Lemma jdemo_supported : jsupported jdemo jdemo_je (run jdemo new_codec jdemo_history) jdemo_mem.
Proof.
  intros t H. unfold jdemo_mem in H. apply existsb_exists in H. destruct H as (t' & H & Et). apply gotype_eqb_eq in Et. subst t'.
  do 2 (destruct H as [<-|H]; [vm_compute; reflexivity|]).
  destruct H as [<-|H].
  { split; [reflexivity|]. split; [reflexivity|]. split.
    - intros v w _ _ Hf. destruct v; try discriminate. cbn in Hf. destruct (_ <? 0); [discriminate|]. apply EOk_inj in Hf. subst w. cbn [json_value].
      apply valid_utf8_ok, utf8_ascii, Forall_forall. intros x Hx. apply repeat_spec in Hx. lia.
    - intros k v w w' _ Hf Hn. destruct v; try discriminate. cbn in Hf. destruct (_ <? 0); [discriminate|]. apply EOk_inj in Hf. subst w.
      destruct k as [|k]; [discriminate|]. cbn [jform] in Hn. change (is_ptr TStr) with false in Hn. cbn [deref_type is_iface andb orb] in Hn.
      destruct (negb _); [discriminate|]. change (deref_type TStr) with TStr in Hn. unfold TStr in Hn. cbn [under jnorm_plain resolve] in Hn. destruct (valid_utf8 (repeat 97 (Z.to_nat z))); [|discriminate]. injection Hn as <-.
      eexists. reflexivity. }
  destruct H as [<-|H].
  { intros v bz _ Hf _. destruct v as [x| | | | | | | | | | | | | |]; try discriminate. apply EOk_inj in Hf. subst bz. destruct x; eexists; reflexivity. }
  repeat (destruct H as [<-|H]; [vm_compute; first [reflexivity|exact I]|]). destruct H.
Qed.
Lemma jdemo_names t : name_ok (run jdemo new_codec jdemo_history) t.
Proof.
  intros name ptr. unfold registration. assert (E : map (fun ci => option_map ri_name (ci_reg ci)) (cd_concretes (run jdemo new_codec jdemo_history)) = [Some (bs "Foo"); Some (bs "test/Temp")]) by (vm_compute; reflexivity).
  destruct (cd_concretes _) as [|c1 [|c2 [|c3 l]]]; cbn [map] in E; try discriminate. injection E as E1 E2. cbn [find].
  destruct (ci_reg c1) as [r1|] eqn:R1; [|discriminate]. destruct (ci_reg c2) as [r2|] eqn:R2; [|discriminate]. cbn [option_map] in E1, E2. injection E1 as E1. injection E2 as E2.
  destruct (gotype_eqb (ci_type c1) _); [rewrite R1; intros H; injection H as <- <-; rewrite E1; split; [reflexivity|discriminate]|].
  destruct (gotype_eqb (ci_type c2) _); [rewrite R2; intros H; injection H as <- <-; rewrite E2; split; [reflexivity|discriminate]|discriminate].
Qed.
Example C49_example : let c := run jdemo new_codec jdemo_history in
  wf_env jdemo /\ marshal_typed jdemo /\ jenv_ok jdemo_je /\ clean jdemo new_codec jdemo_history = true /\
  jsupported jdemo jdemo_je c jdemo_mem /\ jpart_ok jdemo_mem j_doc = true /\ has_type jdemo j_doc doc_value = true /\ json_value doc_value = true /\
  name_ok c j_doc /\ name_ok c (TPtr j_foo) /\
  jnorm 9 jdemo jdemo_je c j_doc doc_value = Some doc_norm /\ jnorm 9 jdemo jdemo_je c j_doc doc_norm = Some doc_norm /\
  marshal_json 9 jdemo jdemo_je c j_doc doc_value = EOk doc_text /\
  unmarshal_json 9 jdemo jdemo_je c doc_text j_doc (zero jdemo j_doc) = EOk doc_norm /\
  marshal_json 9 jdemo jdemo_je c j_foo (jfoo 1 2) = EOk (bs "{""type"":""Foo"",""value"":{""A"":""1"",""B"":""2""}}").
Proof.
  cbv zeta. split; [exact jdemo_wf|]. split; [exact jdemo_marshal_typed|]. split; [exact jdemo_je_ok|]. split; [vm_compute; reflexivity|].
  split; [exact jdemo_supported|]. split; [reflexivity|]. split; [vm_compute; reflexivity|]. split; [vm_compute; reflexivity|].
  split; [apply jdemo_names|]. split; [apply jdemo_names|]. repeat (split; [vm_compute; reflexivity|]). vm_compute. reflexivity.
Qed.

(** A float can be written, in a field tagged unsafe, but not read: json-decode.go:416 passes
    on the options of the struct instead of those of the field. *)
Theorem C49_float_refuted : exists env je t v bz e, wf_env env /\ marshal_typed env /\ jenv_ok je /\ has_type env t v = true /\
  marshal_json 5 env je new_codec t v = EOk bz /\ unmarshal_json 5 env je new_codec bz t (zero env t) = EErr e.
Proof.
  exists jdemo, jdemo_je, j_float, (VStruct [VFloat 5]). do 2 eexists.
  split; [exact jdemo_wf|]. split; [exact jdemo_marshal_typed|]. split; [exact jdemo_je_ok|]. split; [vm_compute; reflexivity|]. split; [vm_compute; reflexivity|]. vm_compute; reflexivity.
Qed.
(** A string that is not UTF-8 is read back as another. *)
Theorem C49_invalid_utf8_refuted : exists env je v v' bz, wf_env env /\ jenv_ok je /\ has_type env TStr v = true /\
  marshal_json 5 env je new_codec TStr v = EOk bz /\ unmarshal_json 5 env je new_codec bz TStr (zero env TStr) = EOk v' /\ v' <> v.
Proof.
  exists jdemo, jdemo_je, (VStr [255]). do 2 eexists. split; [exact jdemo_wf|]. split; [exact jdemo_je_ok|]. split; [reflexivity|].
  split; [vm_compute; reflexivity|]. split; [vm_compute; reflexivity|]. discriminate.
Qed.
(** A nil map is read back as an empty one. *)
Theorem C49_nil_map_refuted : exists env je t bz, wf_env env /\ jenv_ok je /\ has_type env t (VMap None) = true /\
  marshal_json 5 env je new_codec t (VMap None) = EOk bz /\ unmarshal_json 5 env je new_codec bz t (zero env t) = EOk (VMap (Some [])).
Proof.
  exists jdemo, jdemo_je, (TMap TStr TInt). eexists. split; [exact jdemo_wf|]. split; [exact jdemo_je_ok|]. split; [reflexivity|]. split; [vm_compute; reflexivity|]. vm_compute; reflexivity.
Qed.
(** Two fields with the same JSON name. *)
Theorem C49_same_name_refuted : exists env je t v v' bz, wf_env env /\ jenv_ok je /\ has_type env t v = true /\
  marshal_json 5 env je new_codec t v = EOk bz /\ unmarshal_json 5 env je new_codec bz t (zero env t) = EOk v' /\ v' <> v.
Proof.
  exists jdemo, jdemo_je, j_twice, (VStruct [VInt 1; VInt 2]). do 2 eexists. split; [exact jdemo_wf|]. split; [exact jdemo_je_ok|]. split; [reflexivity|].
  split; [vm_compute; reflexivity|]. split; [vm_compute; reflexivity|]. discriminate.
Qed.
(** MarshalJSON declared on the pointer is used only for values that can be addressed. *)
Theorem C49_pointer_method_refuted : exists env je t v bz e, wf_env env /\ jenv_ok je /\ has_type env t v = true /\
  marshal_json 5 env je new_codec t v = EOk bz /\ unmarshal_json 5 env je new_codec bz t (zero env t) = EErr e /\
  exists bz', marshal_json 5 env je new_codec (TPtr t) (VPtr (Some v)) = EOk bz' /\ unmarshal_json 5 env je new_codec bz' t (zero env t) = EOk v.
Proof.
  exists jdemo, jdemo_je, j_pflag, (VBool true). do 2 eexists. split; [exact jdemo_wf|]. split; [exact jdemo_je_ok|]. split; [reflexivity|].
  split; [vm_compute; reflexivity|]. split; [vm_compute; reflexivity|]. eexists. split; [vm_compute; reflexivity|]. vm_compute; reflexivity.
Qed.
Print Assumptions C49_normal_form_partial.
Print Assumptions C49_supported_partial.
Print Assumptions C49_float_refuted.
Print Assumptions C49_invalid_utf8_refuted.
Print Assumptions C49_nil_map_refuted.
Print Assumptions C49_same_name_refuted.
Print Assumptions C49_pointer_method_refuted.

(** ** C50 *)

(** What MarshalJSON writes is a JSON text in UTF-8. *)
Theorem C50_valid_partial : forall env je h, wf_env env -> marshal_typed env -> jenv_ok je -> clean env new_codec h = true ->
  byte_names env -> (forall t0 name, In (t0, name) (conc_calls h) -> unescaped name = true) ->
  forall k t v bz, has_type env t v = true -> marshal_json k env je (run env new_codec h) t v = EOk bz -> jtext bz /\ utf8 bz.
Proof.
  intros env je h We Hm Hj Hc Hb Hn k t v bz. pose proof (wf_history env h Hc) as Wc.
  refine (marshal_valid env je _ We Wc (sane_run env h) Hm Hj _ Hb k t v bz).
  intros t' name ptr R. destruct (registration_info env _ Wc _ _ _ R) as (ci & r & Hin & _ & Hr & Hnm & _).
  destruct (registered_call env h ci r Hc Hin Hr) as (t0 & n & Hcall & _ & _ & En). rewrite <- Hnm, En. exact (Hn _ _ Hcall).
Qed.
Lemma jdemo_byte_names : byte_names jdemo.
Proof.
  assert (K : forall d fs name, (match d with UStruct fs' => Some fs' | _ => None end) = Some fs -> In d (map jdemo_def [0; 1; 4; 7; 8]%nat) -> In name (json_names fs) -> forallb byte_ok name = true).
  { intros d fs name E Hin Hnm. assert (F : forallb (fun d => match d with UStruct fs' => forallb (forallb byte_ok) (json_names fs') | _ => true end) (map jdemo_def [0; 1; 4; 7; 8]%nat) = true) by (vm_compute; reflexivity).
    rewrite forallb_forall in F. specialize (F d Hin). destruct d as [fs'|]; [|discriminate]. injection E as ->. rewrite forallb_forall in F. exact (F name Hnm). }
  intros t fs name Hr Hn. destruct t as [p| |n e|e|e|kt vt| | |i|id]; try discriminate.
  assert (D : jdemo_def id = UStruct fs) by (do 8 (destruct id as [|id]; [first [discriminate|injection Hr as <-; reflexivity]|]); injection Hr as <-; reflexivity).
  do 8 (destruct id as [|id]; [first [discriminate|apply (K (UStruct fs) fs name eq_refl); [rewrite <- D; cbn [map In]; tauto|exact Hn]]|]).
  injection D as <-. destruct Hn.
Qed.
Example C50_example : byte_names jdemo /\ (forall t0 name, In (t0, name) (conc_calls jdemo_history) -> unescaped name = true) /\
  marshal_json 9 jdemo jdemo_je (run jdemo new_codec jdemo_history) j_doc doc_value = EOk doc_text /\
  match json_top doc_text with Some (JObj l) => length l = 12%nat | _ => False end.
Proof.
  split; [exact jdemo_byte_names|]. split; [intros t0 name [H|[H|[]]]; injection H as <- <-; reflexivity|]. split; [vm_compute; reflexivity|]. vm_compute. reflexivity.
Qed.
(** Registered names are written as they are. *)
Theorem C50_name_refuted : exists env je h t v bz, wf_env env /\ marshal_typed env /\ jenv_ok je /\ clean env new_codec h = true /\
  byte_names env /\ has_type env t v = true /\ marshal_json 5 env je (run env new_codec h) t v = EOk bz /\ ~ jtext bz.
Proof.
  exists jdemo, jdemo_je, [OConc j_foo (bs "a""b")], j_foo, (jfoo 1 2). eexists. split; [exact jdemo_wf|]. split; [exact jdemo_marshal_typed|].
  split; [exact jdemo_je_ok|]. split; [vm_compute; reflexivity|]. split; [exact jdemo_byte_names|]. split; [reflexivity|]. split; [vm_compute; reflexivity|].
  intros H. apply jtext_top in H. destruct H as (j & H & _). vm_compute in H. discriminate.
Qed.
Print Assumptions C50_valid_partial.
Print Assumptions C50_name_refuted.

(** ** C51 *)

(** An integer of type int64, int, uint64 or uint, at any depth and behind any pointers, is
    written as its decimal digits in quotes. *)
Theorem C51_written : forall env je h, wf_env env ->
  forall m t z info v ad o, let c := run env new_codec h in
  get_type_info env c t = EOk info -> wide env (deref_type t) = true -> methodless env je (deref_type t) ->
  under v = Some (int_value env (deref_type t) z) ->
  exists b, encode_json (S m) env je c info v ad o = EOk (34 :: b ++ [34]) /\ decimal b z.
Proof. intros env je h We m t z info v ad o c. exact (wide_written env je c (sane_run env h) m t z info v ad o). Qed.
(** It is read only from such a text, and is then the number written there.  (Blanks inside the
    quotes, "-0" and "null" are tolerated; null itself stands for the zero value.) *)
Theorem C51_read : forall env je h, wf_env env ->
  forall m t info bz v0 v o, let c := run env new_codec h in
  get_type_info env c t = EOk info -> wide env (deref_type t) = true -> methodless env je (deref_type t) ->
  decode_json m env je c bz info t v0 o = EOk v -> bz <> bs "null" ->
  exists w n w' z, bz = 34 :: (w ++ n ++ w') ++ [34] /\ spaces w /\ spaces w' /\
    (decimal n z \/ z = 0 /\ (n = bs "-0" \/ n = bs "null")) /\ v = ptrs t (int_value env (deref_type t) z) /\
    has_type env (deref_type t) (int_value env (deref_type t) z) = true.
Proof. intros env je h We m t info bz v0 v o c. exact (wide_accepted env je c (sane_run env h) m t info bz v0 v o). Qed.
(** Anything else but null that does not start with a quote is an error. *)
Theorem C51_unquoted : forall env je h, wf_env env ->
  forall m t info bz v0 o, let c := run env new_codec h in
  get_type_info env c t = EOk info -> wide env (deref_type t) = true -> methodless env je (deref_type t) ->
  (forall inner, bz <> 34 :: inner) -> bz <> [] -> bz <> bs "null" ->
  exists e, decode_json (S m) env je c bz info t v0 o = EErr e.
Proof. intros env je h We m t info bz v0 o c. exact (wide_rejected env je c (sane_run env h) m t info bz v0 o). Qed.
Example C51_example : let c := run jdemo new_codec jdemo_history in
  wide jdemo (deref_type (TPtr (TPrim PInt64))) = true /\ methodless jdemo jdemo_je (TPrim PInt64) /\
  marshal_json 3 jdemo jdemo_je c (TPtr (TPrim PInt64)) (VPtr (Some (VInt 9007199254740993))) = EOk (bs """9007199254740993""") /\
  unmarshal_json 3 jdemo jdemo_je c (bs """9007199254740993""") (TPrim PInt64) (VInt 0) = EOk (VInt 9007199254740993) /\
  (exists e, unmarshal_json 3 jdemo jdemo_je c (bs "9007199254740993") (TPrim PInt64) (VInt 0) = EErr e) /\
  (exists e, unmarshal_json 3 jdemo jdemo_je c (bs """9007199254740993.0""") (TPrim PInt64) (VInt 0) = EErr e) /\
  (exists e, unmarshal_json 3 jdemo jdemo_je c (bs """9223372036854775808""") (TPrim PInt64) (VInt 0) = EErr e) /\
  unmarshal_json 3 jdemo jdemo_je c (bs """-0""") (TPrim PInt64) (VInt 7) = EOk (VInt 0) /\
  unmarshal_json 3 jdemo jdemo_je c (bs "{""id"":""12"",""U"":""18446744073709551615""}") j_doc (zero jdemo j_doc) =
    EOk (VStruct (VInt 12 :: VUint 18446744073709551615 :: skipn 2 (match zero jdemo j_doc with VStruct l => l | _ => [] end))).
Proof.
  cbv zeta. split; [reflexivity|]. split; [exact I|]. do 2 (split; [vm_compute; reflexivity|]). do 3 (split; [eexists; vm_compute; reflexivity|]).
  split; [vm_compute; reflexivity|]. vm_compute; reflexivity.
Qed.
Print Assumptions C51_written.
Print Assumptions C51_read.
Print Assumptions C51_unquoted.

(** ** C52 *)

(** A non-nil interface is written as the name that the type of its contents was registered
    under, and the text of its contents. *)
Theorem C52_written : forall env je h, wf_env env -> clean env new_codec h = true ->
  forall m t info i v ct cv ad o bz, let c := run env new_codec h in
  get_type_info env c t = EOk info -> deref_type t = TIface i -> under v = Some (VIface (Some (ct, cv))) ->
  encode_json m env je c info v ad o = EOk bz ->
  exists t0 name x cinfo body, In (t0, name) (conc_calls h) /\ conc_of t0 = deref_type ct /\ under cv = Some x /\
    get_type_info env c (deref_type ct) = EOk cinfo /\
    encode_json (pred m) env je c cinfo x (val_is_ptr cv) o = EOk body /\
    bz = bs "{""type"":""" ++ name ++ bs """,""value"":" ++ body ++ bs "}".
Proof. intros env je h We Hc m t info i v ct cv ad o bz c. exact (iface_written env je h Hc m t info i v ct cv ad o bz). Qed.
(** An interface is read only from an object whose member "type" names a registered type that
    implements it; the contents are of that type, as registered, and read from the member
    "value".  (The last of several such members counts, capitals do not matter.) *)
Theorem C52_read : forall env je h, wf_env env -> clean env new_codec h = true ->
  forall m t info i bz v0 v o, let c := run env new_codec h in
  get_type_info env c t = EOk info -> deref_type t = TIface i ->
  decode_json m env je c bz info t v0 o = EOk v -> bz <> bs "null" ->
  exists w x w' l name data t0 cinfo cv, bz = w ++ x ++ w' /\ spaces w /\ spaces w' /\ jobject l x /\
    string_member (bs "type") l name /\ text_member (bs "value") l data /\ In (t0, name) (conc_calls h) /\ te_impl env t0 i = true /\
    get_type_info env c (conc_of t0) = EOk cinfo /\
    decode_json (pred m) env je c data cinfo (conc_of t0) (zero env (conc_of t0)) o = EOk cv /\
    v = VIface (Some (t0, if is_ptr t0 then VPtr (Some cv) else cv)).
Proof. intros env je h We Hc m t info i bz v0 v o c. exact (iface_read env je h Hc m t info i bz v0 v o). Qed.
(** What is written is resolved to the same type. *)
Theorem C52_resolves_partial : forall env je h, wf_env env -> clean env new_codec h = true ->
  forall m i info t0 name body v0 o, let c := run env new_codec h in
  get_type_info env c (TIface i) = EOk info -> In (t0, name) (conc_calls h) -> te_impl env t0 i = true ->
  unescaped name = true -> name <> [] -> jtext body ->
  exists cinfo, get_type_info env c (conc_of t0) = EOk cinfo /\
    decode_json (S m) env je c (bs "{""type"":""" ++ name ++ bs """,""value"":" ++ body ++ bs "}") info (TIface i) v0 o =
    ebind (decode_json m env je c body cinfo (conc_of t0) (zero env (conc_of t0)) o) (fun cv =>
      EOk (VIface (Some (t0, if is_ptr t0 then VPtr (Some cv) else cv)))).
Proof. intros env je h We Hc m i info t0 name body v0 o c. exact (iface_resolves env je h Hc m i info t0 name body v0 o). Qed.
(** A name that is not registered is an error. *)
Theorem C52_unknown : forall env je h, wf_env env -> clean env new_codec h = true ->
  forall m i info name body v0 o, let c := run env new_codec h in
  get_type_info env c (TIface i) = EOk info -> (forall t0, ~ In (t0, name) (conc_calls h)) ->
  unescaped name = true -> name <> [] -> jtext body ->
  exists e, decode_json (S m) env je c (bs "{""type"":""" ++ name ++ bs """,""value"":" ++ body ++ bs "}") info (TIface i) v0 o = EErr e.
Proof. intros env je h We Hc m i info name body v0 o c. exact (iface_unknown env je h Hc m i info name body v0 o). Qed.
(** Registered types are written and read with their name at the top level too. *)
Theorem C52_top_written : forall env je h, wf_env env -> clean env new_codec h = true ->
  forall m t v bz t0 name, In (t0, name) (conc_calls h) -> conc_of t0 = deref_type t ->
  marshal_json m env je (run env new_codec h) t v = EOk bz ->
  exists body, bz = bs "{""type"":""" ++ name ++ bs """,""value"":" ++ body ++ bs "}".
Proof. intros env je h We Hc m t v bz t0 name. exact (top_written env je h Hc m t v bz t0 name). Qed.
Theorem C52_top_read : forall env je h, wf_env env -> clean env new_codec h = true ->
  forall m t v0 v bz t0 name, In (t0, name) (conc_calls h) -> conc_of t0 = deref_type t ->
  unmarshal_json m env je (run env new_codec h) bz t v0 = EOk v ->
  exists w x w' l data, bz = w ++ x ++ w' /\ spaces w /\ spaces w' /\ jobject l x /\ string_member (bs "type") l name /\ text_member (bs "value") l data.
Proof. intros env je h We Hc m t v0 v bz t0 name. exact (top_read env je h Hc m t v0 v bz t0 name). Qed.
(** A name with a quote in it cannot be read back. *)
Theorem C52_name_refuted : exists env je h t v bz e, wf_env env /\ jenv_ok je /\ clean env new_codec h = true /\ has_type env t v = true /\
  marshal_json 5 env je (run env new_codec h) t v = EOk bz /\ unmarshal_json 5 env je (run env new_codec h) bz t (zero env t) = EErr e.
Proof.
  exists jdemo, jdemo_je, [OIface 0%nat None; OConc j_foo (bs "a""b")], (TSlice (TIface 0%nat)), (VSlice (Some [VIface (Some (j_foo, jfoo 1 2))])). do 2 eexists.
  split; [exact jdemo_wf|]. split; [exact jdemo_je_ok|]. split; [vm_compute; reflexivity|]. split; [reflexivity|]. split; [vm_compute; reflexivity|]. vm_compute; reflexivity.
Qed.
Example C52_example : let c := run jdemo new_codec jdemo_history in
  In (TPtr j_foo, bs "Foo") (conc_calls jdemo_history) /\ te_impl jdemo (TPtr j_foo) 0%nat = true /\ unescaped (bs "Foo") = true /\
  (forall t0, ~ In (t0, bs "Bar") (conc_calls jdemo_history)) /\
  marshal_json 5 jdemo jdemo_je c (TSlice (TIface 0%nat)) (VSlice (Some [VIface (Some (j_foo, jfoo 1 2))])) =
    EOk (bs "[{""type"":""Foo"",""value"":{""A"":""1"",""B"":""2""}}]") /\
  unmarshal_json 5 jdemo jdemo_je c (bs "[{""x"":0,""tYpe"":""Bar"",""value"":{},""type"":""Foo"", ""Value"" : {""A"":""1"",""B"":""2""} }]") (TSlice (TIface 0%nat)) (VSlice None) =
    EOk (VSlice (Some [VIface (Some (TPtr j_foo, VPtr (Some (jfoo 1 2))))])) /\
  (exists e, unmarshal_json 5 jdemo jdemo_je c (bs "[{""type"":""Bar"",""value"":{""A"":""1"",""B"":""2""}}]") (TSlice (TIface 0%nat)) (VSlice None) = EErr e) /\
  (exists e, unmarshal_json 5 jdemo jdemo_je c (bs "{""type"":""test/Temp"",""value"":{""A"":""1"",""B"":""2""}}") j_foo (zero jdemo j_foo) = EErr e).
Proof.
  cbv zeta. split; [left; reflexivity|]. split; [reflexivity|]. split; [reflexivity|]. split; [intros t0 [H|[H|[]]]; discriminate|].
  split; [vm_compute; reflexivity|]. split; [vm_compute; reflexivity|]. split; eexists; vm_compute; reflexivity.
Qed.
Print Assumptions C52_written.
Print Assumptions C52_read.
Print Assumptions C52_resolves_partial.
Print Assumptions C52_unknown.
Print Assumptions C52_top_written.
Print Assumptions C52_top_read.
Print Assumptions C52_name_refuted.
