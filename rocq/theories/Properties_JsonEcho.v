(** Property theorems: whatever UnmarshalJSON reads, MarshalJSON can write. *)
From Coq Require Import ZArith String List Bool Lia.
From Coq Require Import ZifyBool ZifyNat.
From Verif Require Import Base Prims SpecWire PrimFacts Types Codec BinEnc BinDec Amino FuelFacts Registry SpecRegistry RegistryFacts Sane Typing DecSafe Sha256 Demo DemoFacts
  SpecNorm EncFacts RoundTrip TopFacts SpecSupported SupportedFacts SpecWritable WritableFacts SpecEcho EchoFacts Properties_Decode Properties_Echo
  JsonText Json SpecJson JsonTextFacts JsonFacts JsonProps Properties_Json SpecJsonWritable JsonWritableFacts SpecJsonEcho JsonEchoFacts.
Import ListNotations.
Local Open Scope Z_scope.

(** ** C85 *)

(** Whatever text an UnmarshalJSON call accepts, if the target's value could have been
    written before, the value read can be written: MarshalJSON returns a text for it,
    given enough stack.  The target may be a pointer variable.
    Missing for the full statement: the types left out by [jsturdy] and [jechoes] (see
    the refuted statements below). *)
Theorem C85_can_write_partial : forall env je h mem rank calm, wf_env env -> marshal_typed env -> clean env new_codec h = true ->
  let c := run env new_codec h in
  jsturdy env je mem rank -> jechoes env je c mem calm ->
  forall fd bz t v0 v, mem (deref_type t) = true -> calm (deref_type t) = true -> bytes_ok bz -> jtarget env je c mem t v0 ->
  unmarshal_json fd env je c bz t v0 = EOk v ->
  exists k bz', forall k', (k <= k')%nat -> marshal_json k' env je c t v = EOk bz'.
Proof.
  intros env je h mem rank calm We Hm Hc c Hst Hec fd bz t v0 v Hmem Hcalm Hok Hg H.
  pose proof (wf_history env h Hc) as W. pose proof (sane_run env h) as Sa.
  eapply (marshal_json_good env je c We W Sa Hm mem calm rank Hst Hec); try assumption.
  eapply (unmarshal_json_good env je c We W Sa mem calm Hec); eassumption.
Qed.

(** A new variable is such a target, and so is what was read before: a variable
    can be read into again and again, and written after each time. *)
Theorem C85_targets_partial : forall env je h mem calm, wf_env env -> clean env new_codec h = true ->
  let c := run env new_codec h in jechoes env je c mem calm ->
  forall t, mem (deref_type t) = true ->
  jtarget env je c mem t (zero env t) /\
  forall fd bz v0 v, bytes_ok bz -> jtarget env je c mem t v0 -> unmarshal_json fd env je c bz t v0 = EOk v -> jtarget env je c mem t v.
Proof.
  intros env je h mem calm We Hc c Hec t Hmem. pose proof (wf_history env h Hc) as W. pose proof (sane_run env h) as Sa.
  split; [eapply tgt_zero; eassumption|]. intros fd bz v0 v Hok Hg H. eapply (unmarshal_json_good env je c We W Sa mem calm Hec); eassumption.
Qed.

(** *** A program: the types of Properties_Echo.v; notes keep the text they are read from. *)
Definition note_text (v : value) : eres bytes := match v with VStr s => EOk (quote s) | _ => EPanic "not a note"%string end.
Definition note_read (b : bytes) (_ : value) : eres value := EOk (VStr b).
Definition mail_je : jenv :=
  {| je_time := je_time jdemo_je; je_untime := je_untime jdemo_je; je_float := je_float jdemo_je; je_unfloat := je_unfloat jdemo_je;
     je_marshal := fun id => if (id =? 3)%nat then Some (false, note_text) else None;
     je_unmarshal := fun id => if (id =? 3)%nat then Some note_read else None |}.
Definition jmail_types : list gotype := TMap TStr (TPtr e_addr) :: mail_types.
Definition jmail_mem (t : gotype) : bool := existsb (gotype_eqb t) jmail_types.
Lemma mail_jsturdy : jsturdy mail mail_je jmail_mem mail_rank.
Proof.
  split; [intros; exact I|]. intros t H. unfold jmail_mem in H. apply existsb_exists in H. destruct H as (t' & H & Et). apply gotype_eqb_eq in Et. subst t'.
  assert (T : jsturdy_ok mail mail_je jmail_mem mail_rank e_mood).
  { split; [reflexivity|]. split; [split; reflexivity|]. cbn [e_mood je_marshal te_marshal mail mail_je Nat.eqb]. split; [exact I|]. split; [reflexivity|]. split; [cbn; lia|].
    intros v Ht. rewrite (has_type_prim mail e_mood PInt32 v eq_refl) in Ht. destruct v; try discriminate Ht. split; [exact I|]. intros w X. apply EOk_inj in X. subst w. reflexivity. }
  assert (T1 : jsturdy_ok mail mail_je jmail_mem mail_rank e_note).
  { split; [reflexivity|]. split; [split; exact I|]. cbn [e_note je_marshal te_marshal mail mail_je Nat.eqb]. split; [|exact I].
    intros v Ht. rewrite (has_type_prim mail e_note PString v eq_refl) in Ht. destruct v; try discriminate Ht; exact I. }
  assert (T3 : jsturdy_ok mail mail_je jmail_mem mail_rank TTime).
  { split; [reflexivity|]. split; [exact I|]. intros s ns. cbn [je_time jdemo_je mail_je]. destruct (_ && _); exact I. }
  assert (T4 : jsturdy_ok mail mail_je jmail_mem mail_rank (TIface 0%nat)).
  { split; [reflexivity|]. split; [exact I|]. unfold jsturdy_plain. cbn [resolve]. intros ct _ _. unfold mail_rank. destruct (deref_type ct) as [[]| | | | | | | | |]; lia. }
  unfold jmail_types, mail_types in H. cbn [app In] in H.
  repeat (destruct H as [<-|H]; [first [exact T|exact T1|exact T3|exact T4|split; [vm_compute; reflexivity|]; split; [first [exact I|split; exact I]|];
    first [vm_compute; reflexivity|exact I|split; [exact I|]; vm_compute; reflexivity]]|]). destruct H.
Qed.
Lemma mail_jechoes : jechoes mail mail_je (run mail new_codec mail_history) jmail_mem mail_calm.
Proof.
  set (c := run mail new_codec mail_history). split; [reflexivity|]. split; [reflexivity|].
  intros t H. unfold jmail_mem in H. apply existsb_exists in H. destruct H as (t' & H & Et). apply gotype_eqb_eq in Et. subst t'.
  assert (K : forallb (known mail c) jmail_types = true) by (vm_compute; reflexivity).
  pose proof (proj1 (forallb_forall _ _) K t H) as Kt. clear K.
  assert (T : known mail c e_mood = true -> jecho_ok mail mail_je c jmail_mem mail_calm e_mood).
  { intros Km. split; [exact Km|]. cbn [e_mood je_marshal je_unmarshal te_marshal te_unmarshal mail mail_je Nat.eqb]. split; [exact I|]. split.
    - split; [reflexivity|]. intros v [Ht _]. rewrite (has_type_prim mail e_mood PInt32 v eq_refl) in Ht. destruct v; try discriminate Ht. eexists. split; reflexivity.
    - split; [reflexivity|]. intros v w v' _ [Hw _] E. rewrite (has_type_prim mail TStr PString w eq_refl) in Hw. destruct w as [| | | |s| | | | | | | | | |]; try discriminate Hw.
      destruct s as [|b [|b2 s]]; try discriminate E; injection E as <-; (split; [|reflexivity]); [reflexivity|]. destruct (b =? 45); reflexivity. }
  assert (T1 : known mail c e_note = true -> jecho_ok mail mail_je c jmail_mem mail_calm e_note).
  { intros Kn. split; [exact Kn|]. cbn [e_note je_marshal je_unmarshal te_marshal te_unmarshal mail mail_je Nat.eqb]. split; [|split].
    - intros v [Ht _]. rewrite (has_type_prim mail e_note PString v eq_refl) in Ht. destruct v; try discriminate Ht; reflexivity.
    - exact I.
    - intros b v v' Hb _ E. apply EOk_inj in E. subst v'. split; [|reflexivity]. rewrite (has_type_prim mail e_note PString _ eq_refl). cbn. apply byte_ok_forallb, Hb. }
  assert (T2 : known mail c TTime = true -> jecho_ok mail mail_je c jmail_mem mail_calm TTime).
  { intros Kn. split; [exact Kn|]. intros b r. cbn [je_untime mail_je jdemo_je]. destruct (parse_int _) as [z|]; [|discriminate]. destruct (in_int 64 (z / nanos)) eqn:Z; [|discriminate].
    intros E. apply EOk_inj in E. subst r. cbn [fst snd]. assert (N : 0 <= z mod nanos < nanos) by (apply Z.mod_pos_bound; reflexivity). unfold nanos in *.
    split; [cbn [has_type resolve]; rewrite Z; lia|]. cbn [jsendable je_time mail_je jdemo_je]. rewrite Z. unfold nanos. replace (0 <=? z mod 1000000000) with true by lia. replace (z mod 1000000000 <? 1000000000) with true by lia. reflexivity. }
  assert (R : jecho_plain mail c jmail_mem mail_calm (TIface 0%nat)).
  { unfold jecho_plain. cbn [resolve]. intros ct Hi _. cbn [te_impl mail mail_impl] in Hi.
    destruct ct as [| | | |[| | | | | | | | |[|[|[|[|]]]]]| | | | |[|[|[|[|]]]]]; try discriminate Hi; split; reflexivity. }
  unfold jmail_types, mail_types in H. cbn [In] in H.
  repeat (destruct H as [<-|H]; [first [exact (T Kt)|exact (T1 Kt)|exact (T2 Kt)|split; [exact Kt|];
    first [exact R|exact I|reflexivity|left; reflexivity|right; split; reflexivity|split; [exact I|]; split; reflexivity|split; [reflexivity|split; reflexivity]]]|]). destruct H.
Qed.

Definition jmail_value : value :=
  VStruct [VStr [72; 105]; VTime 5 6; VPtr (Some (addr [65] 0)); VIface (Some (TPtr e_addr, VPtr (Some (addr [66] 25))));
           VSlice (Some [VIface (Some (e_note, VStr (bs "[1, 2]"))); VIface None]); VArr [VInt 300; VInt 0]; VSlice (Some [VUint 7]); VSlice None;
           VFloat 0; VInt (-1); VSlice (Some [VPtr None; VPtr (Some (addr [68] 0))]); VInt 0; VPtr None].
(** Members in another order, one of them unknown, one left out, white space. *)
Definition jmail_text : bytes :=
  bs "{""Score"": null, ""When"":""5000000006Z"", ""Subject"":""Hi"", ""From"":{""Name"":""A"",""Port"":0}, ""Body"":{""value"":{""Port"":25,""Name"":""B""},""type"":""mail/Addr""}, ""Parts"":[{""type"":""mail/Note"",""value"":[1, 2]},null], ""Sizes"":[""300"",""0""], ""Blob"":[7], ""Mood"":""-"", ""Cc"":[null,{""Name"":""D""}], ""Seen"":true}".
Definition jmail_again : bytes :=
  bs "{""Subject"":""Hi"",""When"":""5000000006Z"",""From"":{""Name"":""A"",""Port"":0},""Body"":{""type"":""mail/Addr"",""value"":{""Name"":""B"",""Port"":25}},""Parts"":[{""type"":""mail/Note"",""value"":""[1, 2]""},null],""Sizes"":[""300"",""0""],""Blob"":""Bw=="",""Blobs"":null,""Score"":0,""Mood"":""-"",""Cc"":[null,{""Name"":""D"",""Port"":0}],""Up"":null}".
Example C85_example : let c := run mail new_codec mail_history in
  wf_env mail /\ marshal_typed mail /\ clean mail new_codec mail_history = true /\ jsturdy mail mail_je jmail_mem mail_rank /\ jechoes mail mail_je c jmail_mem mail_calm /\
  jmail_mem (deref_type (TPtr e_mail)) = true /\ mail_calm (deref_type (TPtr e_mail)) = true /\ bytes_ok jmail_text /\
  jtarget mail mail_je c jmail_mem (TPtr e_mail) (VPtr None) /\ jsendable mail_je c jmail_mem (VTime 5 (-1)) = false /\
  jsendable mail_je c jmail_mem (VIface (Some (e_mood, VInt 0))) = false /\
  unmarshal_json 10 mail mail_je c jmail_text (TPtr e_mail) (VPtr None) = EOk (VPtr (Some jmail_value)) /\
  marshal_json 10 mail mail_je c (TPtr e_mail) (VPtr (Some jmail_value)) = EOk jmail_again /\ jmail_again <> jmail_text.
Proof.
  intros c. split; [exact mail_wf|]. split; [exact mail_typed|]. split; [vm_compute; reflexivity|]. split; [exact mail_jsturdy|]. split; [exact mail_jechoes|].
  do 2 (split; [reflexivity|]). split; [apply byte_ok_forallb; vm_compute; reflexivity|]. split; [split; reflexivity|]. do 4 (split; [vm_compute; reflexivity|]). discriminate.
Qed.

(** An array of floats that is absent is read as zeros, which cannot be written
    without the unsafe tag (json-decode.go:396-411, json-encode.go:118-124). *)
Theorem C85_floats_refuted : exists env je t v e, wf_env env /\ marshal_typed env /\ bytes_ok (bs "{}") /\
  unmarshal_json 10 env je new_codec (bs "{}") t (zero env t) = EOk v /\
  forall k, (5 <= k)%nat -> marshal_json k env je new_codec t v = EErr e.
Proof.
  exists mail, mail_je, e_spot, (VStruct [VArr [VFloat 0; VFloat 0]]), "amino.JSON float* support requires unsafe"%string.
  split; [exact mail_wf|]. split; [exact mail_typed|]. split; [apply byte_ok_forallb; reflexivity|]. split; [vm_compute; reflexivity|].
  intros k Hk. do 5 (destruct k as [|k]; [lia|]). vm_compute. reflexivity.
Qed.
(** A map whose keys are not strings is read from null, and cannot be written, not
    even when nil (json-decode.go:33-38, json-encode.go:363-367). *)
Theorem C85_map_keys_refuted : exists env je t v e, wf_env env /\ marshal_typed env /\ bytes_ok null /\
  unmarshal_json 10 env je new_codec null t (zero env t) = EOk v /\
  forall k, (5 <= k)%nat -> marshal_json k env je new_codec t v = EErr e.
Proof.
  exists mail, mail_je, (TMap TInt TStr), (VMap None), "encodeReflectJSONMap: map key type must be a string"%string.
  split; [exact mail_wf|]. split; [exact mail_typed|]. split; [apply byte_ok_forallb; reflexivity|]. split; [vm_compute; reflexivity|].
  intros k Hk. do 5 (destruct k as [|k]; [lia|]). vm_compute. reflexivity.
Qed.
Print Assumptions C85_can_write_partial.
Print Assumptions C85_targets_partial.
Print Assumptions C85_floats_refuted.
Print Assumptions C85_map_keys_refuted.
