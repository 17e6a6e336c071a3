(** Property theorems about the wire format. *)
From Coq Require Import ZArith String List Bool Lia.
From Coq Require Import ZifyBool ZifyNat.
From Verif Require Import Base Prims SpecWire PrimFacts PrimProps Types Codec BinEnc BinDec Amino FuelFacts Registry SpecRegistry RegistryFacts Sane Typing DecSafe
  Demo DemoFacts SpecNorm EncFacts RoundTrip TopFacts FrameFacts SpecProto ProtoFacts Properties_Decode Properties_RoundTrip.
Import ListNotations.
Local Open Scope Z_scope.

(** ** C13 *)

(** An encoded struct is, after the prefix bytes if the type is registered, the
    message made of the struct's fields in the order of declaration, as described in
    SpecProto.v ([fields]).  That description leaves no choice: there is one list of
    entries and one way of writing it.  Missing for the full statement: types that
    are not [regular], for which it is false, see below. *)
Theorem C13_struct_partial : forall env h mem, wf_env env -> marshal_typed env -> clean env new_codec h = true ->
  regular env (run env new_codec h) mem ->
  forall k t fs v l bz, let c := run env new_codec h in
  mem (deref_type t) = true -> plain env (deref_type t) -> resolve env (deref_type t) = RStruct fs ->
  has_type env t v = true -> under v = Some (VStruct l) ->
  marshal_bare k env c t v = EOk bz -> zlen bz < 2 ^ 63 ->
  exists pre es b, preamble c (deref_type t) pre /\ fields env c 1 fs l es /\ message es b /\ bz = pre ++ b /\
    (forall es' b', fields env c 1 fs l es' -> message es' b' -> es' = es /\ b' = b).
Proof.
  intros env h mem We Hm Hcl Hr k t fs v l bz c Hmem Hpl Hrs Ht Hu H Hz.
  pose proof (wf_history env h Hcl) as Hc. pose proof (sane_run env h) as Hs. fold c in Hc, Hs, Hr. clearbody c. clear Hcl.
  rewrite marshal_eq, Hu in H. einv H. einv H. apply EOk_inj in H. subst bz. rename a into info, a0 into body.
  pose proof (gti_minfo _ _ _ _ Hs E) as Hi. rewrite (minfo_type _ _ _ _ Hi) in E0. unfold struct_like in E0. rewrite Hrs in E0. cbn [negb] in E0.
  rewrite zlen_app in Hz. pose proof (zlen_nonneg (prefix_of info)).
  destruct (encode_wire env We c Hc Hs Hm mem Hr k info (deref_type t) (VStruct l) top_opts true body (minfo_deref _ _ _ _ Hi) (deref_idem t) Hmem
    (under_typed _ We _ _ _ Ht Hu) ltac:(cbn; lia) E0 ltac:(lia)) as (m & q & Hw & Hq & _).
  assert (W : m = true /\ exists es b, q = Plen b /\ fields env c 1 fs l es /\ message es b).
  { inversion Hw; subst; try congruence.
    - destruct H1 as [X|[n X]]; congruence.
    - destruct H1 as [X|[n X]]; congruence.
    - destruct H1 as [X|[n X]]; congruence.
    - split; [reflexivity|]. exists es, b. match goal with X : resolve env _ = RStruct ?f |- _ => assert (f = fs) by congruence; subst f end. auto.
    - exfalso. match goal with X : te_marshal env ?i = Some _, Y : TNamed ?i = deref_type t |- _ => rewrite (Hpl i (eq_sym Y)) in X; discriminate end. }
  destruct W as [-> (es & b & -> & Hf & Hb)]. cbn [andb] in Hq. inversion Hq; subst b.
  exists (prefix_of info), es, body. splits; try assumption; try reflexivity.
  - destruct info as [ci|ii]; [|exfalso; destruct Hi as [_ Hi]; rewrite Hi in Hrs; discriminate]. cbn [prefix_of].
    destruct (ci_reg ci) as [r|] eqn:Er.
    + left. exists ci, r. splits; try assumption; try reflexivity; [eapply gti_registered; eassumption|exact (proj1 Hi)].
    + right. split; [|reflexivity]. intros ci' Hin Hty. apply (wc_conc _ _ Hc) in Hin. destruct Hin as [Ha Hn]. rewrite Hty in Ha.
      unfold get_type_info in E. cbv zeta in E. rewrite Ha in E.
      assert (ci' = ci); [|congruence]. destruct (deref_type t); try (apply EOk_inj in E; inversion E; reflexivity). discriminate Hrs.
  - intros es' b' Hf' Hb'. destruct (wire_unique env c Hc) as (_ & _ & _ & U). rewrite (U _ _ _ _ Hf _ Hf') in *. split; [reflexivity|].
    symmetry. eapply message_unique; eassumption.
Qed.

(** The demo program without the types having methods is regular. *)
Definition demo_plain : list gotype :=
  map TNamed [0;1;2;3;4;5;6;8;10;11]%nat ++ map TPrim [PBool; PInt; PInt8; PInt32; PInt64; PUint; PFloat32; PString] ++
  [TTime; TSlice TByte; TArray 3 TInt; TSlice (TPtr TInt); TIface i_msg].
Definition plain_mem (t : gotype) : bool := existsb (gotype_eqb t) demo_plain.
Lemma demo_regular : regular demo (run demo new_codec demo_history) plain_mem.
Proof.
  assert (G : forall t, In t demo_plain -> regular_type demo (run demo new_codec demo_history) plain_mem t).
  { assert (F : forallb (fun ci => plain_mem (ci_type ci)) (cd_concretes (run demo new_codec demo_history)) = true) by (vm_compute; reflexivity).
    rewrite forallb_forall in F. intros t H. unfold demo_plain in H. cbn [map app] in H.
    repeat (destruct H as [<-|H]; [try exact I; try (left; reflexivity); try (right; split; reflexivity); try (vm_compute; reflexivity); try exact F|]).
    destruct H. }
  intros t H. apply G. unfold plain_mem in H. apply existsb_exists in H. destruct H as (t' & H & Et). apply gotype_eqb_eq in Et. subst t'. exact H.
Qed.
(** Seventeen entries: field 7 is empty, fields 10, 12 and 15 have two elements. *)
Definition all_entries : list entry :=
  [(1, Pvarint 1); (2, Pvarint 5); (3, Pvarint 300); (4, P32 0x7FC00001); (5, Plen [104; 105]); (6, Plen [8; 1; 16; 2]);
   (8, Plen [1; 0; 255; 255; 255; 255; 255; 255; 255; 255; 255; 1]); (9, Plen [0; 5; 0]); (10, Plen []); (10, Plen [120]);
   (11, Plen []); (12, Plen []); (12, Plen [8; 1]); (13, Plen [116; 6; 19; 101; 10; 3; 65; 66; 67; 16; 100]);
   (14, Plen [116; 6; 19; 101; 10; 3; 65; 66; 67; 16; 100]); (15, Plen []); (15, Plen [7])].
Example C13_example : wf_env demo /\ marshal_typed demo /\ clean demo new_codec demo_history = true /\
  regular demo (run demo new_codec demo_history) plain_mem /\ plain_mem t_all = true /\ plain demo t_all /\
  has_type demo t_all all_value = true /\
  match marshal_bare 10 demo (run demo new_codec demo_history) t_all all_value with
  | EOk bz => length bz = 85%nat /\ read_message 85 bz = Some all_entries
  | _ => False
  end.
Proof.
  split; [exact demo_wf|]. split; [exact demo_marshal_typed|]. split; [vm_compute; reflexivity|]. split; [exact demo_regular|].
  split; [reflexivity|]. split; [intros id X; inversion X; reflexivity|]. split; [vm_compute; reflexivity|]. vm_compute. split; reflexivity.
Qed.

(** A type with a MarshalAmino method is written under the wire type of the type,
    not of what MarshalAmino returns: Temp is an int32 (wire type 0) written as a
    string.  The result is not a message at all. *)
Theorem C13_method_refuted : exists env k t v bz, wf_env env /\ marshal_typed env /\ is_struct env t = true /\ has_type env t v = true /\
  marshal_bare k env new_codec t v = EOk bz /\ forall es, ~ message es bz.
Proof.
  exists demo, 5%nat, t_temps, (VStruct [VInt 3; VPtr None]), [8; 3; 97; 97; 97].
  split; [exact demo_wf|]. split; [exact demo_marshal_typed|]. split; [reflexivity|]. split; [reflexivity|]. split; [vm_compute; reflexivity|].
  intros es H. apply read_message_ok with (k := 5%nat) in H; [|cbn; lia]. discriminate H.
Qed.

(** A pointer to a list of byte slices is written as a key without payload. *)
Definition nested_env : tenv :=
  {| te_def := fun id => match id with O => UStruct [fld "P" (TPtr (TSlice (TSlice TByte))) "" ""] | _ => UStruct [] end;
     te_zero := fun id => match id with O => VStruct [VPtr None] | _ => VStruct [] end;
     te_impl := fun _ _ => false; te_marshal := fun _ => None; te_unmarshal := fun _ => None; te_hash := te_hash demo |}.
Lemma nested_wf : wf_env nested_env.
Proof.
  split.
  - intros [|id]; cbn; discriminate.
  - intros [|id]; reflexivity.
  - discriminate.
  - discriminate.
  - exact (we_hash_len _ demo_wf).
  - exact (we_hash_ok _ demo_wf).
Qed.
Theorem C13_list_pointer_refuted : exists env k t v bz, wf_env env /\ (forall id, te_marshal env id = None) /\ is_struct env t = true /\
  has_type env t v = true /\ marshal_bare k env new_codec t v = EOk bz /\ forall es, ~ message es bz.
Proof.
  exists nested_env, 5%nat, (TNamed 0%nat), (VStruct [VPtr (Some (VSlice (Some [VSlice (Some [VUint 7])])))]), [10].
  split; [exact nested_wf|]. split; [reflexivity|]. split; [reflexivity|]. split; [reflexivity|]. split; [vm_compute; reflexivity|].
  intros es H. apply read_message_ok with (k := 1%nat) in H; [|cbn; lia]. discriminate H.
Qed.
Print Assumptions C13_struct_partial.
Print Assumptions C13_method_refuted.
Print Assumptions C13_list_pointer_refuted.

(** ** C14 *)

(** A reader that knows nothing of types ([read_message]: varint, 8 bytes, length
    and bytes, 4 bytes) splits the encoding into its entries; their numbers start at 1
    and increase, only length-delimited entries sharing one. *)
Theorem C14_parse_partial : forall env h mem, wf_env env -> marshal_typed env -> clean env new_codec h = true ->
  regular env (run env new_codec h) mem ->
  forall k t fs v l bz, let c := run env new_codec h in
  mem (deref_type t) = true -> plain env (deref_type t) -> resolve env (deref_type t) = RStruct fs ->
  has_type env t v = true -> under v = Some (VStruct l) ->
  marshal_bare k env c t v = EOk bz -> zlen bz < 2 ^ 63 ->
  exists pre es b, preamble c (deref_type t) pre /\ bz = pre ++ b /\ read_message (length b) b = Some es /\
    ordered es /\ Forall (fun e => 1 <= fst e) es.
Proof.
  intros env h mem We Hm Hcl Hr k t fs v l bz c Hmem Hpl Hrs Ht Hu H Hz.
  destruct (C13_struct_partial env h mem We Hm Hcl Hr k t fs v l bz Hmem Hpl Hrs Ht Hu H Hz) as (pre & es & b & Hp & Hf & Hb & -> & _).
  destruct (fields_order _ _ _ _ _ _ Hf) as [O1 O2]. exists pre, es, b. splits; try assumption; try reflexivity.
  apply read_message_ok; [exact Hb|lia].
Qed.
Example C14_example :
  match marshal_bare 10 demo (run demo new_codec demo_history) t_bcmsg bc_abc with
  | EOk bz => firstn 4 bz = [116; 6; 19; 101] /\ read_message 7 (skipn 4 bz) = Some [(1, Plen [65; 66; 67]); (2, Pvarint 100)]
  | _ => False
  end /\ plain_mem t_bcmsg = true /\ ordered all_entries.
Proof. split; [vm_compute; split; reflexivity|]. split; [reflexivity|].
  unfold all_entries. cbn [ordered].
  repeat (split; [repeat (apply Forall_cons; [first [left; reflexivity|right; split; [|split]; reflexivity]|]); apply Forall_nil|]). exact I.
Qed.

(** With a MarshalAmino method (first) or a pointer to a list of lists (second) the
    reader fails. *)
Theorem C14_unreadable_refuted : 
  (exists env k t v bz, wf_env env /\ marshal_typed env /\ is_struct env t = true /\ has_type env t v = true /\
     marshal_bare k env new_codec t v = EOk bz /\ read_message (length bz) bz = None) /\
  (exists env k t v bz, wf_env env /\ (forall id, te_marshal env id = None) /\ is_struct env t = true /\ has_type env t v = true /\
     marshal_bare k env new_codec t v = EOk bz /\ read_message (length bz) bz = None).
Proof.
  split.
  - exists demo, 5%nat, t_temps, (VStruct [VInt 3; VPtr None]), [8; 3; 97; 97; 97].
    split; [exact demo_wf|]. split; [exact demo_marshal_typed|]. split; [reflexivity|]. split; [reflexivity|]. split; [vm_compute; reflexivity|]. reflexivity.
  - exists nested_env, 5%nat, (TNamed 0%nat), (VStruct [VPtr (Some (VSlice (Some [VSlice (Some [VUint 7])])))]), [10].
    split; [exact nested_wf|]. split; [reflexivity|]. split; [reflexivity|]. split; [reflexivity|]. split; [vm_compute; reflexivity|]. reflexivity.
Qed.
Print Assumptions C14_parse_partial.
Print Assumptions C14_unreadable_refuted.
