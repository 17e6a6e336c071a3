(** Property theorems about encoding followed by decoding. *)
From Coq Require Import ZArith String List Bool Lia.
From Coq Require Import ZifyBool ZifyNat.
From Verif Require Import Base Prims Types Codec BinEnc BinDec Amino FuelFacts Registry SpecRegistry RegistryFacts Sane Typing DecSafe Demo DemoFacts
  SpecNorm EncFacts RoundTrip TopFacts SpecSupported SupportedFacts TopProps TopFlat FrameFacts Properties_Decode.
Import ListNotations.
Local Open Scope Z_scope.

(** ** C11 *)

(** A value that Marshal accepts and that has a normal form reads back as that
    normal form, into a fresh variable of its type, after every history of
    successful registrations.  [k] is the depth of recursion the encoder needs;
    nothing longer than 2^63 bytes exists in Go. *)
Theorem C11_normal_form_partial : forall env h, wf_env env -> marshal_typed env -> clean env new_codec h = true ->
  forall k fd t v w bz v', let c := run env new_codec h in
  struct_like env (deref_type t) = true -> has_type env t v = true ->
  marshal_bare k env c t v = EOk bz -> zlen bz < 2 ^ 63 -> (2 * k <= fd)%nat ->
  under v = Some w -> norm k env c (deref_type t) (set_num 1 no_opts) w = Some v' ->
  unmarshal_bare fd env c bz t (zero env t) = URet (ptrs t v') None.
Proof.
  intros env h We Hm Hc k fd t v w bz v' c Hsl Ht H Hz Hfd Hu Hn.
  apply (struct_round_trip env We c (wf_history env h Hc) (sane_run env h) Hm k fd t v bz); auto.
  - rewrite Hu. exact Hn.
  - apply base_zero.
Qed.

(** For supported types the normal form always exists: whatever Marshal accepts is
    read back.  Missing for the full statement: the types left out by
    [supported] (see SpecSupported.v and the refuted statements below). *)
Theorem C11_supported_partial : forall env h mem, wf_env env -> marshal_typed env -> clean env new_codec h = true ->
  supported env (run env new_codec h) mem ->
  forall k fd t v bz, let c := run env new_codec h in
  mem (deref_type t) = true -> struct_like env (deref_type t) = true -> has_type env t v = true ->
  marshal_bare k env c t v = EOk bz -> zlen bz < 2 ^ 63 -> (2 * k <= fd)%nat ->
  exists w v', under v = Some w /\ norm k env c (deref_type t) (set_num 1 no_opts) w = Some v' /\
    unmarshal_bare fd env c bz t (zero env t) = URet (ptrs t v') None.
Proof.
  intros env h mem We Hm Hc Hsup k fd t v bz c Hmem Hsl Ht H Hz Hfd.
  destruct (supported_top env c mem k t v bz We (wf_history env h Hc) (sane_run env h) Hm Hsup Hmem Hsl Ht H) as (w & v' & Hu & Hn).
  exists w, v'. split; [exact Hu|]. split; [exact Hn|]. eapply C11_normal_form_partial; eassumption.
Qed.

(** Values in normal form come back identical. *)
Theorem C11_identity_partial : forall env h, wf_env env -> marshal_typed env -> clean env new_codec h = true ->
  forall k fd t v bz, let c := run env new_codec h in
  deref_type t = t -> struct_like env t = true -> has_type env t v = true ->
  marshal_bare k env c t v = EOk bz -> zlen bz < 2 ^ 63 -> (2 * k <= fd)%nat ->
  norm k env c t (set_num 1 no_opts) v = Some v ->
  unmarshal_bare fd env c bz t (zero env t) = URet v None.
Proof.
  intros env h We Hm Hc k fd t v bz c Hd Hsl Ht H Hz Hfd Hn.
  assert (Hu : under v = Some v).
  { destruct v; try reflexivity. exfalso. cbn [has_type] in Ht. unfold struct_like in Hsl. destruct (resolve env t); discriminate. }
  rewrite <- (ptrs_nonptr t v) by exact Hd.
  apply (C11_normal_form_partial env h We Hm Hc k fd t v v bz v); try assumption; rewrite Hd; assumption.
Qed.

Definition demo_supported : list gotype :=
  map TNamed [0;1;2;3;4;5;6;8;10;11;12;13]%nat ++ map TPrim [PBool; PInt; PInt8; PInt32; PInt64; PUint; PFloat32; PString] ++
  [TTime; TSlice TByte; TArray 3 TInt; TSlice (TPtr TInt); TIface i_msg].
Definition demo_mem (t : gotype) : bool := existsb (gotype_eqb t) demo_supported.
Lemma demo_marshal_typed : marshal_typed demo.
Proof.
  intros id r f v w. cbn [te_marshal demo]. destruct (id =? 12)%nat; [|discriminate]. intros H. inversion H; subst.
  destruct v; cbn; try discriminate. destruct (_ <? 0); [discriminate|]. intros _ X. inversion X. subst. cbn. 
  apply forallb_forall. intros x Hx. apply repeat_spec in Hx. subst. reflexivity.
Qed.
Lemma demo_is_supported : supported demo (run demo new_codec demo_history) demo_mem.
Proof.
  intros t H. unfold demo_mem in H. apply existsb_exists in H. destruct H as (t' & H & Et). apply gotype_eqb_eq in Et. subst t'.
  split.
  - assert (F : forallb (type_ok demo (run demo new_codec demo_history) demo_mem) demo_supported = true) by (vm_compute; reflexivity).
    rewrite forallb_forall in F. exact (F t H).
  - unfold methods_ok. destruct t; try exact I. cbn [te_marshal te_unmarshal demo]. destruct (id =? 12)%nat; [|exact I].
    split; [reflexivity|]. split; [reflexivity|]. split; [reflexivity|].
    intros k o v w w' _ Hf Hn. destruct k as [|k]; [discriminate|]. destruct v; try discriminate. cbn in Hf. destruct (_ <? 0); [discriminate|].
    inversion Hf; subst w. cbn in Hn. inversion Hn; subst w'. eexists. reflexivity.
Qed.
(** A value with nested structs, lists, pointers, times, interfaces and a
    signalling NaN, and what it comes back as. *)
Definition all_value : value :=
  VStruct [VBool true; VInt (-3); VUint 300; VFloat 0x7F800001; VStr [104; 105]; VTime 1 2; VSlice (Some []);
           VArr [VInt 1; VInt 0; VInt (-1)]; VSlice (Some [VPtr (Some (VInt 0)); VPtr (Some (VInt 5)); VPtr None]);
           VSlice (Some [VStr []; VStr [120]]); VPtr (Some (foo 0 0)); VSlice (Some [VPtr (Some (foo 0 0)); VPtr (Some (foo 1 0))]);
           VIface (Some (t_bcmsg, bc_abc)); VSlice (Some [VIface (Some (TPtr t_bcmsg, VPtr (Some bc_abc)))]);
           VSlice (Some [VSlice (Some []); VSlice (Some [VUint 7])])].
Definition all_norm : value :=
  VStruct [VBool true; VInt (-3); VUint 300; VFloat 0x7FC00001; VStr [104; 105]; VTime 1 2; VSlice None;
           VArr [VInt 1; VInt 0; VInt (-1)]; VSlice (Some [VPtr None; VPtr (Some (VInt 5)); VPtr None]);
           VSlice (Some [VStr []; VStr [120]]); VPtr (Some (foo 0 0)); VSlice (Some [VPtr (Some (foo 0 0)); VPtr (Some (foo 1 0))]);
           VIface (Some (TPtr t_bcmsg, VPtr (Some bc_abc))); VSlice (Some [VIface (Some (TPtr t_bcmsg, VPtr (Some bc_abc)))]);
           VSlice (Some [VSlice None; VSlice (Some [VUint 7])])].
Example C11_example : wf_env demo /\ marshal_typed demo /\ clean demo new_codec demo_history = true /\
  supported demo (run demo new_codec demo_history) demo_mem /\ demo_mem t_all = true /\ demo_mem t_node = true /\ demo_mem t_temps = true /\
  struct_like demo t_all = true /\ has_type demo t_all all_value = true /\
  match marshal_bare 10 demo (run demo new_codec demo_history) t_all all_value with
  | EOk bz => length bz = 85%nat /\ unmarshal_bare 20 demo (run demo new_codec demo_history) bz t_all (zero demo t_all) = URet all_norm None
  | _ => False
  end /\
  norm 10 demo (run demo new_codec demo_history) t_all (set_num 1 no_opts) all_value = Some all_norm /\
  norm 10 demo (run demo new_codec demo_history) t_all (set_num 1 no_opts) all_norm = Some all_norm.
Proof.
  split; [exact demo_wf|]. split; [exact demo_marshal_typed|]. split; [vm_compute; reflexivity|]. split; [exact demo_is_supported|].
  do 5 (split; [vm_compute; reflexivity|]). split; [vm_compute; split; reflexivity|]. split; vm_compute; reflexivity.
Qed.

(** Not everything that can be written can be read back: a registered type that
    is not a struct, in an interface held by the first field (reflect_test.go only
    does this at the top level).  The field key 1 expected before it is missing. *)
Definition c1_history : list op := [OIface i_1 None; OConc t_conc1 (bs "Concrete1"); OConc t_typedef (bs "ConcreteTypeDef")].
Theorem C11_iface_nonstruct_refuted : exists env h k t v bz e v', wf_env env /\ marshal_typed env /\ clean env new_codec h = true /\
  struct_like env t = true /\ has_type env t v = true /\
  marshal_bare k env (run env new_codec h) t v = EOk bz /\
  unmarshal_bare (2 * k) env (run env new_codec h) bz t (zero env t) = URet v' (Some e).
Proof.
  exists demo, c1_history, 5%nat, t_hasif, (VStruct [VIface (Some (t_typedef, b0123))]). do 3 eexists.
  split; [exact demo_wf|]. split; [exact demo_marshal_typed|]. split; [vm_compute; reflexivity|]. split; [reflexivity|].
  split; [vm_compute; reflexivity|]. split; [vm_compute; reflexivity|]. vm_compute; reflexivity.
Qed.
Print Assumptions C11_normal_form_partial.
Print Assumptions C11_supported_partial.
Print Assumptions C11_identity_partial.
Print Assumptions C11_iface_nonstruct_refuted.

(** ** C12 *)

(** Two values (of a supported type, or pointers to it) with the same
    encoding have the same normal form. *)
Theorem C12_injective : forall env h mem, wf_env env -> marshal_typed env -> clean env new_codec h = true ->
  supported env (run env new_codec h) mem ->
  forall k1 k2 t1 t2 v1 v2 bz, let c := run env new_codec h in
  deref_type t1 = deref_type t2 -> mem (deref_type t1) = true -> struct_like env (deref_type t1) = true ->
  has_type env t1 v1 = true -> has_type env t2 v2 = true ->
  marshal_bare k1 env c t1 v1 = EOk bz -> marshal_bare k2 env c t2 v2 = EOk bz -> zlen bz < 2 ^ 63 ->
  exists w1 w2 v', under v1 = Some w1 /\ under v2 = Some w2 /\
    norm k1 env c (deref_type t1) (set_num 1 no_opts) w1 = Some v' /\
    norm k2 env c (deref_type t1) (set_num 1 no_opts) w2 = Some v'.
Proof.
  intros env h mem We Hm Hc Hsup k1 k2 t1 t2 v1 v2 bz c Hd Hmem Hsl H1 H2 M1 M2 Hz.
  pose proof (wf_history env h Hc) as W. pose proof (sane_run env h) as Sa. fold c in W, Sa.
  destruct (supported_top env c mem k1 t1 v1 bz We W Sa Hm Hsup Hmem Hsl H1 M1) as (w1 & v1' & U1 & N1).
  rewrite Hd in Hmem, Hsl.
  destruct (supported_top env c mem k2 t2 v2 bz We W Sa Hm Hsup Hmem Hsl H2 M2) as (w2 & v2' & U2 & N2).
  exists w1, w2, v1'. split; [exact U1|]. split; [exact U2|]. split; [exact N1|].
  assert (R1 : unmarshal_bare (2 * Nat.max k1 k2) env c bz (deref_type t2) (zero env (deref_type t2)) = URet (ptrs (deref_type t2) v1') None).
  { apply (struct_round_trip env We c W Sa Hm k1 (2 * Nat.max k1 k2) t1 v1 bz); try assumption; try lia.
    - rewrite Hd. exact Hsl.
    - rewrite U1. exact N1.
    - rewrite Hd. apply deref_idem.
    - rewrite Hd. apply base_nonptr. apply deref_idem. }
  assert (R2 : unmarshal_bare (2 * Nat.max k1 k2) env c bz (deref_type t2) (zero env (deref_type t2)) = URet (ptrs (deref_type t2) v2') None).
  { apply (struct_round_trip env We c W Sa Hm k2 (2 * Nat.max k1 k2) t2 v2 bz); try assumption; try lia.
    - rewrite U2. exact N2.
    - apply deref_idem.
    - apply base_nonptr. apply deref_idem. }
  rewrite R1 in R2. rewrite !ptrs_nonptr in R2 by apply deref_idem. rewrite Hd. inversion R2; subst. exact N2.
Qed.
(** Two different values, one encoding, one normal form; and the normal form
    tells apart what the encodings tell apart. *)
Example C12_example : let c := run demo new_codec demo_history in
  supported demo c demo_mem /\ demo_mem t_all = true /\ struct_like demo t_all = true /\
  has_type demo t_all all_value = true /\ has_type demo t_all all_norm = true /\ all_value <> all_norm /\
  match marshal_bare 10 demo c t_all all_value, marshal_bare 12 demo c (TPtr t_all) (VPtr (Some all_value)) with
  | EOk b1, EOk b2 => b1 = b2
  | _, _ => False
  end /\
  marshal_bare 10 demo c t_node (VStruct [VInt 1; VPtr None; VInt 5; VSlice None]) =
  marshal_bare 10 demo c t_node (VStruct [VInt 1; VPtr None; VInt 6; VSlice (Some [])]).
Proof.
  cbv zeta. split; [exact demo_is_supported|]. do 4 (split; [vm_compute; reflexivity|]). split; [discriminate|]. split; vm_compute; reflexivity.
Qed.
Print Assumptions C12_injective.

(** ** C25 *)

(** Wherever an interface is encoded (field, list element): the value
    comes back in an interface, its type the one it was registered with, pointer or
    not.  [o] are the options of the enclosing field. *)
Theorem C25_nested_partial : forall env h mem, wf_env env -> marshal_typed env -> clean env new_codec h = true ->
  supported env (run env new_codec h) mem ->
  forall k fd i info o bare b rest ct cv, let c := run env new_codec h in
  mem (TIface i) = true -> get_type_info env c (TIface i) = EOk info ->
  has_type env (TIface i) (VIface (Some (ct, cv))) = true -> 0 <= fo_num o ->
  encode_reflect (S k) env c info (VIface (Some (ct, cv))) o bare = EOk b -> zlen b < 2 ^ 63 ->
  (bare = true -> rest = []) -> (2 * S k <= fd)%nat ->
  exists t n w w', In (t, n) (conc_calls h) /\ conc_of t = deref_type ct /\ under cv = Some w /\
    norm k env c (deref_type ct) o w = Some w' /\
    decode_reflect fd env c (b ++ rest) info (TIface i) (VIface None) o bare =
      DRet (VIface (Some (t, if is_ptr t then VPtr (Some w') else w'))) (length b) None.
Proof.
  intros env h mem We Hm Hc Hsup k fd i info o bare b rest ct cv c Hmem Hg Ht Ho He Hz Hr Hfd.
  pose proof (wf_history env h Hc) as W. pose proof (sane_run env h) as Sa. fold c in W, Sa.
  pose proof (gti_minfo _ _ _ _ Sa Hg) as Hi.
  pose proof (supported_norm env We c W Sa Hm mem Hsup (S k) info (TIface i) (VIface (Some (ct, cv))) o bare b Hi eq_refl) as N.
  destruct (norm (S k) env c (TIface i) o (VIface (Some (ct, cv)))) as [v'|] eqn:En; [|exfalso; apply N; try assumption; try discriminate; reflexivity].
  pose proof (encode_decode env We c W Sa Hm (S k) fd Hfd info (TIface i) _ o bare b v' rest (TIface i) (VIface None) Hi eq_refl Ht Ho He Hz En Hr eq_refl eq_refl eq_refl) as D.
  cbn [norm resolve] in En. unfold norm_iface in En.
  destruct (registered c (deref_type ct)) as [ptr|] eqn:Er; [|discriminate]. destruct (under cv) as [w|] eqn:Eu; [|discriminate].
  destruct (te_impl env _ i && _); [|discriminate]. destruct (norm k env c (deref_type ct) o w) as [w'|] eqn:Enw; [|discriminate].
  inversion En; subst v'. clear En.
  assert (R : exists t n, In (t, n) (conc_calls h) /\ conc_of t = deref_type ct /\ t = if ptr then TPtr (deref_type ct) else deref_type ct).
  { unfold registered in Er. destruct (find _ _) as [ci|] eqn:Ef; [|discriminate]. destruct (ci_reg ci) as [r|] eqn:Erg; [|discriminate].
    inversion Er; subst ptr. apply find_some in Ef. destruct Ef as [Ef1 Ef2]. apply gotype_eqb_eq in Ef2.
    destruct (registered_call env h ci r Hc Ef1 Erg) as (t & n & Hin & Hct & Hp & _). exists t, n. split; [exact Hin|].
    rewrite <- Ef2, Hct. split; [reflexivity|]. rewrite Hp. destruct t; try reflexivity. }
  destruct R as (t & n & Hin & Hct & Et). exists t, n, w, w'. split; [exact Hin|]. split; [exact Hct|]. split; [reflexivity|]. split; [exact Enw|].
  rewrite D. cbn [ptrs]. rewrite Et. destruct ptr; [reflexivity|]. rewrite deref_is_ptr. reflexivity.
Qed.

(** At the top level: the bytes of a registered struct, read into an interface
    variable.  The type has to be the only implementation with its prefix; one that
    shares its prefix with another, or belongs to an AlwaysDisambiguate
    interface, is still written with the prefix alone (see below). *)
Theorem C25_top_partial : forall env h, wf_env env -> marshal_typed env -> clean env new_codec h = true ->
  forall k fd t v w bz v' i oi t0 n d p, let c := run env new_codec h in
  In (t0, n) (conc_calls h) -> name_to_disfix env n = EOk (d, p) -> In (i, oi) (iface_calls h) -> te_impl env t0 i = true ->
  (forall t' n' d', In (t', n') (conc_calls h) -> te_impl env (TPtr (conc_of t')) i = true ->
     name_to_disfix env n' = EOk (d', p) -> (t', n') = (t0, n)) ->
  deref_type t = conc_of t0 -> struct_like env (conc_of t0) = true -> has_type env t v = true ->
  marshal_bare k env c t v = EOk bz -> zlen bz < 2 ^ 63 -> (2 * k <= fd)%nat ->
  under v = Some w -> norm k env c (conc_of t0) (set_num 1 no_opts) w = Some v' ->
  unmarshal_bare (S fd) env c bz (TIface i) (VIface None) =
    URet (VIface (Some (t0, if is_ptr t0 then VPtr (Some v') else v'))) None.
Proof.
  intros env h We Hm Hc k fd t v w bz v' i oi t0 n d p c Hin Hdp Hi Himp Huniq Hd Hsl Ht H Hz Hfd Hu Hn.
  eapply (registered_into_iface env h k fd t v bz v' i oi t0 n d p); try eassumption. rewrite Hu. exact Hn.
Qed.
(** The refuted part: a non-struct in the first field.  (At the
    top level, and as a later field, it works.) *)
Theorem C25_nonstruct_field_refuted : exists env h k t v bz e v', wf_env env /\ marshal_typed env /\ clean env new_codec h = true /\
  struct_like env t = true /\ has_type env t v = true /\
  marshal_bare k env (run env new_codec h) t v = EOk bz /\
  unmarshal_bare (2 * k) env (run env new_codec h) bz t (zero env t) = URet v' (Some e).
Proof. exact C11_iface_nonstruct_refuted. Qed.
Example C25_example : let c := run demo new_codec demo_history in
  wf_env demo /\ marshal_typed demo /\ clean demo new_codec demo_history = true /\ supported demo c demo_mem /\
  demo_mem (TIface i_msg) = true /\ known demo c (TIface i_msg) = true /\
  has_type demo (TIface i_msg) (VIface (Some (t_bcmsg, bc_abc))) = true /\
  In (TPtr t_bcmsg, bs "bcMessage") (conc_calls demo_history) /\ In (i_msg, None) (iface_calls demo_history) /\
  te_impl demo (TPtr t_bcmsg) i_msg = true /\
  marshal_bare 10 demo c t_bcmsg bc_abc = EOk [0x74; 0x06; 0x13; 0x65; 0x0A; 0x03; 0x41; 0x42; 0x43; 0x10; 0x64] /\
  unmarshal_bare 21 demo c [0x74; 0x06; 0x13; 0x65; 0x0A; 0x03; 0x41; 0x42; 0x43; 0x10; 0x64] (TIface i_msg) (VIface None) =
    URet (VIface (Some (TPtr t_bcmsg, VPtr (Some bc_abc)))) None.
Proof.
  cbv zeta. split; [exact demo_wf|]. split; [exact demo_marshal_typed|]. split; [vm_compute; reflexivity|]. split; [exact demo_is_supported|].
  do 3 (split; [vm_compute; reflexivity|]). split; [left; reflexivity|]. split; [left; reflexivity|]. split; [reflexivity|]. split; vm_compute; reflexivity.
Qed.
Print Assumptions C25_nested_partial.
Print Assumptions C25_top_partial.
Print Assumptions C25_nonstruct_field_refuted.

(** ** C40 *)

(** Marshal looks through any number of pointers, and panics on a nil one. *)
Theorem C40_marshal_through : forall k env c t v,
  match under v with
  | Some w => marshal_bare k env c t v = marshal_bare k env c (deref_type t) w
  | None => exists p, marshal_bare k env c t v = EPanic p
  end.
Proof.
  intros k env c t v. destruct (under v) as [w|] eqn:E; [exact (marshal_pointer k env c t v w E)|exact (marshal_nil k env c t v E)].
Qed.
(** Unmarshal into a pointer variable behaves as into the base variable
    [base_of]: what the pointers lead to, or a fresh zero value if one is nil.  On success
    the result is a fresh chain of pointers to the result.  On failure the variable is either left
    as it was or made to point to what was decoded.  Missing: a variable already
    pointing to a list that is not a list of structs, and pointers to interfaces. *)
Theorem C40_unmarshal_through_partial : forall env h k bz t v0, let c := run env new_codec h in
  is_iface (deref_type t) = false ->
  (is_ptr t = true -> is_list env (deref_type t) = true -> struct_like env (deref_type t) = true \/ under v0 = None) ->
  match unmarshal_bare k env c bz (deref_type t) (base_of env t v0), unmarshal_bare k env c bz t v0 with
  | URet v None, URet v' None => v' = ptrs t v
  | URet v (Some e), URet v' (Some e') => e' = e /\ (v' = ptrs t v \/ v' = v0 /\ v = base_of env t v0)
  | UPanic p, UPanic p' => p' = p
  | UFuel, UFuel => True
  | _, _ => False
  end.
Proof. intros env h k bz t v0 c. exact (unmarshal_pointer k env c bz t v0 (sane_run env h)). Qed.
(** A pointer variable that points to a list makes Unmarshal panic, and a pointer
    to an interface cannot be decoded into. *)
Theorem C40_list_pointer_refuted : exists env bz t v0 v p, wf_env env /\ has_type env t v0 = true /\
  unmarshal_bare 10 env new_codec bz (deref_type t) (base_of env t v0) = URet v None /\
  unmarshal_bare 10 env new_codec bz t v0 = UPanic p.
Proof.
  exists demo, [10; 1; 2], (TPtr (TSlice TByte)), (VPtr (Some (VSlice (Some [VUint 1])))). do 2 eexists.
  split; [exact demo_wf|]. split; [reflexivity|]. split; vm_compute; reflexivity.
Qed.
Theorem C40_iface_pointer_refuted : exists env h bz t v v', wf_env env /\ clean env new_codec h = true /\
  unmarshal_bare 10 env (run env new_codec h) bz (deref_type t) (zero env (deref_type t)) = URet v None /\
  unmarshal_bare 10 env (run env new_codec h) bz t (zero env t) = v' /\ (forall v, v' <> URet v None).
Proof.
  exists demo, demo_history, [0x74; 0x06; 0x13; 0x65; 0x0A; 0x03; 0x41; 0x42; 0x43; 0x10; 0x64], (TPtr (TIface i_msg)). do 2 eexists.
  split; [exact demo_wf|]. split; [vm_compute; reflexivity|]. split; [vm_compute; reflexivity|]. split; [vm_compute; reflexivity|]. discriminate.
Qed.
Example C40_example :
  under (VPtr (Some (VPtr (Some (foo 1 2))))) = Some (foo 1 2) /\
  marshal_bare 10 demo new_codec (TPtr (TPtr t_foo)) (VPtr (Some (VPtr (Some (foo 1 2))))) = EOk [8; 1; 16; 2] /\
  marshal_bare 10 demo new_codec t_foo (foo 1 2) = EOk [8; 1; 16; 2] /\
  is_iface (deref_type (TPtr (TPtr t_foo))) = false /\ is_list demo (deref_type (TPtr (TPtr t_foo))) = false /\
  unmarshal_bare 10 demo new_codec [8; 1; 16; 2] (TPtr (TPtr t_foo)) (VPtr None) = URet (VPtr (Some (VPtr (Some (foo 1 2))))) None.
Proof. vm_compute. repeat split; reflexivity. Qed.
Print Assumptions C40_marshal_through.
Print Assumptions C40_unmarshal_through_partial.
Print Assumptions C40_list_pointer_refuted.
Print Assumptions C40_iface_pointer_refuted.

(** ** C46 *)

(** Numbers, strings, byte lists and lists of numbers ([flat]) come back as
    their normal form, provided something was written. *)
Theorem C46_flat_partial : forall env h, wf_env env -> marshal_typed env -> clean env new_codec h = true ->
  forall j k fd t v w bz v' info, let c := run env new_codec h in
  flat j env (deref_type t) = true -> struct_like env (deref_type t) = false -> has_type env t v = true ->
  get_type_info env c t = EOk info -> marshal_bare k env c t v = EOk bz -> zlen bz < 2 ^ 63 -> (2 * k <= fd)%nat ->
  under v = Some w -> norm k env c (deref_type t) no_opts w = Some v' ->
  (length (prefix_of info) < length bz)%nat ->
  match resolve env (deref_type t) with RFunc | RMap _ _ => False | _ => True end ->
  unmarshal_bare fd env c bz (deref_type t) (zero env (deref_type t)) = URet v' None.
Proof.
  intros env h We Hm Hc j k fd t v w bz v' info c Hfl Hsl Ht Hg H Hz Hfd Hu Hn Hlen Hr.
  eapply (flat_round_trip env We c (wf_history env h Hc) (sane_run env h) Hm j k fd t v w bz v' info); try eassumption.
  - intros E. rewrite E in Hr. exact Hr.
  - intros a b E. rewrite E in Hr. exact Hr.
Qed.
(** A slice for which nothing is written is read back as well. *)
Theorem C46_empty_slice_partial : forall env h, wf_env env -> clean env new_codec h = true ->
  forall j k fd t v w bz e info, let c := run env new_codec h in
  flat j env (deref_type t) = true -> has_method env (deref_type t) = false -> resolve env (deref_type t) = RSlice e ->
  struct_like env (deref_type t) = false -> has_type env t v = true -> get_type_info env c t = EOk info ->
  under v = Some w -> defaultv w = true -> marshal_bare k env c t v = EOk bz -> (2 <= fd)%nat ->
  bz = prefix_of info /\ unmarshal_bare fd env c bz (deref_type t) (zero env (deref_type t)) = URet (VSlice None) None.
Proof.
  intros env h We Hc j k fd t v w bz e info c Hfl Hme Hr Hsl Ht Hg Hu Hdf H Hfd.
  eapply (empty_slice_round_trip env We c (sane_run env h) j k fd t v w bz e info); eassumption.
Qed.
(** Zero numbers, and lists of strings, do not come back. *)
Theorem C46_zero_refuted : exists env t v bz e v', wf_env env /\ has_type env t v = true /\
  marshal_bare 5 env new_codec t v = EOk bz /\ unmarshal_bare 10 env new_codec bz t (zero env t) = URet v' (Some e).
Proof. exists demo, TInt, (VInt 0). do 3 eexists. split; [exact demo_wf|]. split; [reflexivity|]. split; [vm_compute; reflexivity|]. vm_compute; reflexivity. Qed.
Theorem C46_strings_refuted : exists env t v bz e v', wf_env env /\ has_type env t v = true /\
  marshal_bare 5 env new_codec t v = EOk bz /\ unmarshal_bare 10 env new_codec bz t (zero env t) = URet v' (Some e).
Proof.
  exists demo, (TSlice TStr), (VSlice (Some [VStr [65]])). do 3 eexists. split; [exact demo_wf|]. split; [reflexivity|].
  split; [vm_compute; reflexivity|]. vm_compute; reflexivity.
Qed.
Example C46_example :
  flat 3 demo (TSlice TInt) = true /\ struct_like demo (TSlice TInt) = false /\
  flat 3 demo t_temp = true /\ flat 3 demo t_typedef = true /\
  marshal_bare 5 demo new_codec (TSlice TInt) (VSlice (Some [VInt 1; VInt 0; VInt 300])) = EOk [10; 4; 1; 0; 172; 2] /\
  unmarshal_bare 10 demo new_codec [10; 4; 1; 0; 172; 2] (TSlice TInt) (VSlice None) = URet (VSlice (Some [VInt 1; VInt 0; VInt 300])) None /\
  marshal_bare 5 demo new_codec (TSlice TInt) (VSlice (Some [])) = EOk [] /\
  unmarshal_bare 10 demo new_codec [] (TSlice TInt) (VSlice None) = URet (VSlice None) None.
Proof. vm_compute. repeat split; reflexivity. Qed.
Print Assumptions C46_flat_partial.
Print Assumptions C46_empty_slice_partial.
Print Assumptions C46_zero_refuted.
Print Assumptions C46_strings_refuted.
