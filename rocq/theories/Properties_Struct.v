(** Property theorems about struct fields: hidden fields and used targets. *)
From Coq Require Import ZArith String List Bool Lia.
From Coq Require Import ZifyBool ZifyNat.
From Verif Require Import Base Prims SpecWire PrimFacts PrimProps Types Codec BinEnc BinDec Amino FuelFacts Registry SpecRegistry RegistryFacts Sane Typing DecSafe
  Demo DemoFacts SpecNorm EncFacts RoundTrip TopFacts SpecStruct SkipFacts KeptFacts ReuseFacts.
Import ListNotations.
Local Open Scope Z_scope.

(** Types for the examples:
    type Inner struct { a int; B int; C int `json:"-"` }
    type Outer struct { In Inner; s string; P *Inner; N int }
    type Acc int64, whose UnmarshalAmino(int64) adds to the receiver. *)
Definition no_json : sfield :=
  {| sf_name := bs "C"; sf_exported := true; sf_type := TInt; sf_json := bs "-"; sf_binary := []; sf_amino := [] |}.
Definition hide_env : tenv :=
  {| te_def := fun id => match id with
       | 0%nat => UStruct [hidden "a" TInt; fld "B" TInt "" ""; no_json]
       | 1%nat => UStruct [fld "In" (TNamed 0%nat) "" ""; hidden "s" TStr; fld "P" (TPtr (TNamed 0%nat)) "" ""; fld "N" TInt "" ""]
       | 2%nat => UType (TPrim PInt64)
       | _ => UStruct [fld "X" (TNamed 2%nat) "" ""]
       end;
     te_zero := fun id => match id with
       | 0%nat => VStruct [VInt 0; VInt 0; VInt 0]
       | 1%nat => VStruct [VStruct [VInt 0; VInt 0; VInt 0]; VStr []; VPtr None; VInt 0]
       | 2%nat => VInt 0
       | _ => VStruct [VInt 0]
       end;
     te_impl := fun _ _ => false;
     te_marshal := fun id => match id with 2%nat => Some (MOk (TPrim PInt64) (fun v => EOk v)) | _ => None end;
     te_unmarshal := fun id => match id with
       | 2%nat => Some (UOk (TPrim PInt64) (fun v w => match v, w with
                                                       | VInt a, VInt b => EOk (VInt (i64 (a + b)), None)
                                                       | _, _ => EOk (w, None)
                                                       end))
       | _ => None end;
     te_hash := te_hash demo |}.
Definition t_in : gotype := TNamed 0%nat.
Definition t_out : gotype := TNamed 1%nat.
Definition inner (a b c : Z) : value := VStruct [VInt a; VInt b; VInt c].
Lemma hide_wf : wf_env hide_env.
Proof.
  split.
  - intros [|[|[|id]]]; cbn; discriminate.
  - intros [|[|[|id]]]; reflexivity.
  - discriminate.
  - discriminate.
  - exact (we_hash_len _ demo_wf).
  - exact (we_hash_ok _ demo_wf).
Qed.

(** ** C38 *)

(** Values that differ in hidden fields only are written in the same way (same
    bytes, same error or same panic), at any depth, also inside lists, interfaces
    and behind pointers.  Only MarshalAmino methods could look at hidden fields. *)
Theorem C38_encoding_ignores_hidden : forall env h k t v w, blind env -> alike env t v w ->
  let c := run env new_codec h in
  marshal_bare k env c t v = marshal_bare k env c t w /\
  marshal_length_prefixed k env c t v = marshal_length_prefixed k env c t w.
Proof.
  intros env h k t v w Hb Ha c. assert (E : marshal_bare k env c t v = marshal_bare k env c t w).
  { apply (marshal_alike env c (sane_run env h) Hb). exact Ha. }
  split; [exact E|]. unfold marshal_length_prefixed. rewrite E. reflexivity.
Qed.
Example C38_encoding_example : blind hide_env /\
  alike hide_env t_out (VStruct [inner 1 2 3; VStr [65]; VPtr (Some (inner 4 5 6)); VInt 7])
                       (VStruct [inner 8 2 9; VStr []; VPtr (Some (inner 0 5 0)); VInt 7]) /\
  marshal_bare 10 hide_env new_codec t_out (VStruct [inner 1 2 3; VStr [65]; VPtr (Some (inner 4 5 6)); VInt 7]) = EOk [10; 2; 8; 2; 18; 2; 8; 5; 24; 7].
Proof.
  split; [|split; [|vm_compute; reflexivity]].
  - intros [|[|[|id]]] r f v w H Ha; try discriminate H. injection H as <- <-. apply alike_other in Ha; [|exact I]. subst w. cbn. apply alike_refl.
  - eapply alike_struct; [reflexivity|]. apply alike_shown; [reflexivity| |].
    { eapply alike_struct; [reflexivity|]. apply alike_hidden; [reflexivity|]. apply alike_shown; [reflexivity|apply alike_refl|].
      apply alike_hidden; [reflexivity|]. constructor. }
    apply alike_hidden; [reflexivity|]. apply alike_shown; [reflexivity| |].
    { apply alike_ptr. eapply alike_struct; [reflexivity|]. apply alike_hidden; [reflexivity|]. apply alike_shown; [reflexivity|apply alike_refl|].
      apply alike_hidden; [reflexivity|]. constructor. }
    apply alike_shown; [reflexivity|apply alike_refl|]. constructor.
Qed.

(** Unmarshal leaves the hidden fields of the struct variable it is given as they
    were, whatever the bytes are and also when it returns an error; likewise those
    of the structs in its fields and behind its pointers, unless that field is
    reset as a whole ([kept_reset]).  Missing for the full property: such resets,
    see below. *)
Theorem C38_unmarshal_keeps_hidden_partial : forall env h, wf_env env -> forall k bz t fs l0 v e,
  resolve env t = RStruct fs -> unmarshals env t = false -> has_type env t (VStruct l0) = true ->
  unmarshal_bare k env (run env new_codec h) bz t (VStruct l0) = URet v e ->
  exists l, v = VStruct l /\ kept_fields env fs l0 l.
Proof.
  intros env h We k bz t fs l0 v e Hr Hu Ht H.
  exact (unmarshal_kept env We (run env new_codec h) (sane_run env h) k bz t fs l0 v e Hr Hu Ht H).
Qed.
(** In particular, field by field: *)
Theorem C38_own_fields_kept : forall env h, wf_env env -> forall k bz t fs l0 v e,
  resolve env t = RStruct fs -> unmarshals env t = false -> has_type env t (VStruct l0) = true ->
  unmarshal_bare k env (run env new_codec h) bz t (VStruct l0) = URet v e ->
  exists l, v = VStruct l /\ length l = length l0 /\
    forall i f, nth_error fs i = Some f -> visible f = false -> nth_error l i = nth_error l0 i.
Proof.
  intros env h We k bz t fs l0 v e Hr Hu Ht H.
  destruct (C38_unmarshal_keeps_hidden_partial env h We k bz t fs l0 v e Hr Hu Ht H) as (l & E & K). exists l. split; [exact E|].
  clear - K. induction K; [split; [reflexivity|]; intros [|i] f X; discriminate X| |]; destruct IHK as [IH1 IH2];
    (split; [cbn; f_equal; exact IH1|]); intros [|i] g X V; cbn in X |- *; try (apply (IH2 i g X V)).
  - injection X as <-. congruence.
  - reflexivity.
Qed.
Example C38_keeps_example :
  unmarshal_bare 10 hide_env new_codec [10; 2; 8; 2; 18; 2; 8; 5; 24; 7] t_out
    (VStruct [inner 8 1 9; VStr [65]; VPtr (Some (inner 4 1 6)); VInt 1]) =
    URet (VStruct [inner 8 2 9; VStr [65]; VPtr (Some (inner 4 5 6)); VInt 7]) None /\
  unmarshal_bare 10 hide_env new_codec [10; 2; 8; 2; 26] t_out
    (VStruct [inner 8 1 9; VStr [65]; VPtr (Some (inner 4 1 6)); VInt 1]) =
    URet (VStruct [inner 8 2 9; VStr [65]; VPtr None; VInt 1]) (Some "unmarshal failed"%string).
Proof. split; vm_compute; reflexivity. Qed.

(** A struct field that is not in the bytes is reset with its hidden fields. *)
Theorem C38_absent_struct_refuted : exists env k bz t fs l0 l f g a b,
  wf_env env /\ resolve env t = RStruct fs /\ has_type env t (VStruct l0) = true /\
  unmarshal_bare k env new_codec bz t (VStruct l0) = URet (VStruct l) None /\
  nth_error fs 0 = Some f /\ visible f = true /\ resolve env (sf_type f) = RStruct g /\
  nth_error l0 0 = Some (VStruct a) /\ nth_error l 0 = Some (VStruct b) /\
  (exists j s, nth_error g j = Some s /\ visible s = false /\ nth_error a j <> nth_error b j).
Proof.
  eexists hide_env, 10%nat, [24; 7], t_out, _, [inner 8 1 9; VStr [65]; VPtr None; VInt 1], [inner 0 0 0; VStr [65]; VPtr None; VInt 7], _, _, _, _.
  split; [exact hide_wf|]. split; [reflexivity|]. split; [reflexivity|]. split; [vm_compute; reflexivity|]. split; [reflexivity|]. split; [reflexivity|].
  split; [reflexivity|]. split; [reflexivity|]. split; [reflexivity|].
  exists 0%nat. eexists. split; [reflexivity|]. split; [reflexivity|]. cbn. discriminate.
Qed.
Print Assumptions C38_encoding_ignores_hidden.
Print Assumptions C38_unmarshal_keeps_hidden_partial.
Print Assumptions C38_own_fields_kept.
Print Assumptions C38_absent_struct_refuted.

(** ** C41 *)

(** The same bytes decoded into two variables of the same type, in which no visible
    interface is set: the same success (with the same visible parts, and by C38
    each with its own hidden fields), the same error or the same panic.  One of the
    variables may of course be fresh, [zero env t].  Missing for the full property:
    UnmarshalAmino methods that look at their receiver, and pointers to lists. *)
Theorem C41_used_target_partial : forall env h, wf_env env -> overwriting env ->
  forall k bz t v0 v1, has_type env t v0 = true -> has_type env t v1 = true ->
  unset env t v0 = true -> unset env t v1 = true ->
  (is_ptr t = false \/ is_list env (deref_type t) = false \/ struct_like env (deref_type t) = true) ->
  let c := run env new_codec h in
  usim env t (unmarshal_bare k env c bz t v0) (unmarshal_bare k env c bz t v1) /\
  usim env t (unmarshal_length_prefixed k env c bz t v0) (unmarshal_length_prefixed k env c bz t v1).
Proof.
  intros env h We Ho k bz t v0 v1 T0 T1 U0 U1 Hp c. split.
  - exact (unmarshal_reuse env We Ho c (sane_run env h) k bz t v0 v1 T0 T1 U0 U1 Hp).
  - exact (unmarshal_length_reuse env We Ho c (sane_run env h) k bz t v0 v1 T0 T1 U0 U1 Hp).
Qed.
Theorem C41_fresh_target : forall env t, wf_env env -> has_type env t (zero env t) = true /\ unset env t (zero env t) = true.
Proof. intros env t We. split; [apply has_type_zero; exact We|apply unset_zero; exact We]. Qed.
(** A variable of interface type that is set is refused. *)
Theorem C41_set_interface : forall env h k bz i ct w, let c := run env new_codec h in
  find_iface i (cd_ifaces c) <> None ->
  unmarshal_bare (S k) env c bz (TIface i) (VIface (Some (ct, w))) = URet (VIface (Some (ct, w))) (Some "unmarshal failed"%string).
Proof.
  intros env h k bz i ct w c Hf. rewrite unmarshal_eq. unfold get_type_info. cbn [deref_type].
  pose proof (get_type_info_iface_sane env c (TIface i)) as G. unfold get_type_info in G. cbn [deref_type] in G.
  destruct (find_iface i (cd_ifaces c)) as [ii|] eqn:E; [|congruence]. destruct (G ii eq_refl) as [_ Hi]. injection Hi as Hi.
  cbv zeta. unfold um_body. cbn [ti_type]. rewrite <- Hi. replace (_ && _) with false by (destruct (0 <? length bz)%nat; cbn; rewrite ?andb_false_r; reflexivity). cbn. reflexivity.
Qed.
Definition used_out : value := VStruct [inner 8 1 9; VStr [65]; VPtr (Some (inner 4 1 6)); VInt 1].
Example C41_example :
  has_type hide_env t_out used_out = true /\ unset hide_env t_out used_out = true /\
  unmarshal_bare 10 hide_env new_codec [10; 2; 8; 2; 18; 2; 8; 5] t_out used_out =
    URet (VStruct [inner 8 2 9; VStr [65]; VPtr (Some (inner 4 5 6)); VInt 0]) None /\
  unmarshal_bare 10 hide_env new_codec [10; 2; 8; 2; 18; 2; 8; 5] t_out (zero hide_env t_out) =
    URet (VStruct [inner 0 2 0; VStr []; VPtr (Some (inner 0 5 0)); VInt 0]) None /\
  overwriting demo.
Proof.
  split; [reflexivity|]. split; [reflexivity|]. split; [vm_compute; reflexivity|]. split; [vm_compute; reflexivity|].
  intros id r g v v' w H. do 13 (destruct id as [|id]; [try discriminate H|]); try discriminate H.
  injection H as <- <-. reflexivity.
Qed.

(** An UnmarshalAmino method sees the old contents of its receiver. *)
Theorem C41_method_refuted : exists env k bz t v0 v v',
  wf_env env /\ has_type env t v0 = true /\ unset env t v0 = true /\
  unmarshal_bare k env new_codec bz t v0 = URet v None /\
  unmarshal_bare k env new_codec bz t (zero env t) = URet v' None /\ ~ alike env t v v'.
Proof.
  exists hide_env, 10%nat, [8; 5], (TNamed 3%nat), (VStruct [VInt 7]), (VStruct [VInt 12]), (VStruct [VInt 5]).
  split; [exact hide_wf|]. split; [reflexivity|]. split; [reflexivity|]. split; [vm_compute; reflexivity|]. split; [vm_compute; reflexivity|].
  intros H. inversion H as [| ? fs l l' Hr Hf | | | |]; subst. cbn in Hr. injection Hr as <-.
  inversion Hf as [| ? ? ? ? ? ? Hv Hx Hl | ? ? ? ? ? ? Hv Hl]; subst; [|discriminate Hv].
  apply alike_other in Hx; [discriminate Hx|exact I].
Qed.
(** A pointer variable that points to a list makes Unmarshal panic; a nil one does not. *)
Theorem C41_list_pointer_refuted : exists env k bz t v0 v' p,
  wf_env env /\ has_type env t v0 = true /\ unset env t v0 = true /\
  unmarshal_bare k env new_codec bz t v0 = UPanic p /\
  unmarshal_bare k env new_codec bz t (zero env t) = URet v' None.
Proof.
  eexists demo, 10%nat, [10; 2; 1; 2], (TPtr (TSlice TInt)), (VPtr (Some (VSlice (Some [VInt 5])))), _, _.
  split; [exact demo_wf|]. split; [reflexivity|]. split; [reflexivity|]. split; vm_compute; reflexivity.
Qed.
Print Assumptions C41_used_target_partial.
Print Assumptions C41_fresh_target.
Print Assumptions C41_set_interface.
Print Assumptions C41_method_refuted.
Print Assumptions C41_list_pointer_refuted.
