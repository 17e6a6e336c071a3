(** Property theorems: the widths of integer fields have no part in the binary format. *)
From Coq Require Import ZArith String List Bool Lia.
From Coq Require Import ZifyBool ZifyNat.
From Verif Require Import Base Prims SpecWire Types Codec BinEnc BinDec Amino Registry SpecRegistry RegistryFacts Sane Typing
  Demo DemoFacts SpecNorm EncFacts RoundTrip TopFacts SpecSupported SupportedFacts SpecWiden WidenFacts Properties_RoundTrip.
Import ListNotations.
Local Open Scope Z_scope.

(** ** C92 *)

(** Fields of type int32 (without tag), int and int64, or uint32, uint and uint64, exchanged for
    one another: registrations panic as before, and Marshal writes the same bytes or
    fails in the same way. *)
Theorem C92_registry : forall narrow env env', resized narrow env env' -> forall h x, let c := run env new_codec h in let c' := run env' new_codec h in
  clean env' new_codec h = clean env new_codec h /\ snd (step env' c' x) = snd (step env c x).
Proof.
  intros narrow env env' Hr h x c c'. split; [eapply clean_like; [exact Hr|apply new_like]|].
  apply (step_like narrow env env' Hr c c' x), run_like; [exact Hr|apply new_like].
Qed.
Theorem C92_marshal : forall narrow env env', resized narrow env env' -> forall h k t v, let c := run env new_codec h in let c' := run env' new_codec h in
  marshal_bare k env' c' t v = marshal_bare k env c t v /\ marshal_length_prefixed k env' c' t v = marshal_length_prefixed k env c t v.
Proof.
  intros narrow env env' Hr h k t v c c'. assert (marshal_bare k env' c' t v = marshal_bare k env c t v) as H.
  { apply (marshal_bare_like narrow); [exact Hr| |apply sane_run|apply sane_run]. apply run_like; [exact Hr|apply new_like]. }
  split; [exact H|]. unfold marshal_length_prefixed. rewrite H. reflexivity.
Qed.
(** int for int64 and uint for uint64: Unmarshal reads the same values and fails in the
    same way. *)
Theorem C92_unmarshal : forall env env', resized false env env' -> forall h k bz t v0, let c := run env new_codec h in let c' := run env' new_codec h in
  unmarshal_bare k env' c' bz t v0 = unmarshal_bare k env c bz t v0 /\ unmarshal_length_prefixed k env' c' bz t v0 = unmarshal_length_prefixed k env c bz t v0.
Proof.
  intros env env' Hr h k bz t v0 c c'. assert (forall bz, unmarshal_bare k env' c' bz t v0 = unmarshal_bare k env c bz t v0) as H.
  { intros b. apply (unmarshal_bare_like false); [exact Hr| |apply sane_run|apply sane_run|reflexivity]. apply run_like; [exact Hr|apply new_like]. }
  split; [apply H|]. unfold unmarshal_length_prefixed. destruct bz; [reflexivity|]. destruct (uvarint _) as [u n]. rewrite H. reflexivity.
Qed.
(** What one program writes the other reads, as long as the value fits its types. *)
Theorem C92_read_partial : forall narrow env env' h mem, resized narrow env env' -> wf_env env' -> marshal_typed env' -> clean env new_codec h = true ->
  let c := run env new_codec h in let c' := run env' new_codec h in supported env' c' mem ->
  forall k fd t v bz, mem (deref_type t) = true -> struct_like env' (deref_type t) = true -> has_type env' t v = true ->
  marshal_bare k env c t v = EOk bz -> zlen bz < 2 ^ 63 -> (2 * k <= fd)%nat ->
  exists w v', under v = Some w /\ norm k env' c' (deref_type t) (set_num 1 no_opts) w = Some v' /\
    unmarshal_bare fd env' c' bz t (zero env' t) = URet (ptrs t v') None.
Proof.
  intros narrow env env' h mem Hr We Hm Hc c c' Hsup k fd t v bz Hmem Hsl Ht H Hz Hfd.
  destruct (C92_registry narrow env env' Hr h (OConc t [])) as [Hc' _]. destruct (C92_marshal narrow env env' Hr h k t v) as [E _].
  apply (C11_supported_partial env' h mem We Hm (eq_trans Hc' Hc) Hsup k fd t v bz); try assumption. fold c c' in E. fold c'. congruence.
Qed.

(** type S struct { A I; L []T; B U; C string; F int64 `binary:"fixed64"` }
    type T struct { X I }
    where I and U are types of integers. *)
Definition wid_env (p q : prim) : tenv :=
  {| te_def := fun id => match id with
       | 0%nat => UStruct [fld "A" (TPrim p) "" ""; fld "L" (TSlice (TNamed 1%nat)) "" ""; fld "B" (TPrim q) "" ""; fld "C" TStr "" "";
           {| sf_name := bs "F"; sf_exported := true; sf_type := TPrim PInt64; sf_json := []; sf_binary := bs "fixed64"; sf_amino := [] |}]
       | _ => UStruct [fld "X" (TPrim p) "" ""]
       end;
     te_zero := fun id => match id with
       | 0%nat => VStruct [VInt 0; VSlice None; VUint 0; VStr []; VInt 0]
       | _ => VStruct [VInt 0]
       end;
     te_impl := fun _ _ => false; te_marshal := fun _ => None; te_unmarshal := fun _ => None; te_hash := te_hash demo |}.
Definition t_wid : gotype := TNamed 0%nat.
Lemma wid_wf p q : In p [PInt16; PInt32; PInt; PInt64] -> In q [PUint32; PUint; PUint64] -> wf_env (wid_env p q).
Proof.
  intros Hp Hq. split.
  - intros [|id]; cbn; discriminate.
  - intros [|id]; cbn in Hp, Hq |- *; [|destruct Hp as [<-|[<-|[<-|[<-|[]]]]]; reflexivity].
    destruct Hp as [<-|[<-|[<-|[<-|[]]]]], Hq as [<-|[<-|[<-|[]]]]; reflexivity.
  - discriminate.
  - discriminate.
  - exact (we_hash_len _ demo_wf).
  - exact (we_hash_ok _ demo_wf).
Qed.
Lemma wid_typed p q : marshal_typed (wid_env p q).
Proof. intros id r f v w X. discriminate X. Qed.
Lemma wid_resized narrow p p' q q' : kin_prim narrow p p' -> kin_prim narrow q q' -> resized narrow (wid_env p q) (wid_env p' q').
Proof.
  intros Hp Hq. assert (S : forall f, same_field narrow f f) by (intros f; split; auto).
  assert (K : forall n a b, kin_prim narrow a b -> same_field narrow (fld n (TPrim a) "" "") (fld n (TPrim b) "" "")).
  { intros n a b H. split; try reflexivity. right. exists a, b. repeat split; try exact H; discriminate. }
  split; try reflexivity. intros [|id]; cbn [te_def wid_env same_def]; repeat (apply Forall2_cons; [apply S || (apply K; assumption)|]); apply Forall2_nil.
Qed.
Definition wid_mem (t : gotype) : bool := existsb (gotype_eqb t) [TNamed 0%nat; TNamed 1%nat; TPrim PInt64; TPrim PUint64; TStr].
Lemma wid_supported : supported (wid_env PInt64 PUint64) new_codec wid_mem.
Proof.
  intros t H. unfold wid_mem in H. apply existsb_exists in H. destruct H as (t' & H & Et). apply gotype_eqb_eq in Et. subst t'.
  split; [|destruct t; exact I].
  assert (F : forallb (type_ok (wid_env PInt64 PUint64) new_codec wid_mem) [TNamed 0%nat; TNamed 1%nat; TPrim PInt64; TPrim PUint64; TStr] = true) by (vm_compute; reflexivity).
  rewrite forallb_forall in F. exact (F t H).
Qed.
Definition wid_value : value := VStruct [VInt (-5); VSlice (Some [VStruct [VInt 7]]); VUint 300; VStr (bs "c"); VInt 1].
Definition wid_bytes : bytes := [8; 251; 255; 255; 255; 255; 255; 255; 255; 255; 1; 18; 2; 8; 7; 24; 172; 2; 34; 1; 99; 41; 1; 0; 0; 0; 0; 0; 0; 0].
Example C92_example : resized true (wid_env PInt32 PUint32) (wid_env PInt64 PUint64) /\ resized false (wid_env PInt PUint) (wid_env PInt64 PUint64) /\
  wf_env (wid_env PInt64 PUint64) /\ marshal_typed (wid_env PInt64 PUint64) /\ supported (wid_env PInt64 PUint64) new_codec wid_mem /\ wid_mem t_wid = true /\
  has_type (wid_env PInt32 PUint32) t_wid wid_value = true /\ has_type (wid_env PInt64 PUint64) t_wid wid_value = true /\
  marshal_bare 10 (wid_env PInt32 PUint32) new_codec t_wid wid_value = EOk wid_bytes /\
  marshal_bare 10 (wid_env PInt64 PUint64) new_codec t_wid wid_value = EOk wid_bytes /\
  unmarshal_bare 20 (wid_env PInt64 PUint64) new_codec wid_bytes t_wid (zero (wid_env PInt64 PUint64) t_wid) = URet wid_value None /\
  unmarshal_bare 20 (wid_env PInt PUint) new_codec wid_bytes t_wid (zero (wid_env PInt64 PUint64) t_wid) = URet wid_value None.
Proof.
  split; [apply wid_resized; [left|right]; split; auto|]. split; [apply wid_resized; [left|right]; split; auto|].
  split; [apply wid_wf; cbn; auto 8|]. split; [apply wid_typed|]. split; [exact wid_supported|].
  repeat (split; [vm_compute; reflexivity|]). vm_compute; reflexivity.
Qed.

(** Fields of type int16 (or int8) are written in another way: exchanged for int32, what
    one program writes is read by the other without error as something else. *)
Theorem C92_int16_refuted : exists env env' t v w bz, wf_env env /\ wf_env env' /\ has_type env t v = true /\ has_type env' t v = true /\
  env = wid_env PInt16 PUint /\ env' = wid_env PInt32 PUint /\
  (forall k, (5 <= k)%nat -> marshal_bare k env new_codec t v = EOk bz) /\
  unmarshal_bare 20 env' new_codec bz t (zero env' t) = URet w None /\ w <> v.
Proof.
  exists (wid_env PInt16 PUint), (wid_env PInt32 PUint), t_wid, (VStruct [VInt 1; VSlice None; VUint 0; VStr []; VInt 0]), (VStruct [VInt 2; VSlice None; VUint 0; VStr []; VInt 0]), [8; 2].
  split; [apply wid_wf; cbn; auto 8|]. split; [apply wid_wf; cbn; auto 8|]. do 2 (split; [vm_compute; reflexivity|]). split; [reflexivity|]. split; [reflexivity|]. split.
  - intros k Hk. do 5 (destruct k as [|k]; [lia|]). vm_compute. reflexivity.
  - split; [vm_compute; reflexivity|discriminate].
Qed.
(** C92_unmarshal does not hold with 32-bit types: there one program returns an error (int32), or, without one,
    the lower 32 bits (uint32), where the other reads the number. *)
Theorem C92_narrow_refuted : exists env env' t bz bz' v w v' e, wf_env env /\ wf_env env' /\ resized true env env' /\
  unmarshal_bare 20 env new_codec bz t (zero env t) = URet v None /\ unmarshal_bare 20 env' new_codec bz t (zero env' t) = URet w None /\ w <> v /\
  unmarshal_bare 20 env new_codec bz' t (zero env t) = URet v' None /\ exists w', unmarshal_bare 20 env' new_codec bz' t (zero env' t) = URet w' (Some e).
Proof.
  exists (wid_env PInt64 PUint64), (wid_env PInt32 PUint32), t_wid, [24; 129; 128; 128; 128; 16], [8; 129; 128; 128; 128; 16].
  eexists. eexists. eexists. eexists. split; [apply wid_wf; cbn; auto 8|]. split; [apply wid_wf; cbn; auto 8|].
  split; [apply wid_resized; [left|right]; split; auto|]. split; [vm_compute; reflexivity|]. split; [vm_compute; reflexivity|]. split; [discriminate|].
  split; [vm_compute; reflexivity|]. eexists. vm_compute. reflexivity.
Qed.
Print Assumptions C92_registry.
Print Assumptions C92_marshal.
Print Assumptions C92_unmarshal.
Print Assumptions C92_read_partial.
Print Assumptions C92_int16_refuted.
Print Assumptions C92_narrow_refuted.
