(** Property theorems: names of fields and JSON tags have no part in the binary format. *)
From Coq Require Import ZArith String List Bool Lia.
From Coq Require Import ZifyBool ZifyNat.
From Verif Require Import Base Prims Types Codec BinEnc BinDec Amino Registry Demo JsonText Json SpecRename RenameFacts Properties_Json.
Import ListNotations.
Local Open Scope Z_scope.

(** ** C89 *)

(** Fields renamed, JSON tags changed: registrations panic as before, Marshal writes the same
    bytes, Unmarshal reads the same values, and all of them fail in the same way. *)
Theorem C89_registry : forall env env', renamed env env' -> forall h x, let c := run env new_codec h in let c' := run env' new_codec h in
  clean env' new_codec h = clean env new_codec h /\ snd (step env' c' x) = snd (step env c x).
Proof.
  intros env env' Hr h x c c'. split; [apply clean_like; [exact Hr|apply new_like]|].
  apply (step_like env env' Hr c c' x), run_like; [exact Hr|apply new_like].
Qed.
Theorem C89_marshal : forall env env', renamed env env' -> forall h k t v, let c := run env new_codec h in let c' := run env' new_codec h in
  marshal_bare k env' c' t v = marshal_bare k env c t v /\ marshal_length_prefixed k env' c' t v = marshal_length_prefixed k env c t v.
Proof.
  intros env env' Hr h k t v c c'. assert (marshal_bare k env' c' t v = marshal_bare k env c t v) as H.
  { apply marshal_bare_like; [exact Hr|]. apply run_like; [exact Hr|apply new_like]. }
  split; [exact H|]. unfold marshal_length_prefixed. rewrite H. reflexivity.
Qed.
Theorem C89_unmarshal : forall env env', renamed env env' -> forall h k bz t v0, let c := run env new_codec h in let c' := run env' new_codec h in
  unmarshal_bare k env' c' bz t v0 = unmarshal_bare k env c bz t v0 /\ unmarshal_length_prefixed k env' c' bz t v0 = unmarshal_length_prefixed k env c bz t v0.
Proof.
  intros env env' Hr h k bz t v0 c c'. assert (forall bz, unmarshal_bare k env' c' bz t v0 = unmarshal_bare k env c bz t v0) as H.
  { intros b. apply unmarshal_bare_like; [exact Hr|]. apply run_like; [exact Hr|apply new_like]. }
  split; [apply H|]. unfold unmarshal_length_prefixed. destruct bz; [reflexivity|]. destruct (uvarint _) as [u n]. rewrite H. reflexivity.
Qed.

(** The demo program with every field called something else. *)
Definition other_field (f : sfield) : sfield :=
  {| sf_name := bs "Other" ++ sf_name f; sf_exported := sf_exported f; sf_type := sf_type f; sf_json := bs "other,omitempty";
     sf_binary := sf_binary f; sf_amino := sf_amino f |}.
Definition other_def (d : udef) : udef := match d with UStruct fs => UStruct (map other_field fs) | UType t => UType t end.
Definition demo2 : tenv :=
  {| te_def := fun id => other_def (demo_def id); te_zero := te_zero demo; te_impl := te_impl demo; te_marshal := te_marshal demo;
     te_unmarshal := te_unmarshal demo; te_hash := te_hash demo |}.
Lemma demo_json id : match demo_def id with UStruct fs => Forall (fun f => sf_json f = []) fs | UType _ => True end.
Proof. do 14 (destruct id as [|id]; [cbn; repeat constructor|]). cbn. constructor. Qed.
Lemma demo2_renamed : renamed demo demo2.
Proof.
  split; try reflexivity. intros id. cbn [te_def demo demo2]. pose proof (demo_json id) as H. destruct (demo_def id) as [fs|t]; cbn; [|reflexivity].
  induction H as [|f fs H1 H IH]; cbn [map]; constructor; [|exact IH]. split; try reflexivity. rewrite H1. cbn. split; discriminate.
Qed.
Definition bc_history : list op := [OIface i_msg None; OConc (TPtr t_bcmsg) (bs "bcMessage"); OUse t_all].
Definition bc_all : value :=
  VStruct [VBool true; VInt 3; VUint 4; VFloat 0; VStr (bs "s"); VTime 5 6; VSlice None;
           VArr [VInt 0; VInt 7; VInt 0]; VSlice None; VSlice (Some [VStr (bs "t")]); VPtr (Some (foo 1 2)); VSlice None;
           VIface (Some (TPtr t_bcmsg, VPtr (Some (VStruct [VStr (bs "hi"); VInt 9])))); VSlice None; VSlice None].
Example C89_example : renamed demo demo2 /\
  (exists bz, (40 <= length bz)%nat /\ marshal_bare 9 demo (run demo new_codec bc_history) t_all bc_all = EOk bz /\
              marshal_bare 9 demo2 (run demo2 new_codec bc_history) t_all bc_all = EOk bz).
Proof.
  split; [exact demo2_renamed|]. eexists. split; [|split; vm_compute; reflexivity]. apply Nat.leb_le. vm_compute. reflexivity.
Qed.

(** Not so for JSON, which writes the names. *)
Theorem C89_json_refuted : exists b1 b2, marshal_json 9 demo jdemo_je new_codec t_foo (foo 1 2) = EOk b1 /\
  marshal_json 9 demo2 jdemo_je new_codec t_foo (foo 1 2) = EOk b2 /\ b1 <> b2.
Proof. do 2 eexists. split; [vm_compute; reflexivity|]. split; [vm_compute; reflexivity|]. discriminate. Qed.

(** Nor for the tag that hides a field: the fields after it are renumbered. *)
Definition hide_first (d : udef) : udef :=
  match d with
  | UStruct (f :: fs) => UStruct ({| sf_name := sf_name f; sf_exported := sf_exported f; sf_type := sf_type f; sf_json := bs "-";
                                     sf_binary := sf_binary f; sf_amino := sf_amino f |} :: fs)
  | d => d
  end.
Definition demo3 : tenv :=
  {| te_def := fun id => hide_first (demo_def id); te_zero := te_zero demo; te_impl := te_impl demo; te_marshal := te_marshal demo;
     te_unmarshal := te_unmarshal demo; te_hash := te_hash demo |}.
Theorem C89_hidden_refuted : marshal_bare 9 demo new_codec t_foo (foo 0 2) = EOk [16; 2] /\ marshal_bare 9 demo3 new_codec t_foo (foo 0 2) = EOk [8; 2].
Proof. split; vm_compute; reflexivity. Qed.

Print Assumptions C89_registry.
Print Assumptions C89_marshal.
Print Assumptions C89_unmarshal.
Print Assumptions C89_json_refuted.
Print Assumptions C89_hidden_refuted.
