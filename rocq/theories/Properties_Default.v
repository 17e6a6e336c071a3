(** Property theorems about nil, empty and default values in structs. *)
From Coq Require Import ZArith String List Bool Lia.
From Coq Require Import ZifyBool ZifyNat.
From Verif Require Import Base Prims SpecWire PrimFacts PrimProps Types Codec BinEnc BinDec Amino FuelFacts Registry SpecRegistry RegistryFacts Sane Typing DecSafe
  Demo DemoFacts SpecNorm EncFacts RoundTrip TopFacts SpecProto SpecStruct SpecDefault VersionFacts DefaultFacts ProtoFacts SpecContents ContentsFacts Properties_Decode Properties_RoundTrip Properties_Proto.
Import ListNotations.
Local Open Scope Z_scope.

(** Types for the examples:
    type D struct { S []string; P *int; B []byte; L []*int; M []*string; n int; Z int; W int `binary:"write_empty"` }
    type W struct { P *int `binary:"write_empty"` }
    type B struct { P *bool }
    type F struct { X float64 `amino:"unsafe"`; Y [2]byte } *)
Definition float_fld : sfield :=
  {| sf_name := bs "X"; sf_exported := true; sf_type := TPrim PFloat64; sf_json := []; sf_binary := []; sf_amino := bs "unsafe" |}.
Definition d_fields : list sfield :=
  [fld "S" (TSlice TStr) "" ""; fld "P" (TPtr TInt) "" ""; fld "B" (TSlice TByte) "" ""; fld "L" (TSlice (TPtr TInt)) "" "";
   fld "M" (TSlice (TPtr TStr)) "" ""; hidden "n" TInt; fld "Z" TInt "" ""; fld "W" TInt "" "write_empty"].
Definition def_env : tenv :=
  {| te_def := fun id => match id with
       | 0%nat => UStruct d_fields
       | 1%nat => UStruct [fld "P" (TPtr TInt) "" "write_empty"]
       | 2%nat => UStruct [fld "P" (TPtr (TPrim PBool)) "" ""]
       | _ => UStruct [float_fld; fld "Y" (TArray 2 TByte) "" ""]
       end;
     te_zero := fun id => match id with
       | 0%nat => VStruct [VSlice None; VPtr None; VSlice None; VSlice None; VSlice None; VInt 0; VInt 0; VInt 0]
       | 1%nat => VStruct [VPtr None]
       | 2%nat => VStruct [VPtr None]
       | _ => VStruct [VFloat 0; VArr [VUint 0; VUint 0]]
       end;
     te_impl := fun _ _ => false; te_marshal := fun _ => None; te_unmarshal := fun _ => None; te_hash := te_hash demo |}.
Definition t_d : gotype := TNamed 0%nat.
Lemma def_wf : wf_env def_env.
Proof.
  split.
  - intros [|[|[|id]]]; cbn; discriminate.
  - intros [|[|[|id]]]; reflexivity.
  - discriminate.
  - discriminate.
  - exact (we_hash_len _ demo_wf).
  - exact (we_hash_ok _ demo_wf).
Qed.

(** ** C39 *)

(** Nil and empty slices anywhere, and nil pointers and pointers to zero integers
    or empty strings or slices in struct fields without write_empty and as list
    elements, make no difference: same bytes, same error or same panic. *)
Theorem C39_same_encoding : forall env h k t v w, wf_env env -> indifferent env -> same env t v w ->
  let c := run env new_codec h in
  marshal_bare k env c t v = marshal_bare k env c t w /\
  marshal_length_prefixed k env c t v = marshal_length_prefixed k env c t w.
Proof.
  intros env h k t v w We Hi H c. pose proof (sane_run env h) as Hs. fold c in Hs.
  pose proof (marshal_same env c We Hs Hi k t v w H) as E. split; [exact E|]. unfold marshal_length_prefixed. rewrite E. reflexivity.
Qed.
Definition d_one : value :=
  VStruct [VSlice None; VPtr None; VSlice (Some []); VSlice (Some [VPtr None; VPtr (Some (VInt 5))]); VSlice (Some [VPtr (Some (VStr []))]); VInt 1; VInt 0; VInt 0].
Definition d_two : value :=
  VStruct [VSlice (Some []); VPtr (Some (VInt 0)); VSlice None; VSlice (Some [VPtr (Some (VInt 0)); VPtr (Some (VInt 5))]); VSlice (Some [VPtr None]); VInt 2; VInt 0; VInt 0].
Example C39_same_example : indifferent def_env /\ same def_env t_d d_one d_two /\
  marshal_bare 10 def_env new_codec t_d d_one = EOk [34; 2; 0; 5; 42; 0; 56; 0] /\
  marshal_bare 10 def_env new_codec t_d d_two = EOk [34; 2; 0; 5; 42; 0; 56; 0].
Proof.
  split; [intros id r f v w X; discriminate X|]. split.
  - eapply same_struct; [reflexivity|].
    apply same_shown; [reflexivity|eapply same_none; reflexivity|].
    apply same_default; [reflexivity|reflexivity|split; reflexivity|split; reflexivity|].
    apply same_shown; [reflexivity|eapply same_empty; reflexivity|].
    apply same_shown; [reflexivity|eapply same_slice; [reflexivity|apply same_skip; [split; reflexivity|split; reflexivity|]; apply same_cons; [apply same_refl|apply same_nil]]|].
    apply same_shown; [reflexivity|eapply same_slice; [reflexivity|apply same_skip; [split; reflexivity|split; reflexivity|]; apply same_nil]|].
    apply same_hidden; [reflexivity|].
    apply same_shown; [reflexivity|apply same_refl|]. apply same_shown; [reflexivity|apply same_refl|]. apply same_done.
  - split; vm_compute; reflexivity.
Qed.

(** A struct is written as its prefix bytes followed by one part for each field that is neither hidden
    nor blank. *)
Theorem C39_parts : forall env h, wf_env env -> marshal_typed env -> clean env new_codec h = true ->
  forall k t fs l bz pre, let c := run env new_codec h in
  resolve env t = RStruct fs -> has_method env t = false -> has_type env t (VStruct l) = true ->
  marshal_bare (S k) env c t (VStruct l) = EOk bz -> zlen bz < 2 ^ 63 -> preamble c t pre ->
  exists ps, bz = pre ++ concat ps /\ parts env c k 1 fs l ps.
Proof.
  intros env h We Hm Hcl k t fs l bz pre c. apply (marshal_parts env We c (sane_run env h) (wf_history env h Hcl) Hm).
Qed.
Example C39_parts_example : clean def_env new_codec [] = true /\ preamble new_codec t_d [] /\ has_type def_env t_d d_one = true /\
  blank_field def_env (blank 9 def_env) (TSlice TByte) no_opts (VSlice (Some [])) = true /\
  blank_field def_env (blank 9 def_env) TInt (set_num 7 no_opts) (VInt 0) = true /\
  [34; 2; 0; 5; 42; 0; 56; 0] = concat [[34; 2; 0; 5]; [42; 0]; [56; 0]].
Proof.
  split; [reflexivity|]. split; [right; split; [intros ci []|reflexivity]|]. split; [vm_compute; reflexivity|]. split; [reflexivity|].
  split; reflexivity.
Qed.

(** Default-valued fields without write_empty, and nil or empty lists written as entries, are blank; pointer fields that are not
    default are not. *)
Theorem C39_default_is_blank : forall env k t o v, defaultv v = true -> fo_write_empty o = false ->
  blank_field env (blank k env) t o v = true.
Proof. intros env k t o v Hd Hw. unfold blank_field. rewrite Hd, Hw. reflexivity. Qed.
Theorem C39_pointer_not_blank : forall env k e o v, defaultv v = false ->
  blank_field env (blank k env) (TPtr e) o v = false.
Proof.
  intros env k e o v Hd. unfold blank_field. rewrite Hd. cbn [andb]. unfold entries. cbn [resolve is_ptr negb]. rewrite andb_false_r. reflexivity.
Qed.

Lemma opts_write_empty num f o : field_opts num f = Some o -> visible f = true /\ fo_write_empty o = writes_empty f.
Proof.
  unfold field_opts, visible, writes_empty, parse_field_options. destruct (sf_exported f); [|discriminate].
  destruct (beqb (sf_json f) (bs "-")); [discriminate|]. intros X. injection X as <-. split; reflexivity.
Qed.

(** All visible fields default, none tagged write_empty: no bytes but the prefix. *)
Theorem C39_all_default : forall env h, wf_env env -> marshal_typed env -> clean env new_codec h = true ->
  forall k t fs l bz pre, let c := run env new_codec h in
  resolve env t = RStruct fs -> has_method env t = false -> has_type env t (VStruct l) = true ->
  Forall2 (fun f v => visible f = true -> writes_empty f = false /\ defaultv v = true) fs l ->
  marshal_bare (S k) env c t (VStruct l) = EOk bz -> zlen bz < 2 ^ 63 -> preamble c t pre -> bz = pre.
Proof.
  intros env h We Hm Hcl k t fs l bz pre c Hr Hh Ht Hd H Hz P.
  destruct (C39_parts env h We Hm Hcl k t fs l bz pre Hr Hh Ht H Hz P) as (ps & -> & Q).
  replace ps with (@nil bytes); [apply app_nil_r|]. fold c in Q. clear -Q Hd. revert Q. generalize 1. revert ps.
  induction Hd as [|f v fs l Hf Hd IH]; intros ps num Q; inversion Q; subst; try reflexivity; try (eapply IH; eassumption).
  all: match goal with Ho : field_opts _ _ = Some _, Hb : blank_field _ _ _ _ _ = false |- _ =>
         destruct (opts_write_empty _ _ _ Ho) as [Vi Wr]; destruct (Hf Vi) as [W1 D1];
         rewrite C39_default_is_blank in Hb by congruence; discriminate Hb end.
Qed.
Example C39_all_default_example : marshal_bare 10 def_env new_codec (TNamed 2%nat) (VStruct [VPtr None]) = EOk [].
Proof. reflexivity. Qed.

(** With write_empty, a pointer to zero is written and a nil pointer panics. *)
Theorem C39_write_empty_refuted : exists env k t bz p, wf_env env /\ has_type env t (VStruct [VPtr None]) = true /\
  has_type env t (VStruct [VPtr (Some (VInt 0))]) = true /\
  marshal_bare k env new_codec t (VStruct [VPtr (Some (VInt 0))]) = EOk bz /\
  marshal_bare k env new_codec t (VStruct [VPtr None]) = EPanic p.
Proof.
  eexists def_env, 10%nat, (TNamed 1%nat), _, _. split; [exact def_wf|]. split; [reflexivity|]. split; [reflexivity|].
  split; [vm_compute; reflexivity|]. vm_compute; reflexivity.
Qed.
(** A pointer to false is not the same as a nil pointer. *)
Theorem C39_bool_refuted : exists env k t, wf_env env /\ has_type env t (VStruct [VPtr None]) = true /\
  has_type env t (VStruct [VPtr (Some (VBool false))]) = true /\
  marshal_bare k env new_codec t (VStruct [VPtr None]) = EOk [] /\
  marshal_bare k env new_codec t (VStruct [VPtr (Some (VBool false))]) = EOk [8; 0].
Proof.
  exists def_env, 10%nat, (TNamed 2%nat). split; [exact def_wf|]. split; [reflexivity|]. split; [reflexivity|].
  split; [vm_compute; reflexivity|]. vm_compute; reflexivity.
Qed.
(** Zero floats and zero byte arrays are written. *)
Theorem C39_zero_refuted : exists env k t, wf_env env /\
  marshal_bare k env new_codec t (zero env t) = EOk [9; 0; 0; 0; 0; 0; 0; 0; 0; 18; 2; 0; 0].
Proof. exists def_env, 10%nat, (TNamed 3%nat). split; [exact def_wf|]. vm_compute; reflexivity. Qed.
Print Assumptions C39_same_encoding.
Print Assumptions C39_parts.
Print Assumptions C39_default_is_blank.
Print Assumptions C39_pointer_not_blank.
Print Assumptions C39_all_default.
Print Assumptions C39_write_empty_refuted.
Print Assumptions C39_bool_refuted.
Print Assumptions C39_zero_refuted.

(** ** C47 *)

(** Every non-default part of a value that could be marshalled ([contents]: the
    scalars, strings and byte lists reached through fields, lists, pointers, interfaces and
    representations, to any depth [d]) is present in the bytes, all of them in order and side by side.  Missing
    for the full statement: types that are not [regular] (see C13); there it is false. *)
Theorem C47_present_partial : forall env h mem, wf_env env -> marshal_typed env -> clean env new_codec h = true ->
  regular env (run env new_codec h) mem ->
  forall k d t v w bz, let c := run env new_codec h in
  mem (deref_type t) = true -> has_type env t v = true -> under v = Some w ->
  marshal_bare k env c t v = EOk bz -> zlen bz < 2 ^ 63 -> present (contents d env (deref_type t) no_opts w) bz.
Proof.
  intros env h mem We Hm Hcl Hreg k d t v w bz c. apply (marshal_contents env We c (wf_history env h Hcl) (sane_run env h) Hm mem Hreg).
Qed.
Example C47_example : regular demo (run demo new_codec demo_history) plain_mem /\ plain_mem t_all = true /\ has_type demo t_all all_value = true /\
  contents 10 demo t_all no_opts all_value =
    [Pvarint 1; Pvarint 5; Pvarint 300; P32 0x7FC00001; Plen [104; 105]; Pvarint 1; Pvarint 2; Pvarint 1; Pvarint (2 ^ 64 - 1); Pvarint 5;
     Plen [120]; Pvarint 1; Plen [65; 66; 67]; Pvarint 100; Plen [65; 66; 67]; Pvarint 100; Plen [7]].
Proof. split; [exact demo_regular|]. split; [reflexivity|]. split; [vm_compute; reflexivity|]. vm_compute; reflexivity. Qed.

(** Lists of byte lists that are not fields vanish: alone ... *)
Theorem C47_alone_refuted : exists env k t v bz, wf_env env /\ has_type env t v = true /\ marshal_bare k env new_codec t v = EOk bz /\
  ~ present (contents 3 env t no_opts v) bz.
Proof.
  exists nested_env, 5%nat, (TSlice (TSlice TByte)), (VSlice (Some [VSlice (Some [VUint 7])])), [10].
  split; [exact nested_wf|]. split; [reflexivity|]. split; [vm_compute; reflexivity|].
  assert (E : contents 3 nested_env (TSlice (TSlice TByte)) no_opts (VSlice (Some [VSlice (Some [VUint 7])])) = [Plen [7]]) by reflexivity.
  rewrite E. intros H. inversion H as [|q qs s b r Hp Hr Eq Eb]; subst. inversion Hp; subst.
  assert (X : In 7 [10]) by (rewrite <- Eb; apply in_or_app; right; apply in_or_app; left; apply in_or_app; right; left; reflexivity).
  destruct X as [X|[]]; discriminate X.
Qed.
(** ... and behind pointers. *)
Theorem C47_pointer_refuted : exists env k t v bz, wf_env env /\ is_struct env t = true /\ has_type env t v = true /\
  marshal_bare k env new_codec t v = EOk bz /\ ~ present (contents 3 env t no_opts v) bz.
Proof.
  exists nested_env, 5%nat, (TNamed 0%nat), (VStruct [VPtr (Some (VSlice (Some [VSlice (Some [VUint 7])])))]), [10].
  split; [exact nested_wf|]. split; [reflexivity|]. split; [reflexivity|]. split; [vm_compute; reflexivity|].
  assert (E : contents 3 nested_env (TNamed 0%nat) no_opts (VStruct [VPtr (Some (VSlice (Some [VSlice (Some [VUint 7])])))]) = [Plen [7]]) by reflexivity.
  rewrite E. intros H. inversion H as [|q qs s b r Hp Hr Eq Eb]; subst. inversion Hp; subst.
  assert (X : In 7 [10]) by (rewrite <- Eb; apply in_or_app; right; apply in_or_app; left; apply in_or_app; right; left; reflexivity).
  destruct X as [X|[]]; discriminate X.
Qed.
Print Assumptions C47_present_partial.
Print Assumptions C47_alone_refuted.
Print Assumptions C47_pointer_refuted.
