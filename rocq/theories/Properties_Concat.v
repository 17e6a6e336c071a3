(** Property theorems: messages one after the other. *)
From Coq Require Import ZArith String List Bool Lia.
From Coq Require Import ZifyBool ZifyNat.
From Verif Require Import Base Prims SpecWire Types Codec BinEnc BinDec Amino Registry SpecRegistry RegistryFacts Sane Typing
  Demo DemoFacts SpecNorm EncFacts RoundTrip TopFacts SpecStruct SpecDefault SpecSupported SupportedFacts SpecConcat ConcatFacts Properties_RoundTrip Properties_Default.
Import ListNotations.
Local Open Scope Z_scope.

(** Types for the examples:
    type C struct { B bool; In I; T time.Time; S []string; n int; P *I; Z string }
    type I struct { X int; Y bool } *)
Definition cat_env : tenv :=
  {| te_def := fun id => match id with
       | 0%nat => UStruct [fld "B" (TPrim PBool) "" ""; fld "In" (TNamed 1%nat) "" ""; fld "T" TTime "" ""; fld "S" (TSlice TStr) "" "";
                           hidden "n" TInt; fld "P" (TPtr (TNamed 1%nat)) "" ""; fld "Z" TStr "" ""]
       | _ => UStruct [fld "X" TInt "" ""; fld "Y" (TPrim PBool) "" ""]
       end;
     te_zero := fun id => match id with
       | 0%nat => VStruct [VBool false; VStruct [VInt 0; VBool false]; VTime (-62135596800) 0; VSlice None; VInt 0; VPtr None; VStr []]
       | _ => VStruct [VInt 0; VBool false]
       end;
     te_impl := fun _ _ => false; te_marshal := fun _ => None; te_unmarshal := fun _ => None; te_hash := te_hash demo |}.
Definition t_cat : gotype := TNamed 0%nat.
Definition t_in : gotype := TNamed 1%nat.
Lemma cat_wf : wf_env cat_env.
Proof.
  split.
  - intros [|id]; cbn; discriminate.
  - intros [|id]; reflexivity.
  - discriminate.
  - discriminate.
  - exact (we_hash_len _ demo_wf).
  - exact (we_hash_ok _ demo_wf).
Qed.
Lemma cat_typed : marshal_typed cat_env.
Proof. intros id r f v w X. discriminate X. Qed.

(** ** C91 *)

(** The message of a struct is that of its leading fields (the rest blank), followed
    by that of the rest (the leading fields blank); a list field written as one entry per
    element may be divided between the two.  One can be written exactly if the two can. *)
Theorem C91_structs : forall env h, clean env new_codec h = true -> let c := run env new_codec h in
  forall k t fs l la lb, resolve env t = RStruct fs -> has_method env t = false -> registered c t = None -> joins env fs l la lb ->
  forall bz, marshal_bare k env c t (VStruct l) = EOk bz <->
    exists x y, marshal_bare k env c t (VStruct la) = EOk x /\ marshal_bare k env c t (VStruct lb) = EOk y /\ bz = x ++ y.
Proof.
  intros env h Hc c k t fs l la lb Hr Hm Hu Hj. exact (struct_glued env c (sane_run env h) k t fs l la lb (wf_history env h Hc) Hr Hm Hu Hj).
Qed.
(** So is the message of a slice of structs. *)
Theorem C91_slices : forall env h, clean env new_codec h = true -> let c := run env new_codec h in
  forall k t e l1 l2, resolve env t = RSlice e -> is_struct env e = true -> has_method env t = false -> registered c t = None ->
  forall bz, marshal_bare k env c t (VSlice (Some (l1 ++ l2))) = EOk bz <->
    exists x y, marshal_bare k env c t (VSlice (Some l1)) = EOk x /\ marshal_bare k env c t (VSlice (Some l2)) = EOk y /\ bz = x ++ y.
Proof.
  intros env h Hc c k t e l1 l2 Hr He Hm Hu. exact (slice_glued env c (sane_run env h) k t e l1 l2 (wf_history env h Hc) Hr He Hm Hu).
Qed.
(** Hence two such messages, one after the other, are read as the whole. *)
Theorem C91_read_partial : forall env h mem, wf_env env -> marshal_typed env -> clean env new_codec h = true ->
  let c := run env new_codec h in supported env c mem ->
  forall k fd t fs l la lb x y, mem t = true -> resolve env t = RStruct fs -> has_method env t = false -> registered c t = None -> joins env fs l la lb ->
  has_type env t (VStruct l) = true ->
  marshal_bare k env c t (VStruct la) = EOk x -> marshal_bare k env c t (VStruct lb) = EOk y -> zlen (x ++ y) < 2 ^ 63 -> (2 * k <= fd)%nat ->
  exists v', norm k env c t (set_num 1 no_opts) (VStruct l) = Some v' /\
    unmarshal_bare fd env c (x ++ y) t (zero env t) = URet v' None.
Proof.
  intros env h mem We Hm Hc c Hsup k fd t fs l la lb x y Hmem Hr Hme Hu Hj Ht Hx Hy Hz Hfd.
  assert (D : deref_type t = t) by (destruct t; try reflexivity; discriminate Hr).
  assert (M : marshal_bare k env c t (VStruct l) = EOk (x ++ y)) by (apply (C91_structs env h Hc k t fs l la lb Hr Hme Hu Hj); eauto).
  destruct (C11_supported_partial env h mem We Hm Hc Hsup k fd t (VStruct l) (x ++ y)) as (w & v' & Uw & Hn & HU); rewrite ?D; try assumption.
  { unfold struct_like. rewrite Hr. reflexivity. }
  cbn [under] in Uw. injection Uw as <-. rewrite D in Hn. exists v'. split; [exact Hn|].
  rewrite (ptrs_nonptr t v' D) in HU. exact HU.
Qed.

Definition cat_mem (t : gotype) : bool := existsb (gotype_eqb t) [t_cat; t_in; TPrim PBool; TInt; TStr; TTime].
Lemma cat_supported : supported cat_env new_codec cat_mem.
Proof.
  intros t H. unfold cat_mem in H. apply existsb_exists in H. destruct H as (t' & H & Et). apply gotype_eqb_eq in Et. subst t'.
  split; [|destruct t; exact I].
  assert (F : forallb (type_ok cat_env new_codec cat_mem) [t_cat; t_in; TPrim PBool; TInt; TStr; TTime] = true) by (vm_compute; reflexivity).
  rewrite forallb_forall in F. exact (F t H).
Qed.
Definition cat_whole : list value :=
  [VBool true; VStruct [VInt 7; VBool true]; VTime 1 2; VSlice (Some [VStr (bs "a"); VStr []; VStr (bs "b")]); VInt 5; VPtr (Some (VStruct [VInt 3; VBool false])); VStr (bs "z")].
Definition cat_one : list value :=
  [VBool true; VStruct [VInt 7; VBool true]; VTime 1 2; VSlice (Some [VStr (bs "a"); VStr []]); VInt 6; VPtr None; VStr []].
Definition cat_two : list value :=
  [VBool false; VStruct [VInt 0; VBool false]; VTime 0 0; VSlice (Some [VStr (bs "b")]); VInt 8; VPtr (Some (VStruct [VInt 3; VBool false])); VStr (bs "z")].
Lemma cat_joins : joins cat_env [fld "B" (TPrim PBool) "" ""; fld "In" (TNamed 1%nat) "" ""; fld "T" TTime "" ""; fld "S" (TSlice TStr) "" "";
    hidden "n" TInt; fld "P" (TPtr (TNamed 1%nat)) "" ""; fld "Z" TStr "" ""] cat_whole cat_one cat_two.
Proof.
  apply joins_first; [reflexivity|split; [reflexivity|right; apply hush_bool; reflexivity]|].
  apply joins_first; [reflexivity|split; [reflexivity|right]|].
  { eapply hush_struct; [reflexivity|reflexivity|]. apply hf_default; [reflexivity..|]. apply hf_hush; [reflexivity|reflexivity|apply hush_bool; reflexivity|]. apply hf_nil. }
  apply joins_first; [reflexivity|split; [reflexivity|right; apply hush_time; reflexivity]|].
  apply (joins_list _ _ _ (VStr (bs "a")) [VStr []] (VStr (bs "b")) []); [reflexivity|reflexivity|].
  apply sec_hidden; [reflexivity|]. apply sec_shown; [reflexivity|split; [reflexivity|left; reflexivity]|].
  apply sec_shown; [reflexivity|split; [reflexivity|left; reflexivity]|]. apply sec_nil.
Qed.
Example C91_example : supported cat_env new_codec cat_mem /\ cat_mem t_cat = true /\ registered new_codec t_cat = None /\ has_method cat_env t_cat = false /\
  resolve cat_env t_cat = RStruct [fld "B" (TPrim PBool) "" ""; fld "In" (TNamed 1%nat) "" ""; fld "T" TTime "" ""; fld "S" (TSlice TStr) "" "";
    hidden "n" TInt; fld "P" (TPtr (TNamed 1%nat)) "" ""; fld "Z" TStr "" ""] /\
  joins cat_env [fld "B" (TPrim PBool) "" ""; fld "In" (TNamed 1%nat) "" ""; fld "T" TTime "" ""; fld "S" (TSlice TStr) "" "";
    hidden "n" TInt; fld "P" (TPtr (TNamed 1%nat)) "" ""; fld "Z" TStr "" ""] cat_whole cat_one cat_two /\
  has_type cat_env t_cat (VStruct cat_whole) = true /\
  marshal_bare 10 cat_env new_codec t_cat (VStruct cat_one) = EOk [8; 1; 18; 4; 8; 7; 16; 1; 26; 4; 8; 1; 16; 2; 34; 1; 97; 34; 0] /\
  marshal_bare 10 cat_env new_codec t_cat (VStruct cat_two) = EOk [34; 1; 98; 42; 2; 8; 3; 50; 1; 122] /\
  unmarshal_bare 20 cat_env new_codec ([8; 1; 18; 4; 8; 7; 16; 1; 26; 4; 8; 1; 16; 2; 34; 1; 97; 34; 0] ++ [34; 1; 98; 42; 2; 8; 3; 50; 1; 122]) t_cat (zero cat_env t_cat) =
    URet (VStruct [VBool true; VStruct [VInt 7; VBool true]; VTime 1 2; VSlice (Some [VStr (bs "a"); VStr []; VStr (bs "b")]); VInt 0;
                   VPtr (Some (VStruct [VInt 3; VBool false])); VStr (bs "z")]) None.
Proof.
  split; [exact cat_supported|]. do 4 (split; [vm_compute; reflexivity|]). split; [exact cat_joins|]. repeat (split; [vm_compute; reflexivity|]). vm_compute; reflexivity.
Qed.
Example C91_slices_example :
  marshal_bare 10 cat_env new_codec (TSlice t_in) (VSlice (Some ([VStruct [VInt 1; VBool true]] ++ [VStruct [VInt 0; VBool false]; VStruct [VInt 2; VBool false]]))) =
    EOk ([10; 4; 8; 1; 16; 1] ++ [10; 0; 10; 2; 8; 2]) /\
  marshal_bare 10 cat_env new_codec (TSlice t_in) (VSlice (Some [VStruct [VInt 1; VBool true]])) = EOk [10; 4; 8; 1; 16; 1] /\
  marshal_bare 10 cat_env new_codec (TSlice t_in) (VSlice (Some [VStruct [VInt 0; VBool false]; VStruct [VInt 2; VBool false]])) = EOk [10; 0; 10; 2; 8; 2].
Proof. repeat (split; [vm_compute; reflexivity|]). vm_compute; reflexivity. Qed.

(** Unlike in Protocol Buffers the order matters: the two messages the other way
    round are refused. *)
Theorem C91_order_refuted : exists env fs t l la lb x y e, wf_env env /\ resolve env t = RStruct fs /\ joins env fs l la lb /\
  (forall k, (5 <= k)%nat -> marshal_bare k env new_codec t (VStruct la) = EOk x /\ marshal_bare k env new_codec t (VStruct lb) = EOk y) /\
  exists v, unmarshal_bare 20 env new_codec (y ++ x) t (zero env t) = URet v (Some e).
Proof.
  exists cat_env. eexists. exists t_cat, cat_whole, cat_one, cat_two, [8; 1; 18; 4; 8; 7; 16; 1; 26; 4; 8; 1; 16; 2; 34; 1; 97; 34; 0], [34; 1; 98; 42; 2; 8; 3; 50; 1; 122].
  eexists. split; [exact cat_wf|]. split; [reflexivity|]. split; [exact cat_joins|]. split.
  - intros k Hk. do 5 (destruct k as [|k]; [lia|]). split; vm_compute; reflexivity.
  - eexists. vm_compute. reflexivity.
Qed.
(** Nor does it hold for registered types: there the second message starts with a prefix
    of its own. *)
Definition cat_history : list op := [OConc t_in (bs "in")].
Theorem C91_registered_refuted : exists env h fs t l la lb x y e, wf_env env /\ clean env new_codec h = true /\ resolve env t = RStruct fs /\ joins env fs l la lb /\
  let c := run env new_codec h in
  (forall k, (5 <= k)%nat -> marshal_bare k env c t (VStruct la) = EOk x /\ marshal_bare k env c t (VStruct lb) = EOk y /\
     marshal_bare k env c t (VStruct l) <> EOk (x ++ y)) /\
  exists v, unmarshal_bare 20 env c (x ++ y) t (zero env t) = URet v (Some e).
Proof.
  exists cat_env, cat_history. eexists. exists t_in, [VInt 4; VBool true], [VInt 4; VBool false], [VInt 0; VBool true].
  eexists. eexists. eexists. split; [exact cat_wf|]. split; [vm_compute; reflexivity|]. split; [reflexivity|]. split.
  { apply joins_first; [reflexivity|split; [reflexivity|left; reflexivity]|]. apply joins_second.
    apply sec_shown; [reflexivity|split; [reflexivity|right; apply hush_bool; reflexivity]|apply sec_nil]. }
  cbv zeta. split.
  - intros k Hk. do 5 (destruct k as [|k]; [lia|]). split; [vm_compute; reflexivity|]. split; [vm_compute; reflexivity|]. vm_compute. discriminate.
  - eexists. vm_compute. reflexivity.
Qed.
Print Assumptions C91_structs.
Print Assumptions C91_slices.
Print Assumptions C91_read_partial.
Print Assumptions C91_order_refuted.
Print Assumptions C91_registered_refuted.
