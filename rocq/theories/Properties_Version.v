(** Property theorems about struct types that grow. *)
From Coq Require Import ZArith String List Bool Lia.
From Coq Require Import ZifyBool ZifyNat.
From Verif Require Import Base Prims SpecWire PrimFacts PrimProps Types Codec BinEnc BinDec Amino FuelFacts Registry SpecRegistry RegistryFacts Sane Typing DecSafe
  Demo DemoFacts SpecNorm EncFacts RoundTrip TopFacts SpecSupported SupportedFacts TopProps SpecProto SpecStruct SpecVersion VersionFacts.
Import ListNotations.
Local Open Scope Z_scope.

(** Types for the examples:
    type V1 struct { A int; B string }
    type V2 struct { A int; B string; C []string; d int; E *int; F time.Time } *)
Definition grow_env : tenv :=
  {| te_def := fun id => match id with
       | 0%nat => UStruct [fld "A" TInt "" ""; fld "B" TStr "" ""]
       | _ => UStruct [fld "A" TInt "" ""; fld "B" TStr "" ""; fld "C" (TSlice TStr) "" ""; hidden "d" TInt; fld "E" (TPtr TInt) "" ""; fld "F" TTime "" ""]
       end;
     te_zero := fun id => match id with
       | 0%nat => VStruct [VInt 0; VStr []]
       | _ => VStruct [VInt 0; VStr []; VSlice None; VInt 0; VPtr None; zero_time]
       end;
     te_impl := fun _ _ => false; te_marshal := fun _ => None; te_unmarshal := fun _ => None; te_hash := te_hash demo |}.
Definition t_v1 : gotype := TNamed 0%nat.
Definition t_v2 : gotype := TNamed 1%nat.
Definition v1_fields : list sfield := [fld "A" TInt "" ""; fld "B" TStr "" ""].
Definition v2_more : list sfield := [fld "C" (TSlice TStr) "" ""; hidden "d" TInt; fld "E" (TPtr TInt) "" ""; fld "F" TTime "" ""].
Lemma grow_wf : wf_env grow_env.
Proof.
  split.
  - intros [|id]; cbn; discriminate.
  - intros [|id]; reflexivity.
  - discriminate.
  - discriminate.
  - exact (we_hash_len _ demo_wf).
  - exact (we_hash_ok _ demo_wf).
Qed.
Definition grow_mem (t : gotype) : bool := existsb (gotype_eqb t) [t_v1; t_v2; TInt; TStr; TTime; TSlice TStr].
Lemma grow_regular : regular grow_env new_codec grow_mem.
Proof.
  intros t H. unfold grow_mem in H. apply existsb_exists in H. destruct H as (t' & H & Et). apply gotype_eqb_eq in Et. subst t'.
  cbn [In] in H. repeat (destruct H as [<-|H]; [try exact I; try (right; split; reflexivity); try reflexivity|]). destruct H.
Qed.
Lemma grow_supported : supported grow_env new_codec grow_mem.
Proof.
  intros t H. unfold grow_mem in H. apply existsb_exists in H. destruct H as (t' & H & Et). apply gotype_eqb_eq in Et. subst t'.
  cbn [In] in H. repeat (destruct H as [<-|H]; [split; [vm_compute; reflexivity|exact I]|]). destruct H.
Qed.

(** ** C35 *)

(** What the old version of a struct type has written, the new version reads as
    what the old version reads it as (C11), followed by defaults for the new fields.
    Where both are registered (in the two versions of a program, under one name), the
    prefix bytes [p1] of the one are those of the other, [p2].  Missing for the full
    statement: values that have no normal form, which the old version itself cannot
    read; structs inside other values (lists, interfaces). *)
Theorem C35_old_bytes_partial : forall env h, wf_env env -> marshal_typed env -> clean env new_codec h = true ->
  forall k fd t1 t2 fs gs l bz l' p1 p2, let c := run env new_codec h in (2 * k <= fd)%nat ->
  resolve env t1 = RStruct fs -> resolve env t2 = RStruct (fs ++ gs) ->
  has_method env t1 = false -> has_method env t2 = false -> known env c t2 = true ->
  (forall g, In g gs -> visible g = true -> known env c (sf_type g) = true) ->
  has_type env t1 (VStruct l) = true -> marshal_bare k env c t1 (VStruct l) = EOk bz -> zlen bz < 2 ^ 63 ->
  norm k env c t1 (set_num 1 no_opts) (VStruct l) = Some (VStruct l') ->
  preamble c t1 p1 -> preamble c t2 p2 ->
  exists b, bz = p1 ++ b /\
    unmarshal_bare fd env c bz t1 (zero env t1) = URet (VStruct l') None /\
    unmarshal_bare fd env c (p2 ++ b) t2 (zero env t2) = URet (VStruct (l' ++ missing env gs)) None.
Proof.
  intros env h We Hm Hcl k fd t1 t2 fs gs l bz l' p1 p2 c Hfd R1 R2 M1 M2 K2 Kg Ht H Hz Hn P1 P2.
  pose proof (wf_history env h Hcl) as Hc. pose proof (sane_run env h) as Hs. fold c in Hc, Hs.
  destruct (old_to_new env We c Hc Hs Hm k fd t1 t2 fs gs l bz l' p1 p2 Hfd R1 R2 M1 M2 K2 Kg Ht H Hz Hn P1 P2) as (b & E & D).
  assert (D1 : deref_type t1 = t1) by (destruct t1; try reflexivity; discriminate R1).
  exists b. split; [exact E|]. split; [|exact D]. rewrite <- (ptrs_nonptr t1 (VStruct l') D1).
  apply (struct_round_trip env We c Hc Hs Hm k fd t1 (VStruct l) bz); try assumption; try reflexivity.
  - rewrite D1. unfold struct_like. rewrite R1. reflexivity.
  - cbn [under]. rewrite D1. exact Hn.
  - apply base_zero.
Qed.
(** For supported types there always is a normal form. *)
Theorem C35_supported_partial : forall env h mem, wf_env env -> marshal_typed env -> clean env new_codec h = true ->
  supported env (run env new_codec h) mem ->
  forall k fd t1 t2 fs gs l bz p1 p2, let c := run env new_codec h in (2 * k <= fd)%nat ->
  mem t1 = true -> resolve env t1 = RStruct fs -> resolve env t2 = RStruct (fs ++ gs) ->
  has_method env t1 = false -> has_method env t2 = false -> known env c t2 = true ->
  (forall g, In g gs -> visible g = true -> known env c (sf_type g) = true) ->
  has_type env t1 (VStruct l) = true -> marshal_bare k env c t1 (VStruct l) = EOk bz -> zlen bz < 2 ^ 63 ->
  preamble c t1 p1 -> preamble c t2 p2 ->
  exists b l', bz = p1 ++ b /\
    unmarshal_bare fd env c bz t1 (zero env t1) = URet (VStruct l') None /\
    unmarshal_bare fd env c (p2 ++ b) t2 (zero env t2) = URet (VStruct (l' ++ missing env gs)) None.
Proof.
  intros env h mem We Hm Hcl Hsup k fd t1 t2 fs gs l bz p1 p2 c Hfd Hmem R1 R2 M1 M2 K2 Kg Ht H Hz P1 P2.
  assert (D1 : deref_type t1 = t1) by (destruct t1; try reflexivity; discriminate R1).
  assert (Sl : struct_like env (deref_type t1) = true) by (rewrite D1; unfold struct_like; rewrite R1; reflexivity).
  assert (Hmem' : mem (deref_type t1) = true) by (rewrite D1; exact Hmem).
  destruct (supported_top env c mem k t1 (VStruct l) bz We (wf_history env h Hcl) (sane_run env h) Hm Hsup Hmem' Sl Ht H) as (w & v' & Hu & Hn).
  cbn [under] in Hu. injection Hu as <-. rewrite D1 in Hn. destruct k as [|k]; [discriminate Hn|].
  destruct (norm_struct env c k t1 fs l v' R1 M1 Hn) as (l' & -> & _).
  destruct (C35_old_bytes_partial env h We Hm Hcl (S k) fd t1 t2 fs gs l bz l' p1 p2 Hfd R1 R2 M1 M2 K2 Kg Ht H Hz Hn P1 P2) as (b & E & A & B).
  exists b, l'. auto.
Qed.
Example C35_example : wf_env grow_env /\ clean grow_env new_codec [] = true /\ supported grow_env new_codec grow_mem /\
  marshal_bare 10 grow_env new_codec t_v1 (VStruct [VInt 7; VStr [65]]) = EOk [8; 7; 18; 1; 65] /\
  norm 10 grow_env new_codec t_v1 (set_num 1 no_opts) (VStruct [VInt 7; VStr [65]]) = Some (VStruct [VInt 7; VStr [65]]) /\
  preamble new_codec t_v1 [] /\ preamble new_codec t_v2 [] /\
  unmarshal_bare 20 grow_env new_codec [8; 7; 18; 1; 65] t_v2 (zero grow_env t_v2) =
    URet (VStruct [VInt 7; VStr [65]; VSlice None; VInt 0; VPtr None; VTime 0 0]) None.
Proof.
  split; [exact grow_wf|]. split; [reflexivity|]. split; [exact grow_supported|]. split; [vm_compute; reflexivity|]. split; [vm_compute; reflexivity|].
  split; [right; split; [intros ci []|reflexivity]|]. split; [right; split; [intros ci []|reflexivity]|]. vm_compute; reflexivity.
Qed.
Print Assumptions C35_old_bytes_partial.
Print Assumptions C35_supported_partial.

(** ** C36 *)

(** What the new version has written, the old version reads as the old fields (as it
    would read its own writing of these), skipping the rest, provided no new list
    field is written as more than one entry.  Missing for the full statement: that case, which
    is refuted below, values without a normal form, irregular types (see C13). *)
Theorem C36_new_bytes_partial : forall env h mem, wf_env env -> marshal_typed env -> clean env new_codec h = true ->
  regular env (run env new_codec h) mem ->
  forall k fd t1 t2 fs gs l1 l2 bz l' p1 p2, let c := run env new_codec h in (2 * k <= fd)%nat ->
  resolve env t1 = RStruct fs -> resolve env t2 = RStruct (fs ++ gs) ->
  has_method env t1 = false -> has_method env t2 = false -> known env c t1 = true ->
  mem t2 = true -> length l1 = length fs -> single env gs l2 ->
  has_type env t2 (VStruct (l1 ++ l2)) = true -> marshal_bare k env c t2 (VStruct (l1 ++ l2)) = EOk bz -> zlen bz < 2 ^ 63 ->
  norm k env c t1 (set_num 1 no_opts) (VStruct l1) = Some (VStruct l') ->
  preamble c t1 p1 -> preamble c t2 p2 ->
  exists b, bz = p2 ++ b /\ unmarshal_bare fd env c (p1 ++ b) t1 (zero env t1) = URet (VStruct l') None.
Proof.
  intros env h mem We Hm Hcl Hreg k fd t1 t2 fs gs l1 l2 bz l' p1 p2 c.
  apply (new_to_old env We c (wf_history env h Hcl) (sane_run env h) Hm mem). exact Hreg.
Qed.
(** For supported types there always is a normal form. *)
Theorem C36_supported_partial : forall env h mem, wf_env env -> marshal_typed env -> clean env new_codec h = true ->
  regular env (run env new_codec h) mem -> supported env (run env new_codec h) mem ->
  forall k fd t1 t2 fs gs l1 l2 bz p1 p2, let c := run env new_codec h in (2 * k <= fd)%nat ->
  resolve env t1 = RStruct fs -> resolve env t2 = RStruct (fs ++ gs) ->
  has_method env t1 = false -> has_method env t2 = false -> known env c t1 = true ->
  mem t1 = true -> mem t2 = true -> length l1 = length fs -> single env gs l2 ->
  has_type env t2 (VStruct (l1 ++ l2)) = true -> marshal_bare k env c t2 (VStruct (l1 ++ l2)) = EOk bz -> zlen bz < 2 ^ 63 ->
  preamble c t1 p1 -> preamble c t2 p2 ->
  exists b l', bz = p2 ++ b /\ norm k env c t1 (set_num 1 no_opts) (VStruct l1) = Some (VStruct l') /\
    unmarshal_bare fd env c (p1 ++ b) t1 (zero env t1) = URet (VStruct l') None.
Proof.
  intros env h mem We Hm Hcl Hreg Hsup k fd t1 t2 fs gs l1 l2 bz p1 p2 c Hfd R1 R2 M1 M2 K1 Hm1 Hm2 Ll Hsi Ht H Hz P1 P2.
  pose proof (wf_history env h Hcl) as Hc. pose proof (sane_run env h) as Hs. fold c in Hc, Hs.
  destruct (marshal_old env c Hs k t1 t2 fs gs l1 l2 bz R1 R2 M1 M2 K1 Ll H) as (b1 & H1).
  assert (D1 : deref_type t1 = t1) by (destruct t1; try reflexivity; discriminate R1).
  assert (Sl : struct_like env (deref_type t1) = true) by (rewrite D1; unfold struct_like; rewrite R1; reflexivity).
  assert (Hmem' : mem (deref_type t1) = true) by (rewrite D1; exact Hm1).
  assert (Ht1 : has_type env t1 (VStruct l1) = true).
  { cbn [has_type] in *. rewrite R1. rewrite R2 in Ht. destruct (forall2b_app _ _ _ _ Ht) as (x1 & x2 & Ex & Lx & T1 & T2).
    replace l1 with x1; [exact T1|]. assert (L : length x1 = length l1) by congruence.
    clear -Ex L. revert l1 Ex L. induction x1 as [|a x1 IH]; intros [|a' l1] Ex L; try discriminate L; [reflexivity|].
    injection Ex as -> Ex. f_equal. apply IH; [exact Ex|injection L as L; exact L]. }
  destruct (supported_top env c mem k t1 (VStruct l1) b1 We Hc Hs Hm Hsup Hmem' Sl Ht1 H1) as (w & v' & Hu & Hn).
  cbn [under] in Hu. injection Hu as <-. rewrite D1 in Hn. destruct k as [|k]; [discriminate Hn|].
  destruct (norm_struct env c k t1 fs l1 v' R1 M1 Hn) as (l' & -> & _).
  destruct (C36_new_bytes_partial env h mem We Hm Hcl Hreg (S k) fd t1 t2 fs gs l1 l2 bz l' p1 p2 Hfd R1 R2 M1 M2 K1 Hm2 Ll Hsi Ht H Hz Hn P1 P2) as (b & E & B).
  exists b, l'. auto.
Qed.
Definition v2_value (c : list value) : value := VStruct [VInt 7; VStr [65]; VSlice (Some c); VInt 3; VPtr (Some (VInt 0)); VTime 5 0].
Example C36_example : regular grow_env new_codec grow_mem /\ supported grow_env new_codec grow_mem /\
  has_type grow_env t_v2 (v2_value [VStr [66]]) = true /\
  resolve grow_env t_v2 = RStruct (v1_fields ++ v2_more) /\ single grow_env v2_more
    [VSlice (Some [VStr [66]]); VInt 3; VPtr (Some (VInt 0)); VTime 5 0] /\
  marshal_bare 10 grow_env new_codec t_v2 (v2_value [VStr [66]]) = EOk [8; 7; 18; 1; 65; 26; 1; 66; 42; 2; 8; 5] /\
  unmarshal_bare 20 grow_env new_codec [8; 7; 18; 1; 65; 26; 1; 66; 42; 2; 8; 5] t_v1 (zero grow_env t_v1) = URet (VStruct [VInt 7; VStr [65]]) None.
Proof.
  split; [exact grow_regular|]. split; [exact grow_supported|]. split; [reflexivity|]. split; [reflexivity|]. split.
  - constructor; [intros _ _ vs H; inversion H; cbn; lia|]. constructor; [discriminate|]. constructor; [intros _ X; discriminate X|].
    constructor; [intros _ X; discriminate X|]. constructor.
  - split; [vm_compute; reflexivity|]. vm_compute; reflexivity.
Qed.

(** A new list field with two entries is not skipped: the old version fails. *)
Theorem C36_repeated_refuted : exists env mem k fd t1 t2 fs gs l1 l2 bz e v, wf_env env /\ regular env new_codec mem /\ supported env new_codec mem /\
  resolve env t1 = RStruct fs /\ resolve env t2 = RStruct (fs ++ gs) /\ mem t1 = true /\ mem t2 = true /\ length l1 = length fs /\
  has_type env t2 (VStruct (l1 ++ l2)) = true /\ marshal_bare k env new_codec t2 (VStruct (l1 ++ l2)) = EOk bz /\
  unmarshal_bare fd env new_codec bz t1 (zero env t1) = URet v (Some e).
Proof.
  eexists grow_env, grow_mem, 10%nat, 20%nat, t_v1, t_v2, v1_fields, v2_more, [VInt 7; VStr [65]], [VSlice (Some [VStr [66]; VStr [67]]); VInt 3; VPtr None; VTime 0 0], _, _, _.
  split; [exact grow_wf|]. split; [exact grow_regular|]. split; [exact grow_supported|].
  split; [reflexivity|]. split; [reflexivity|].
  split; [reflexivity|]. split; [reflexivity|]. split; [reflexivity|]. split; [reflexivity|]. split; [vm_compute; reflexivity|]. vm_compute; reflexivity.
Qed.
Print Assumptions C36_new_bytes_partial.
Print Assumptions C36_supported_partial.
Print Assumptions C36_repeated_refuted.
