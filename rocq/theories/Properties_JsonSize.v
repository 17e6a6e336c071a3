(** How large values decoded from JSON get: C84.  Vocabulary: SpecJsonSize.v. *)
From Coq Require Import ZArith String List Bool Lia.
From Verif Require Import Base Prims SpecWire PrimFacts Types Codec BinDec Amino Registry SpecRegistry RegistryFacts Sane Typing Demo DemoFacts DecSize
  SpecNorm EncFacts JsonText Json SpecJson JsonTextFacts JsonFacts JsonProps Properties_Tags Properties_Json SpecJsonSafe JsonSafe SpecMembers MembersFacts
  SpecJsonReads JsonReadsFacts Properties_JsonReads SpecJsonSize JsonSizeFacts.
Import ListNotations.
Local Open Scope Z_scope.

(** ** C84 *)

(** UnmarshalJSON leaves in the target at most three slice elements, map entries or string
    bytes per byte of its input more than were there, whatever the input is. *)
Theorem C84_size_bounded : forall env je h, wf_env env -> env_nogrow env -> json_nogrow je -> json_distinct env -> clean env new_codec h = true ->
  forall k t v0 bz v, let c := run env new_codec h in
  unmarshal_json k env je c bz t v0 = EOk v -> (dsize v <= dsize v0 + 3 * length bz)%nat.
Proof. intros env je h We Hg Hj Hd Hc k t v0 bz v c. exact (unmarshal_json_size env je c We (wf_history env h Hc) (sane_run env h) Hg Hj Hd k bz t v0 v). Qed.
(** Into a fresh variable: at most three times the length of the input. *)
Theorem C84_fresh_size : forall env je h, wf_env env -> env_nogrow env -> json_nogrow je -> json_distinct env -> clean env new_codec h = true ->
  forall k t bz v, let c := run env new_codec h in
  unmarshal_json k env je c bz t (zero env t) = EOk v -> (dsize v <= 3 * length bz)%nat.
Proof.
  intros env je h We Hg Hj Hd Hc k t bz v c H. pose proof (C84_size_bounded env je h We Hg Hj Hd Hc k t _ bz v H) as L. rewrite (dsize_zero env t We) in L. exact L.
Qed.

(** The declarations of [jdemo], but for the struct with two fields of the same name. *)
Definition sdemo : tenv :=
  {| te_def := fun id => if (id =? 7)%nat then UStruct [] else jdemo_def id; te_zero := fun id => if (id =? 7)%nat then VStruct [] else jdemo_zero id;
     te_impl := te_impl jdemo; te_marshal := te_marshal jdemo; te_unmarshal := te_unmarshal jdemo; te_hash := te_hash demo |}.
Lemma sdemo_wf : wf_env sdemo.
Proof.
  split.
  - intros id. do 8 (destruct id as [|id]; [discriminate|]). discriminate.
  - intros id. do 8 (destruct id as [|id]; [reflexivity|]). reflexivity.
  - intros t i _. exact (fun H => H).
  - intros t i. exact (fun H => H).
  - exact (we_hash_len _ demo_wf).
  - exact (we_hash_ok _ demo_wf).
Qed.
Lemma sdemo_distinct : json_distinct sdemo.
Proof.
  intros t fs H. destruct t as [| | | | | | | | |id]; try discriminate. apply distinct_nodup.
  do 8 (destruct id as [|id]; [first [discriminate H|injection H as <-; vm_compute; reflexivity]|]). injection H as <-. reflexivity.
Qed.
Lemma sdemo_nogrow : env_nogrow sdemo.
Proof.
  intros id r g v w v' e. cbn [te_unmarshal sdemo jdemo]. destruct (id =? 2)%nat; [|discriminate]. intros H. injection H as <- <-. destruct w; try discriminate. intros X. apply EOk_inj in X. injection X as <- _. cbn. lia.
Qed.
Lemma jdemo_je_nogrow : json_nogrow jdemo_je.
Proof.
  intros id g b v v'. cbn [je_unmarshal jdemo_je]. destruct ((id =? 3)%nat || (id =? 6)%nat); [|discriminate]. intros H. injection H as <-. unfold flag_read.
  destruct (beqb b _); [intros X; apply EOk_inj in X; subst v'; cbn; lia|]. destruct (beqb b _); [intros X; apply EOk_inj in X; subst v'; cbn; lia|discriminate].
Qed.
(** A document; and bytes that are not UTF-8, for which the factor of three is needed. *)
Example C84_example : wf_env sdemo /\ env_nogrow sdemo /\ json_nogrow jdemo_je /\ json_distinct sdemo /\ clean sdemo new_codec jdemo_history = true /\
  let c := run sdemo new_codec jdemo_history in
  unmarshal_json 9 sdemo jdemo_je c doc_text j_doc (zero sdemo j_doc) = EOk doc_norm /\ dsize doc_norm = 11%nat /\
  let bad := 34 :: repeat 255 10 ++ [34] in
  match unmarshal_json 9 sdemo jdemo_je c bad TStr (VStr []) with EOk v => dsize v = 30%nat /\ (2 * length bad < dsize v)%nat | _ => False end.
Proof.
  split; [exact sdemo_wf|]. split; [exact sdemo_nogrow|]. split; [exact jdemo_je_nogrow|]. split; [exact sdemo_distinct|]. split; [vm_compute; reflexivity|].
  intros c. split; [vm_compute; reflexivity|]. split; [reflexivity|]. intros bad.
  assert (E : unmarshal_json 9 sdemo jdemo_je c bad TStr (VStr []) = EOk (VStr (concat (repeat replacement 10)))) by (vm_compute; reflexivity). rewrite E. cbn. lia.
Qed.

(** ** Two fields of the same name *)

(** struct { A []T `json:"n"`; B []T `json:"n"` }: both fields read the same member. *)
Definition bomb_env : tenv :=
  {| te_def := fun _ => UStruct [tagged "A" (TSlice (TNamed 0%nat)) "n" "" ""; tagged "B" (TSlice (TNamed 0%nat)) "n" "" ""];
     te_zero := fun _ => VStruct [VSlice None; VSlice None]; te_impl := fun _ _ => false; te_marshal := fun _ => None; te_unmarshal := fun _ => None; te_hash := te_hash demo |}.
Definition bomb_t : gotype := TNamed 0%nat.
Fixpoint bomb_text (d : nat) : bytes := match d with O => bs "{}" | S d' => bs "{""n"":[" ++ bomb_text d' ++ bs "]}" end.
Fixpoint bomb_value (d : nat) : value :=
  match d with O => VStruct [VSlice None; VSlice None] | S d' => VStruct [VSlice (Some [bomb_value d']); VSlice (Some [bomb_value d'])] end.
Lemma bomb_wf : wf_env bomb_env.
Proof. split; try discriminate; try reflexivity; [exact (we_hash_len _ demo_wf)|exact (we_hash_ok _ demo_wf)]. Qed.
Lemma one_elem x : jtext x -> jarray [x] (91 :: x ++ [93]).
Proof. intros J. apply ja_elems. rewrite <- (app_nil_r x) at 2. apply (jl_one [] x []); [constructor|exact J|constructor]. Qed.
Lemma bomb_object d : jtext (bomb_text d) -> jobject [([110], 91 :: bomb_text d ++ [93])] (bomb_text (S d)).
Proof.
  intros J. assert (E : bomb_text (S d) = 123 :: (34 :: [110] ++ 34 :: [] ++ 58 :: [] ++ (91 :: bomb_text d ++ [93]) ++ []) ++ [125]).
  { cbn [bomb_text app]. rewrite app_nil_r, <- app_assoc. reflexivity. }
  rewrite E. apply jo_members. apply (jm_one [] [110] [] [] (91 :: bomb_text d ++ [93]) []); try (apply Forall_nil); [|eapply jt_array, one_elem, J].
  apply jchars_plain. constructor; [lia|constructor].
Qed.
Lemma bomb_json : forall d, jtext (bomb_text d).
Proof. induction d as [|d IH]; [apply (jt_object [] _ (jo_empty [] (Forall_nil _)))|]. eapply jt_object, bomb_object, IH. Qed.
Lemma bomb_reads je d : je_unmarshal je 0%nat = None -> forall v0, has_type bomb_env bomb_t v0 = true -> reads bomb_env je new_codec (S (2 * d)) bomb_t v0 (bomb_text d) (bomb_value d).
Proof.
  intros Hj. induction d as [|d IH]; intros v0 Hv.
  - cbn [reads]. split; [discriminate|]. right. split; [discriminate|]. exists (bomb_value 0). split; [|reflexivity].
    cbn [has_type] in Hv. destruct v0 as [| | | | | | | | |vs| | | | |]; try discriminate. destruct vs as [|a [|b [|e vs]]]; try (cbn in Hv; rewrite ?andb_false_r in Hv; discriminate Hv).
    eapply (rf_struct _ _ _ _ _ _ _ _ [] [a; b] [VSlice None; VSlice None]); [split; [exact Hj|reflexivity]|reflexivity|apply (jo_empty [] (Forall_nil _))|reflexivity|].
    set (o := match json_opts (tagged "A" (TSlice (TNamed 0%nat)) "n" "" "") with Some o => o | None => no_opts end).
    change [VSlice None; VSlice None] with [if fo_omitempty o then a else zero bomb_env (TSlice bomb_t); if fo_omitempty o then b else zero bomb_env (TSlice bomb_t)].
    apply rs_absent; [reflexivity|vm_compute; reflexivity|constructor|]. apply rs_absent; [reflexivity|vm_compute; reflexivity|constructor|]. constructor.
  - replace (2 * S d)%nat with (S (S (2 * d))) by lia. cbn [reads]. split; [discriminate|]. right. split; [discriminate|]. exists (bomb_value (S d)). split; [|reflexivity].
    cbn [has_type] in Hv. destruct v0 as [| | | | | | | | |vs| | | | |]; try discriminate. destruct vs as [|a [|b [|e vs]]]; try (cbn in Hv; rewrite ?andb_false_r in Hv; discriminate Hv).
    assert (F : forall v, reads bomb_env je new_codec (S (S (2 * d))) (TSlice bomb_t) v (91 :: bomb_text d ++ [93]) (VSlice (Some [bomb_value d]))).
    { intros v. cbn [reads]. split; [discriminate|]. right. split; [discriminate|]. exists (VSlice (Some [bomb_value d])). split; [|reflexivity].
      apply (rf_slice _ _ _ _ _ _ _ bomb_t [bomb_text d] [bomb_value d]); [exact I|reflexivity|reflexivity|vm_compute; reflexivity|apply one_elem, bomb_json|].
      constructor; [|constructor]. apply IH. reflexivity. }
    assert (L : last_member [110] [([110], 91 :: bomb_text d ++ [93])] (91 :: bomb_text d ++ [93])).
    { exists [], [110], []. split; [reflexivity|]. split; [|constructor]. unfold called. cbn [fst]. change [110] with ([110] ++ []). apply dn_char with (c := 110); try lia; [apply u8_1; lia|constructor]. }
    cbn [bomb_value].
    eapply (rf_struct _ _ _ _ _ _ _ _ _ [a; b] [VSlice (Some [bomb_value d]); VSlice (Some [bomb_value d])]); [split; [exact Hj|reflexivity]|reflexivity|apply bomb_object, bomb_json|reflexivity|].
    eapply rs_member; [reflexivity|vm_compute; reflexivity|exact L|apply F|].
    eapply rs_member; [reflexivity|vm_compute; reflexivity|exact L|apply F|]. constructor.
Qed.
Lemma bomb_size d : (2 ^ d <= dsize (bomb_value d) + 1)%nat.
Proof. induction d as [|d IH]; [cbn; lia|]. rewrite Nat.pow_succ_r'. cbn [bomb_value dsize map list_sum fold_right length]. lia. Qed.
Lemma bomb_length d : length (bomb_text d) = (8 * d + 2)%nat.
Proof. induction d as [|d IH]; [reflexivity|]. cbn [bomb_text]. rewrite !app_length, IH. cbn [bs length String.list_ascii_of_string map app]. change (length (bs "{""n"":[")) with 6%nat. change (length (bs "]}")) with 2%nat. lia. Qed.
(** Without different names, the size of the value grows exponentially with the length of
    the text: each further 8 bytes double it. *)
Theorem C84_same_name_refuted : exists env je h t, wf_env env /\ env_nogrow env /\ json_nogrow je /\ clean env new_codec h = true /\
  forall d, exists bz v, length bz = (8 * d + 2)%nat /\ (2 ^ d <= dsize v + 1)%nat /\
    unmarshal_json (S (2 * d)) env je (run env new_codec h) bz t (zero env t) = EOk v.
Proof.
  exists bomb_env, jdemo_je, [], bomb_t. split; [exact bomb_wf|]. split; [discriminate|]. split; [exact jdemo_je_nogrow|]. split; [reflexivity|].
  intros d. exists (bomb_text d), (bomb_value d). split; [apply bomb_length|]. split; [apply bomb_size|].
  apply (C83_reads bomb_env jdemo_je [] bomb_wf eq_refl); [apply bomb_json|reflexivity|]. split; [vm_compute; reflexivity|].
  assert (R : registration (run bomb_env new_codec []) (deref_type bomb_t) = None) by (vm_compute; reflexivity). rewrite R. apply bomb_reads; [reflexivity|reflexivity].
Qed.
Print Assumptions C84_size_bounded.
Print Assumptions C84_fresh_size.
Print Assumptions C84_same_name_refuted.
