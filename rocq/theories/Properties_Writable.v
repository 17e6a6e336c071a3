(** Property theorems about which values Marshal accepts. *)
From Coq Require Import ZArith String List Bool Lia.
From Coq Require Import ZifyBool ZifyNat.
From Verif Require Import Base Prims PrimFacts Types Codec BinEnc BinDec Amino FuelFacts Registry SpecRegistry RegistryFacts Sane Typing DecSafe Sha256 Demo DemoFacts
  SpecNorm EncFacts RoundTrip TopFacts SpecSupported SupportedFacts SpecWritable WritableFacts SturdyFacts Properties_Decode Properties_RoundTrip.
Import ListNotations.
Local Open Scope Z_scope.

(** ** C74 *)

(** Marshal accepts exactly the writable values, whatever the types, after every
    history of successful registrations.  [k] bounds the depth of recursion. *)
Theorem C74_accepts : forall env h, wf_env env -> marshal_typed env -> clean env new_codec h = true ->
  forall k t v, let c := run env new_codec h in has_type env t v = true ->
  ((exists bz, marshal_bare k env c t v = EOk bz) <-> writable_top k env c t v = true) /\
  ((exists bz, marshal_length_prefixed k env c t v = EOk bz) <-> writable_top k env c t v = true).
Proof.
  intros env h We Hm Hc k t v c Ht. rewrite <- (marshal_okb env We c (wf_history env h Hc) (sane_run env h) Hm k t v Ht).
  unfold marshal_length_prefixed. destruct (marshal_bare k env c t v); cbn [okb ebind]; repeat split; intros X; try discriminate; try (destruct X; discriminate); eexists; reflexivity.
Qed.

(** For sturdy types, and values whose interfaces do not hold nil pointers, Marshal
    returns: there is a result that does not depend on the depth of recursion
    allowed, and it is bytes or an error, not a panic. *)
Theorem C74_returns_partial : forall env h mem rank, wf_env env -> marshal_typed env -> clean env new_codec h = true ->
  sturdy env mem rank ->
  forall t v w, let c := run env new_codec h in
  mem (deref_type t) = true -> has_type env t v = true -> firm mem v = true -> under v = Some w ->
  exists k, match marshal_bare k env c t v with EOk _ | EErr _ => True | _ => False end /\
            forall k', (k <= k')%nat -> marshal_bare k' env c t v = marshal_bare k env c t v.
Proof.
  intros env h mem rank We Hm Hc Hst t v w c Hmem Ht Hf U.
  destruct (marshal_fin env We c (sane_run env h) Hm mem rank Hst t v w Hmem Ht Hf U) as [k Hk]. exists k. split.
  - destruct (Hk k (Nat.le_refl k)) as [X _]. destruct (marshal_bare k env c t v); try discriminate X; exact I.
  - intros k' Hk'. apply Hk, Hk'.
Qed.

(** An interface holding a nil pointer makes Marshal panic (binary-encode.go:217-227). *)
Theorem C74_nil_pointer_refuted : exists env h t v p, wf_env env /\ marshal_typed env /\ clean env new_codec h = true /\
  has_type env t v = true /\ forall k, (5 <= k)%nat -> marshal_bare k env (run env new_codec h) t v = EPanic p.
Proof.
  exists demo, demo_history, t_all,
    (VStruct [VBool false; VInt 0; VUint 0; VFloat 0; VStr []; VTime 0 0; VSlice None; VArr [VInt 0; VInt 0; VInt 0]; VSlice None; VSlice None;
              VPtr None; VSlice None; VIface (Some (TPtr t_bcmsg, VPtr None)); VSlice None; VSlice None]), "Illegal nil-pointer"%string.
  split; [exact demo_wf|]. split; [exact demo_marshal_typed|]. do 2 (split; [vm_compute; reflexivity|]).
  intros k Hk. do 5 (destruct k as [|k]; [lia|]). vm_compute. reflexivity.
Qed.

Definition t_endless := TNamed 0%nat.   (* type T []T *)
Definition t_must := TNamed 1%nat.      (* struct { P *int `amino:"write_empty"` } *)
Definition odd : tenv :=
  {| te_def := fun id => match id with
                         | 0%nat => UType (TSlice (TNamed 0%nat))
                         | 1%nat => UStruct [fld "P" (TPtr TInt) "" "write_empty"]
                         | _ => UStruct []
                         end;
     te_zero := fun id => match id with 0%nat => VSlice None | 1%nat => VStruct [VPtr None] | _ => VStruct [] end;
     te_impl := fun _ _ => false; te_marshal := fun _ => None; te_unmarshal := fun _ => None; te_hash := sha256 |}.
Lemma odd_wf : wf_env odd.
Proof.
  split; cbn [odd te_impl te_hash]; try discriminate.
  - intros [|[|id]]; discriminate.
  - intros [|[|id]]; reflexivity.
  - exact sha256_length.
  - exact sha256_ok.
Qed.
(** So does a nil pointer in a field with the write_empty tag
    (binary-encode.go:441-460, 30-32). *)
Theorem C74_write_empty_refuted : exists env t v p, wf_env env /\ has_type env t v = true /\
  forall k, (5 <= k)%nat -> marshal_bare k env new_codec t v = EPanic p.
Proof.
  exists odd, t_must, (VStruct [VPtr None]), "not allowed to be called with invalid / zero Value"%string.
  split; [exact odd_wf|]. split; [reflexivity|]. intros k Hk. do 5 (destruct k as [|k]; [lia|]). vm_compute. reflexivity.
Qed.
(** For a value of [type T []T] Marshal does not end (binary-encode.go:99-115). *)
Theorem C74_endless_refuted : exists env t v, wf_env env /\ has_type env t v = true /\
  forall k, marshal_bare k env new_codec t v = EFuel.
Proof.
  exists odd, t_endless, (VSlice (Some [VSlice None])). split; [exact odd_wf|]. split; [reflexivity|].
  assert (M : forall k, multidim_bytes k odd t_endless = None) by (induction k as [|k IH]; [reflexivity|exact IH]).
  intros k. rewrite marshal_eq. cbn [under get_type_info t_endless deref_type new_codec cd_types assoc].
  unfold new_type_info. cbn [parse_struct_info resolve odd te_def marshal_repr te_marshal unmarshal_repr te_unmarshal ebind ti_type ci_type struct_like].
  destruct k as [|k]; [reflexivity|].
  unfold write_field. cbn. pose proof (M (S k)) as M1. cbn in M1. rewrite M1. reflexivity.
Qed.

(** The demo program is sturdy. *)
Definition demo_mem2 (t : gotype) : bool :=
  demo_mem t || existsb (gotype_eqb t) [TSlice t_foo; TSlice t_node; TSlice TStr; TSlice (TPtr t_foo); TSlice (TIface i_msg); TSlice (TSlice TByte)].
Definition demo_rank (t : gotype) : nat := match t with TPrim PString => 0%nat | _ => 1%nat end.
Lemma demo_sturdy : sturdy demo demo_mem2 demo_rank.
Proof.
  intros t H.
  assert (T : sturdy_ok demo demo_mem2 demo_rank t_temp).
  { split; [reflexivity|]. split; [reflexivity|]. cbn [t_temp te_marshal te_unmarshal demo Nat.eqb]. split; [|reflexivity].
    split; [reflexivity|]. split; [reflexivity|]. split; [cbn; lia|]. intros v Ht.
    rewrite (has_type_prim demo t_temp PInt32 v eq_refl) in Ht. destruct v; try discriminate Ht. cbn. destruct (z <? 0); [exact I|reflexivity]. }
  assert (R : sturdy_plain demo demo_mem2 demo_rank (TIface i_msg)).
  { unfold sturdy_plain. cbn [resolve]. intros ct _ _. unfold demo_rank. destruct (deref_type ct) as [[]| | | | | | | | |]; lia. }
  unfold demo_mem2, demo_mem in H. apply orb_true_iff in H.
  assert (H' : In t (demo_supported ++ [TSlice t_foo; TSlice t_node; TSlice TStr; TSlice (TPtr t_foo); TSlice (TIface i_msg); TSlice (TSlice TByte)])).
  { apply in_or_app. destruct H as [H|H]; [left|right]; apply existsb_exists in H; destruct H as (t' & H & Et); apply gotype_eqb_eq in Et; subst t'; exact H. }
  clear H. cbn [demo_supported map app In] in H'.
  repeat (destruct H' as [<-|H']; [first [exact T|split; [vm_compute; reflexivity|]; split; [vm_compute; reflexivity|];
    first [vm_compute; reflexivity|vm_compute; exact I|split; [|exact I]; vm_compute; reflexivity|exact R]]|]). destruct H'.
Qed.

(** Values that are accepted, values that are refused (a representation that
    cannot be computed; an unregistered type; a time after year 9999; a nil pointer), and a
    firm value of a sturdy type. *)
Example C74_example : let c := run demo new_codec demo_history in
  wf_env demo /\ marshal_typed demo /\ clean demo new_codec demo_history = true /\ sturdy demo demo_mem2 demo_rank /\
  has_type demo t_all all_value = true /\ writable_top 10 demo c t_all all_value = true /\
  writable_top 10 demo c t_temps (VStruct [VInt 3; VPtr None]) = true /\
  writable_top 10 demo c t_temps (VStruct [VInt (-3); VPtr None]) = false /\
  writable_top 10 demo c TTime (VTime 253402300799 999999999) = true /\
  writable_top 10 demo c TTime (VTime 253402300800 0) = false /\
  writable_top 10 demo c (TIface i_msg) (VIface (Some (t_bcmsg, bc_abc))) = true /\
  writable_top 10 demo c (TIface i_msg) (VIface (Some (t_foo, foo 1 2))) = false /\
  writable_top 10 demo c (TPtr t_foo) (VPtr None) = false /\
  demo_mem2 t_all = true /\ firm demo_mem2 all_value = true /\ under all_value = Some all_value /\
  match marshal_bare 10 demo c t_temps (VStruct [VInt (-3); VPtr None]) with EErr _ => True | _ => False end.
Proof.
  intros c. split; [exact demo_wf|]. split; [exact demo_marshal_typed|]. split; [vm_compute; reflexivity|]. split; [exact demo_sturdy|].
  do 12 (split; [vm_compute; reflexivity|]). vm_compute. exact I.
Qed.
Print Assumptions C74_accepts.
Print Assumptions C74_returns_partial.
Print Assumptions C74_nil_pointer_refuted.
Print Assumptions C74_write_empty_refuted.
Print Assumptions C74_endless_refuted.
