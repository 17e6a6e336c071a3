(** Property theorems about frames and the order of fields. *)
From Coq Require Import ZArith String List Bool Lia.
From Coq Require Import ZifyBool ZifyNat.
From Verif Require Import Base Prims SpecWire PrimFacts PrimProps Types Codec BinEnc BinDec Amino FuelFacts Registry SpecRegistry RegistryFacts Sane Typing DecSafe
  Demo DemoFacts SpecNorm EncFacts RoundTrip TopFacts SpecSupported SpecProto ProtoFacts SpecStruct SpecVersion VersionFacts SpecFrame OrderFacts.
Import ListNotations.
Local Open Scope Z_scope.

(** Types for the examples:
    type Inner struct { X int }
    type Outer struct { A Inner; B int; L []string }
    type Timed struct { T time.Time; X int }
    type Boxed struct { P *[]string; X int } *)
Definition inner_fields : list sfield := [fld "X" TInt "" ""].
Definition outer_fields : list sfield := [fld "A" (TNamed 0%nat) "" ""; fld "B" TInt "" ""; fld "L" (TSlice TStr) "" ""].
Definition frame_env : tenv :=
  {| te_def := fun id => match id with
       | 0%nat => UStruct inner_fields
       | 1%nat => UStruct outer_fields
       | 2%nat => UStruct [fld "T" TTime "" ""; fld "X" TInt "" ""]
       | _ => UStruct [fld "P" (TPtr (TSlice TStr)) "" ""; fld "X" TInt "" ""]
       end;
     te_zero := fun id => match id with
       | 0%nat => VStruct [VInt 0]
       | 1%nat => VStruct [VStruct [VInt 0]; VInt 0; VSlice None]
       | 2%nat => VStruct [zero_time; VInt 0]
       | _ => VStruct [VPtr None; VInt 0]
       end;
     te_impl := fun _ _ => false; te_marshal := fun _ => None; te_unmarshal := fun _ => None; te_hash := te_hash demo |}.
Definition t_inner : gotype := TNamed 0%nat.
Definition t_outer : gotype := TNamed 1%nat.
Definition t_timed : gotype := TNamed 2%nat.
Definition t_boxed : gotype := TNamed 3%nat.
Lemma frame_wf : wf_env frame_env.
Proof.
  split.
  - intros [|[|[|id]]]; cbn; discriminate.
  - intros [|[|[|id]]]; reflexivity.
  - discriminate.
  - discriminate.
  - exact (we_hash_len _ demo_wf).
  - exact (we_hash_ok _ demo_wf).
Qed.

(** ** C19 *)

(** Structs other than times, interfaces and packed lists, read from a frame: what is
    decoded is determined by the frame [b] alone, nothing after it is looked at or
    consumed, and if the length [l] is written without superfluous digits, the whole
    frame is consumed.  Missing, because false: times, lists with one entry per
    element behind a pointer, and lengths with superfluous digits (see below). *)
Theorem C19_frame_partial : forall env h k t info v0 o bz v n, let c := run env new_codec h in
  get_type_info env c t = EOk info -> in_frame env (deref_type t) = true -> bytes_ok bz ->
  decode_reflect k env c bz info t v0 o false = DRet v n None ->
  exists l b rest, bz = l ++ b ++ rest /\ leb128 l (zlen b) /\ (n <= length (l ++ b))%nat /\ (leb128_min l (zlen b) -> n = length (l ++ b)) /\
    forall rest', decode_reflect k env c (l ++ b ++ rest') info t v0 o false = DRet v n None.
Proof. intros env h k t info v0 o bz v n c Hg Hin Hok D. exact (frame_exact env c k t info v0 o bz v n (sane_run env h) Hg Hin Hok D). Qed.
Example C19_example : exists info, get_type_info frame_env (run frame_env new_codec []) t_inner = EOk info /\ in_frame frame_env (deref_type t_inner) = true /\
  bytes_ok [4; 8; 7; 18; 0; 16; 5] /\
  decode_reflect 5 frame_env (run frame_env new_codec []) [4; 8; 7; 18; 0; 16; 5] info t_inner (VStruct [VInt 0]) no_opts false = DRet (VStruct [VInt 7]) 5 None /\
  leb128_min [4] (zlen [8; 7; 18; 0]).
Proof.
  eexists. split; [vm_compute; reflexivity|]. split; [reflexivity|]. split; [repeat constructor; lia|]. split; [vm_compute; reflexivity|].
  exists [], 4. repeat split; try constructor; try lia. reflexivity.
Qed.

(** The same for a given frame. *)
Theorem C19_minimal_partial : forall env h k t info v0 o l b rest v n, let c := run env new_codec h in
  get_type_info env c t = EOk info -> in_frame env (deref_type t) = true -> bytes_ok (l ++ b ++ rest) -> leb128_min l (zlen b) ->
  decode_reflect k env c (l ++ b ++ rest) info t v0 o false = DRet v n None ->
  n = length (l ++ b) /\ forall rest', decode_reflect k env c (l ++ b ++ rest') info t v0 o false = DRet v n None.
Proof.
  intros env h k t info v0 o l b rest v n c Hg Hin Hok Hl D.
  destruct (frame_count env c (sane_run env h) _ _ _ _ _ _ _ _ Hg Hin D) as (buf & m & Db & _). pose proof Db as Db'.
  rewrite app_assoc in Db', Hok. destruct (byte_slice_exact _ _ _ _ _ Hok (leb_min_leb _ _ Hl) Db') as [-> ->]. rewrite <- app_assoc in Hok.
  destruct (frame_exact env c k t info v0 o _ v n (sane_run env h) Hg Hin Hok D) as (l2 & b2 & rest2 & E & Hl2 & _ & Hn & Hr).
  pose proof Hok as Hok2. rewrite E in Hok2, Db. rewrite app_assoc in Hok2, Db. destruct (byte_slice_exact _ _ _ _ _ Hok2 Hl2 Db) as [E1 E2]. subst b2.
  rewrite !app_length in E1. assert (El : length l2 = length l) by lia.
  apply (f_equal (firstn (length l))) in E. rewrite firstn_app_exact in E by reflexivity. rewrite firstn_app_exact in E by exact El. subst l2. auto.
Qed.
Example C19_minimal_example : exists info, get_type_info frame_env (run frame_env new_codec []) t_inner = EOk info /\ in_frame frame_env (deref_type t_inner) = true /\
  bytes_ok ([2] ++ [8; 7] ++ [16; 5]) /\ leb128_min [2] (zlen [8; 7]) /\
  decode_reflect 5 frame_env (run frame_env new_codec []) ([2] ++ [8; 7] ++ [16; 5]) info t_inner (VStruct [VInt 0]) no_opts false = DRet (VStruct [VInt 7]) 3 None.
Proof.
  eexists. split; [vm_compute; reflexivity|]. split; [reflexivity|]. split; [repeat constructor; lia|].
  split; [exists [], 2; repeat split; try constructor; try lia; reflexivity|]. vm_compute; reflexivity.
Qed.

(** A length with a superfluous digit: the decoder moves on by the size the length
    would have been written with, so the last byte of the frame is read again, here as
    the key of the next field. *)
Theorem C19_superfluous_digit_refuted : exists l b, leb128 l (zlen b) /\ b = [8; 16] /\
  unmarshal_bare 9 frame_env new_codec ([10] ++ l ++ b ++ [10]) t_outer (zero frame_env t_outer) =
    URet (VStruct [VStruct [VInt 16]; VInt 10; VSlice None]) None.
Proof.
  exists [130; 0], [8; 16]. split; [exists [2], 0; repeat split; try (repeat constructor; lia); try lia|]. split; [reflexivity|]. vm_compute; reflexivity.
Qed.
(** The frame of a time may hold more than the time; the rest is read as fields of the
    enclosing struct.  Here X is taken from inside the frame of T, and there is
    nothing outside of it. *)
Theorem C19_time_refuted : exists b x, leb128_min [6] (zlen b) /\ x <> 0 /\
  unmarshal_bare 9 frame_env new_codec ([10] ++ [6] ++ b) t_timed (zero frame_env t_timed) = URet (VStruct [VTime 1 1; VInt x]) None.
Proof.
  exists [8; 1; 16; 1; 16; 7], 7. split; [exists [], 6; repeat split; try constructor; try lia; reflexivity|]. split; [lia|]. vm_compute; reflexivity.
Qed.
(** ... and so may the frame of a list with one entry per element, behind a pointer. *)
Theorem C19_list_pointer_refuted : exists b x, leb128_min [5] (zlen b) /\ x <> 0 /\
  unmarshal_bare 9 frame_env new_codec ([10] ++ [5] ++ b) t_boxed (zero frame_env t_boxed) = URet (VStruct [VPtr (Some (VSlice (Some [VStr [65]]))); VInt x]) None.
Proof.
  exists [10; 1; 65; 16; 7], 7. split; [exists [], 5; repeat split; try constructor; try lia; reflexivity|]. split; [lia|]. vm_compute; reflexivity.
Qed.

(** ** C37 *)

(** A struct decoded from a sequence of entries (with lengths written without
    superfluous digits): the field numbers increase strictly, those of lists with one
    entry per element excepted, and are positive.  Missing, because false: lengths with superfluous digits and fields that are
    times (see below); not covered: fields that are read through UnmarshalAmino,
    pointers to lists with one entry per element and lists of such lists. *)
Theorem C37_struct_partial : forall env h k t fs info v0 o bz ns v n, let c := run env new_codec h in
  get_type_info env c t = EOk info -> resolve env (deref_type t) = RStruct fs -> one_payload env (deref_type t) = true -> Z.of_nat (length fs) < 2 ^ 32 ->
  (forall f, In f fs -> visible f = true -> one_or_entries env (sf_type f) = true) ->
  bytes_ok bz -> sequence ns bz -> decode_reflect k env c bz info t v0 o true = DRet v n None ->
  rising (repeated env fs) ns /\ Forall (fun x => 0 < x) ns.
Proof.
  intros env h k t fs info v0 o bz ns v n c Hg Hr Ho Hl Hf Hok Hsq D.
  exact (struct_order env c t fs info k bz v0 v n o true ns bz 0%nat (sane_run env h) Hg Hr Ho Hl Hf eq_refl Hok Hsq D).
Qed.
(** The same for a struct inside another value, read from a frame. *)
Theorem C37_nested_partial : forall env h k t fs info v0 o l b rest ns v n, let c := run env new_codec h in
  get_type_info env c t = EOk info -> resolve env (deref_type t) = RStruct fs -> one_payload env (deref_type t) = true -> Z.of_nat (length fs) < 2 ^ 32 ->
  (forall f, In f fs -> visible f = true -> one_or_entries env (sf_type f) = true) ->
  bytes_ok (l ++ b ++ rest) -> leb128 l (zlen b) -> sequence ns b -> decode_reflect k env c (l ++ b ++ rest) info t v0 o false = DRet v n None ->
  rising (repeated env fs) ns /\ Forall (fun x => 0 < x) ns.
Proof.
  intros env h k t fs info v0 o l b rest ns v n c Hg Hr Ho Hl Hf Hok Hlen Hsq D.
  assert (Hin : in_frame env (deref_type t) = true) by (unfold in_frame; rewrite Ho, Hr; reflexivity).
  destruct (frame_count env c (sane_run env h) _ _ _ _ _ _ _ _ Hg Hin D) as (buf & m & Db & _). pose proof Db as Db'. pose proof Hok as Hok'.
  rewrite app_assoc in Db', Hok'. destruct (byte_slice_exact _ _ _ _ _ Hok' Hlen Db') as [-> ->].
  apply bytes_ok_app in Hok. destruct Hok as [_ Hok]. apply bytes_ok_app in Hok. destruct Hok as [Hok _].
  exact (struct_order env c t fs info k _ v0 v n o false ns b _ (sane_run env h) Hg Hr Ho Hl Hf Db Hok Hsq D).
Qed.
(** The same for UnmarshalBinaryBare; [p] are the prefix bytes of a registered type. *)
Theorem C37_unmarshal_partial : forall env h k t fs v0 p bz ns v, let c := run env new_codec h in clean env new_codec h = true ->
  resolve env t = RStruct fs -> one_payload env t = true -> Z.of_nat (length fs) < 2 ^ 32 ->
  (forall f, In f fs -> visible f = true -> one_or_entries env (sf_type f) = true) ->
  preamble c t p -> bytes_ok bz -> sequence ns bz -> unmarshal_bare k env c (p ++ bz) t v0 = URet v None ->
  rising (repeated env fs) ns /\ Forall (fun x => 0 < x) ns.
Proof.
  intros env h k t fs v0 p bz ns v c Hcl Hr Ho Hl Hf Hp Hok Hsq D. pose proof (wf_history env h Hcl) as Hc. pose proof (sane_run env h) as Hs. fold c in Hc, Hs.
  assert (Dt : deref_type t = t) by (destruct t; try reflexivity; discriminate Hr).
  destruct (get_type_info env c t) as [info| | |] eqn:Hg; try (rewrite unmarshal_eq, Hg in D; discriminate D).
  pose proof (preamble_prefix env c Hc Hs t fs info p Hr Hg Hp) as X. rewrite <- X in D.
  rewrite (unmarshal_prefixed _ _ _ _ _ _ _ Hs Hg) in D. unfold um_body in D.
  rewrite (minfo_type _ _ _ _ (gti_minfo _ _ _ _ Hs Hg)), Dt, <- struct_like_eq in D. unfold struct_like in D. rewrite Hr in D. cbn [negb andb] in D.
  unfold um_finish in D. destruct (decode_reflect k env c bz info t v0 top_opts true) as [w n [e|]| |] eqn:E; try discriminate D.
  apply (struct_order env c t fs info k bz v0 w n top_opts true ns bz 0%nat Hs Hg); rewrite ?Dt; auto.
Qed.
Definition outer_bytes : bytes := [10; 2; 8; 7; 16; 5; 26; 1; 65; 26; 1; 66; 42; 0].
Lemma outer_sequence : sequence [1; 2; 3; 3; 5] outer_bytes.
Proof.
  apply (sq_cons 1 2 [10] ([2] ++ [8; 7])); [lia|exists [], 10; repeat split; try constructor; lia|constructor; exists [], 2; repeat split; try constructor; try lia; reflexivity|].
  apply (sq_cons 2 0 [16] [5]); [lia|exists [], 16; repeat split; try constructor; lia|apply (po_varint _ 5); exists [], 5; repeat split; try constructor; lia|].
  apply (sq_cons 3 2 [26] ([1] ++ [65])); [lia|exists [], 26; repeat split; try constructor; lia|constructor; exists [], 1; repeat split; try constructor; try lia; reflexivity|].
  apply (sq_cons 3 2 [26] ([1] ++ [66])); [lia|exists [], 26; repeat split; try constructor; lia|constructor; exists [], 1; repeat split; try constructor; try lia; reflexivity|].
  apply (sq_cons 5 2 [42] ([0] ++ [])); [lia|exists [], 42; repeat split; try constructor; lia|constructor; exists [], 0; repeat split; try constructor; try lia; reflexivity|].
  constructor.
Qed.
Example C37_example : resolve frame_env t_outer = RStruct outer_fields /\ one_payload frame_env t_outer = true /\
  (forall f, In f outer_fields -> visible f = true -> one_or_entries frame_env (sf_type f) = true) /\
  preamble new_codec t_outer [] /\ bytes_ok outer_bytes /\ sequence [1; 2; 3; 3; 5] outer_bytes /\
  unmarshal_bare 9 frame_env new_codec outer_bytes t_outer (zero frame_env t_outer) =
    URet (VStruct [VStruct [VInt 7]; VInt 5; VSlice (Some [VStr [65]; VStr [66]])]) None /\
  repeated frame_env outer_fields 3 /\
  (** field 2 again, and fields out of order *)
  (exists v e, unmarshal_bare 9 frame_env new_codec [10; 2; 8; 7; 16; 5; 16; 5] t_outer (zero frame_env t_outer) = URet v (Some e)) /\
  (exists v e, unmarshal_bare 9 frame_env new_codec [16; 5; 10; 2; 8; 7] t_outer (zero frame_env t_outer) = URet v (Some e)).
Proof.
  split; [reflexivity|]. split; [reflexivity|]. split; [intros f Hf _; cbn [In outer_fields] in Hf; repeat (destruct Hf as [<-|Hf]; [reflexivity|]); destruct Hf|].
  split; [right; split; [intros ci []|reflexivity]|]. split; [repeat constructor; lia|]. split; [exact outer_sequence|]. split; [vm_compute; reflexivity|].
  split; [eexists; split; [right; right; left; reflexivity|reflexivity]|]. split; eexists _, _; vm_compute; reflexivity.
Qed.

(** Because of lengths with superfluous digits, a field can be given twice: A is
    field 1, and so is the second entry here. *)
Theorem C37_superfluous_digit_refuted : exists l b1 b2 v, leb128 l (zlen b1) /\ leb128_min [26] (zlen b2) /\
  unmarshal_bare 9 frame_env new_codec ([10] ++ (l ++ b1) ++ [10] ++ ([26] ++ b2)) t_outer (zero frame_env t_outer) = URet v None.
Proof.
  exists [130; 0], [8; 16], (25 :: repeat 65 25). eexists.
  split; [exists [2], 0; repeat split; try (repeat constructor; lia); try lia|]. split; [exists [], 26; repeat split; try constructor; try lia; reflexivity|]. vm_compute; reflexivity.
Qed.
(** So it can because of the frames of times, with lengths as they should be.  The
    first frame ends in the beginning of an unknown field that swallows the second. *)
Theorem C37_time_refuted : exists bz v, sequence [1; 1] bz /\ ~ rising (repeated frame_env [fld "T" TTime "" ""; fld "X" TInt "" ""]) [1; 1] /\
  unmarshal_bare 9 frame_env new_codec bz t_timed (zero frame_env t_timed) = URet v None.
Proof.
  exists ([10] ++ ([6] ++ [8; 1; 16; 1; 26; 2]) ++ [10] ++ ([0] ++ []) ++ []). eexists. split; [|split; [|vm_compute; reflexivity]].
  - apply (sq_cons 1 2); [lia|exists [], 10; repeat split; try constructor; lia|constructor; exists [], 6; repeat split; try constructor; try lia; reflexivity|].
    apply (sq_cons 1 2); [lia|exists [], 10; repeat split; try constructor; lia|constructor; exists [], 0; repeat split; try constructor; try lia; reflexivity|].
    constructor.
  - intros [H _]. apply Forall_inv in H. destruct H as [H|[_ (f & Hin & He)]]; [lia|]. cbn in Hin.
    destruct Hin as [E|[E|[]]]; inversion E; subst; discriminate He.
Qed.

Print Assumptions C19_frame_partial.
Print Assumptions C19_minimal_partial.
Print Assumptions C19_superfluous_digit_refuted.
Print Assumptions C19_time_refuted.
Print Assumptions C19_list_pointer_refuted.
Print Assumptions C37_struct_partial.
Print Assumptions C37_nested_partial.
Print Assumptions C37_unmarshal_partial.
Print Assumptions C37_superfluous_digit_refuted.
Print Assumptions C37_time_refuted.
