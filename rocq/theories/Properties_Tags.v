(** Struct tags: C57, and what they mean for the encoding of integers (C13).
    Vocabulary: SpecTags.v. *)
From Coq Require Import ZArith String List Bool Lia.
From Verif Require Import Base Prims SpecWire PrimFacts Types Codec BinEnc Amino Registry SpecRegistry RegistryFacts Sane Typing DecSafe
  Demo DemoFacts SpecNorm EncFacts SpecProto ProtoFacts Properties_Proto SpecTags TagFacts.
Import ListNotations.
Local Open Scope Z_scope.

(** ** C57 *)

(** The description that a codec has of a struct type is the one the tags ask for;
    there is only one such description. *)
Theorem C57_fields : forall env h t fs info, let c := run env new_codec h in
  get_type_info env c t = EOk info -> resolve env (deref_type t) = RStruct fs -> Z.of_nat (length fs) < 2 ^ 32 ->
  exists ci, info = TIConc ci /\ ci_type ci = deref_type t /\ described env 0 1 fs (ci_fields ci) /\
    forall infos, described env 0 1 fs infos -> infos = ci_fields ci.
Proof.
  intros env h t fs info c Hg Hr Hl. pose proof (sane_run env h) as Hs. fold c in Hs.
  pose proof (gti_minfo _ _ _ _ Hs Hg) as Hi. destruct info as [ci|ii].
  - destruct Hi as [Ht Hok]. exists ci. split; [reflexivity|]. split; [exact Ht|]. destruct (info_ok_parts _ _ Hok) as (_ & Hp & _).
    unfold parse_struct_info in Hp. rewrite Ht, Hr in Hp. apply parse_described in Hp; [|exact Hl]. split; [exact Hp|].
    intros infos H. exact (described_unique _ _ _ _ _ _ H Hp).
  - destruct Hi as [_ Ht]. rewrite Ht in Hr. discriminate.
Qed.

(** The options used in the specifications of the other properties are the
    documented ones. *)
Theorem C57_options : forall num f o, field_opts num f = Some o <-> written f /\ documented num f o.
Proof.
  assert (W : forall num f o, field_opts num f = Some o -> written f /\ documented num f o).
  { intros num f o H. assert (Hw : written f) by (apply (opts_written f num); congruence). split; [exact Hw|].
    unfold field_opts in H. destruct (sf_exported f); [|discriminate]. destruct (parse_field_options f) as [o'|] eqn:E; [|discriminate].
    injection H as H. subst o. apply parse_documented; [exact (proj2 Hw)|exact E]. }
  intros num f o. split; [apply W|]. intros [Hw Hd]. apply (opts_written f num) in Hw.
  destruct (field_opts num f) as [o'|] eqn:E; [|contradiction]. destruct (W _ _ _ E) as [_ Hd']. f_equal. exact (documented_unique _ _ _ _ Hd' Hd).
Qed.

(** Seven fields, of which the second (unexported) and the fourth ([json:"-"]) are not
    written: the others have numbers 1 to 5. *)
Definition tagged (n : string) (t : gotype) (json bin am : string) : sfield :=
  {| sf_name := bs n; sf_exported := true; sf_type := t; sf_json := bs json; sf_binary := bs bin; sf_amino := bs am |}.
Definition tag_fields : list sfield :=
  [tagged "A" (TPrim PInt64) "a,omitempty" "fixed64" "";
   hidden "b" TInt;
   tagged "C" (TPrim PUint32) ",omitempty" "fixed32" "write_empty,unsafe";
   tagged "D" TInt "-" "" "";
   tagged "E" (TPrim PInt64) "e" "fixed32" "unsafely";
   tagged "F" (TPrim PInt32) "f,string,omitempty" "" "";
   tagged "G" (TSlice TStr) "-,x" "fixed64" "x,empty_elements"].
Definition tag_value : value :=
  VStruct [VInt (-2); VInt 9; VUint 7; VInt 9; VInt 300; VInt (-1); VSlice (Some [VStr [65]])].
Definition tag_env : tenv :=
  {| te_def := fun id => UStruct tag_fields; te_zero := fun id => VStruct [VInt 0; VInt 0; VUint 0; VInt 0; VInt 0; VInt 0; VSlice None];
     te_impl := fun _ _ => false; te_marshal := fun _ => None; te_unmarshal := fun _ => None; te_hash := te_hash demo |}.
Definition t_tags : gotype := TNamed 0%nat.
Lemma tag_wf : wf_env tag_env.
Proof.
  split.
  - intros id; cbn; discriminate.
  - intros id; reflexivity.
  - discriminate.
  - discriminate.
  - exact (we_hash_len _ demo_wf).
  - exact (we_hash_ok _ demo_wf).
Qed.
Definition flags (o : fopts) : Z * (bytes * bool) * (bool * bool) * (bool * bool * bool) :=
  (fo_num o, (fo_json_name o, fo_omitempty o), (fo_fixed64 o, fo_fixed32 o), (fo_unsafe o, fo_write_empty o, fo_empty_elements o)).
Example C57_example : resolve tag_env (deref_type (TPtr t_tags)) = RStruct tag_fields /\
  match get_type_info tag_env (run tag_env new_codec []) (TPtr t_tags) with
  | EOk (TIConc ci) => map (fun fi => (fi_index fi, flags (fi_opts fi))) (ci_fields ci) =
      [(0%nat, (1, (bs "a", true), (true, false), (false, false, false)));
       (2%nat, (2, (bs "C", true), (false, true), (true, true, false)));
       (4%nat, (3, (bs "e", false), (false, true), (false, false, false)));
       (5%nat, (4, (bs "f", false), (false, false), (false, false, false)));
       (6%nat, (5, (bs "-", false), (true, false), (false, false, true)))]
  | _ => False
  end.
Proof. split; [reflexivity|]. vm_compute. reflexivity. Qed.
Print Assumptions C57_fields.
Print Assumptions C57_options.

(** ** C13: integer fields *)

(** In the message of a struct, an integer field appears under its number with the
    payload that its tag asks for: eight or four bytes under [fixed64] and [fixed32],
    a varint otherwise.  It appears if it is not zero. *)
Theorem C13_integers_partial : forall env h mem, wf_env env -> marshal_typed env -> clean env new_codec h = true ->
  regular env (run env new_codec h) mem ->
  forall k t fs v l bz, let c := run env new_codec h in
  mem (deref_type t) = true -> plain env (deref_type t) -> resolve env (deref_type t) = RStruct fs ->
  has_type env t v = true -> under v = Some (VStruct l) ->
  marshal_bare k env c t v = EOk bz -> zlen bz < 2 ^ 63 ->
  exists pre es b, preamble c (deref_type t) pre /\ message es b /\ bz = pre ++ b /\
    forall i f w p q, nth_error fs i = Some f -> nth_error l i = Some w -> written f -> plain env (sf_type f) -> resolve env (sf_type f) = RPrim p ->
    has_type env (sf_type f) w = true -> tag_payload (sf_binary f) p w = Some q ->
    (forall q', In (number_at fs i, q') es -> q' = q) /\ (w <> VInt 0 -> w <> VUint 0 -> In (number_at fs i, q) es).
Proof.
  intros env h mem We Hm Hcl Hr k t fs v l bz c Hmem Hpl Hrs Ht Hu H Hz.
  destruct (C13_struct_partial env h mem We Hm Hcl Hr k t fs v l bz Hmem Hpl Hrs Ht Hu H Hz) as (pre & es & b & Hp & Hf & Hb & -> & _).
  exists pre, es, b. split; [exact Hp|]. split; [exact Hb|]. split; [reflexivity|].
  intros i f w p q Nf Nw Hw Hpf Hrf Htw Hq. destruct (fields_ints _ _ _ _ _ _ Hf i f w p q Nf Nw Hw Hpf Hrf Hq) as [A B].
  change (1 - 1 + number_at fs i) with (number_at fs i) in A, B. split; [exact A|]. intros N1 N2.
  assert (D : defaultv w = false).
  { destruct p, w; cbn [tag_payload] in Hq; try discriminate; cbn [defaultv]; apply Z.eqb_neq; congruence. }
  apply B; [exact D|]. exact (tag_nonzero _ _ _ _ _ _ Hrf Htw Hq D).
Qed.
Definition tag_mem (t : gotype) : bool := existsb (gotype_eqb t) [t_tags; TPrim PInt64; TPrim PUint32; TPrim PInt32; TStr].
Lemma tag_regular : regular tag_env (run tag_env new_codec []) tag_mem.
Proof.
  intros t H. unfold tag_mem in H. apply existsb_exists in H. destruct H as (t' & H & Et). apply gotype_eqb_eq in Et. subst t'.
  repeat (destruct H as [<-|H]; [try exact I; vm_compute; reflexivity|]). destruct H.
Qed.
(** [E] is an int64 tagged [fixed32]: the tag does not apply. *)
Example C13_integers_example : regular tag_env (run tag_env new_codec []) tag_mem /\ tag_mem t_tags = true /\ has_type tag_env t_tags tag_value = true /\
  marshal_bare 5 tag_env (run tag_env new_codec []) t_tags tag_value =
    EOk [9; 254; 255; 255; 255; 255; 255; 255; 255;  21; 7; 0; 0; 0;  24; 172; 2;  32; 255; 255; 255; 255; 255; 255; 255; 255; 255; 1;  42; 1; 65] /\
  map (number_at tag_fields) [0; 2; 4; 5; 6]%nat = [1; 2; 3; 4; 5] /\
  tag_payload (bs "fixed32") PInt64 (VInt 300) = Some (Pvarint 300).
Proof.
  split; [exact tag_regular|]. split; [reflexivity|]. split; [reflexivity|]. split; [vm_compute; reflexivity|]. split; reflexivity.
Qed.
Print Assumptions C13_integers_partial.
