(** Property theorems about the entry points, prefixes, scalars and methods. *)
From Coq Require Import ZArith String List Bool Lia.
From Coq Require Import ZifyBool ZifyNat.
From Verif Require Import Base Prims SpecWire PrimFacts PrimProps Types Codec BinEnc BinDec Amino FuelFacts Registry SpecRegistry RegistryFacts Sane Typing DecSafe
  Demo DemoFacts SpecNorm EncFacts RoundTrip TopFacts SpecSupported SupportedFacts TopProps TopFlat FrameFacts ScalarFacts
  Properties_Decode Properties_RoundTrip.
Import ListNotations.
Local Open Scope Z_scope.

(** ** C20 *)

(** The length-prefixed encoding is the shortest base-128 representation of the
    length of the bare encoding, followed by the bare encoding; it exists exactly
    when the bare one does. *)
Theorem C20_marshal_frame : forall k env c t v,
  (forall bz, marshal_bare k env c t v = EOk bz -> zlen bz < 2 ^ 63 ->
     exists pre, leb128_min pre (zlen bz) /\ marshal_length_prefixed k env c t v = EOk (pre ++ bz)) /\
  (forall e, marshal_bare k env c t v = EErr e <-> marshal_length_prefixed k env c t v = EErr e) /\
  (forall p, marshal_bare k env c t v = EPanic p <-> marshal_length_prefixed k env c t v = EPanic p).
Proof.
  intros k env c t v. unfold marshal_length_prefixed.
  destruct (marshal_bare k env c t v) as [bz|e|p|]; cbn [ebind]; (split; [|split; intros; split; intros X; first [exact X | discriminate X]]); try (intros b Hb; discriminate Hb).
  intros b Hb Hz. apply EOk_inj in Hb. subst b. exists (encode_uvarint (zlen bz)). split; [|reflexivity].
  apply encode_uvarint_leb. pose proof (zlen_nonneg bz). lia.
Qed.

(** [framed bz pre body]: [bz] is [pre ++ body], [pre] is a base-128
    representation, of at most ten bytes, of the length of [body].  Exactly in
    that case Unmarshal looks at the body, and does what the bare function does. *)
Theorem C20_unmarshal_frame : forall k env c bz t v0, bytes_ok bz -> zlen bz < 2 ^ 63 ->
  (forall pre body, framed bz pre body ->
     unmarshal_length_prefixed k env c bz t v0 = unmarshal_bare k env c body t v0) /\
  ((forall pre body, ~ framed bz pre body) ->
     exists e, unmarshal_length_prefixed k env c bz t v0 = URet v0 (Some e)).
Proof.
  intros k env c bz t v0 Hok Hz. split.
  - intros pre body H. apply (unmarshal_framed k env c bz pre body t v0); assumption.
  - intros H. apply unmarshal_unframed; assumption.
Qed.
Example C20_example :
  marshal_bare 5 demo new_codec t_foo (foo 1 300) = EOk [8; 1; 16; 172; 2] /\
  marshal_length_prefixed 5 demo new_codec t_foo (foo 1 300) = EOk [5; 8; 1; 16; 172; 2] /\
  unmarshal_length_prefixed 5 demo new_codec [5; 8; 1; 16; 172; 2] t_foo (foo 7 7) = URet (foo 1 300) None /\
  framed [133; 0; 8; 1; 16; 172; 2] [133; 0] [8; 1; 16; 172; 2] /\
  unmarshal_length_prefixed 5 demo new_codec [133; 0; 8; 1; 16; 172; 2] t_foo (foo 7 7) = URet (foo 1 300) None /\
  (forall pre body, ~ framed [6; 8; 1; 16; 172; 2] pre body).
Proof.
  splits; try (vm_compute; reflexivity).
  - split; [reflexivity|]. split; [|cbn; lia]. exists [5], 0. cbn. splits; try reflexivity; try (repeat constructor; lia).
  - intros pre body (E & L & _). destruct L as (ds & last & -> & Hd & Hl & Hv).
    destruct ds as [|d ds]; cbn in E; inversion E; subst.
    + cbn in Hv. discriminate.
    + inversion Hd as [|? ? Hd1 Hd2]; subst. unfold digit128 in Hd1. lia.
Qed.
Print Assumptions C20_marshal_frame.
Print Assumptions C20_unmarshal_frame.

(** ** C24 *)

(** A registered type, also behind pointers, is written after the prefix bytes
    computed from its registered name. *)
Theorem C24_marshal_prefix : forall env h t n d p, clean env new_codec h = true -> In (t, n) (conc_calls h) ->
  name_to_disfix env n = EOk (d, p) -> forall k rt v bz, deref_type rt = conc_of t ->
  marshal_bare k env (run env new_codec h) rt v = EOk bz -> length p = 4%nat /\ exists body, bz = p ++ body.
Proof.
  intros env h t n d p Hc Hin Hdp k rt v bz Hd H. split; [exact (prefix_len env n d p Hdp)|].
  exact (marshal_has_prefix env h Hc t n d p Hin Hdp k rt v bz Hd H).
Qed.

(** Without those bytes Unmarshal fails, leaving the target as it was. *)
Theorem C24_unmarshal_needs_prefix : forall env h t n d p, clean env new_codec h = true -> In (t, n) (conc_calls h) ->
  name_to_disfix env n = EOk (d, p) -> forall k rt v0 bz, deref_type rt = conc_of t ->
  (forall body, bz <> p ++ body) -> exists e, unmarshal_bare k env (run env new_codec h) bz rt v0 = URet v0 (Some e).
Proof.
  intros env h t n d p Hc Hin Hdp k rt v0 bz Hd H. exact (unmarshal_other_prefix env h Hc t n d p Hin Hdp k bz rt v0 Hd H).
Qed.

(** What follows is decoded as if the type were not registered ([forget] removes
    the registration from the table that the entry points consult). *)
Theorem C24_rest_as_unregistered : forall env h t n d p, clean env new_codec h = true -> In (t, n) (conc_calls h) ->
  name_to_disfix env n = EOk (d, p) -> forall k rt v0 body, deref_type rt = conc_of t ->
  unmarshal_bare k env (run env new_codec h) (p ++ body) rt v0 =
  unmarshal_bare k env (forget (conc_of t) (run env new_codec h)) body rt v0.
Proof.
  intros env h t n d p Hc Hin Hdp k rt v0 body Hd. exact (unmarshal_after_prefix env h Hc t n d p Hin Hdp k body rt v0 Hd).
Qed.
Example C24_example :
  clean demo new_codec demo_history = true /\ In (TPtr t_bcmsg, bs "bcMessage") (conc_calls demo_history) /\
  conc_of (TPtr t_bcmsg) = t_bcmsg /\
  match name_to_disfix demo (bs "bcMessage") with EOk (_, p) => p = [0x74; 0x06; 0x13; 0x65] | _ => False end /\
  marshal_bare 10 demo (run demo new_codec demo_history) t_bcmsg bc_abc = EOk [0x74; 0x06; 0x13; 0x65; 0x0A; 0x03; 0x41; 0x42; 0x43; 0x10; 0x64] /\
  unmarshal_bare 20 demo (run demo new_codec demo_history) [0x74; 0x06; 0x13; 0x65; 0x0A; 0x03; 0x41; 0x42; 0x43; 0x10; 0x64] t_bcmsg (zero demo t_bcmsg) = URet bc_abc None /\
  unmarshal_bare 20 demo (forget t_bcmsg (run demo new_codec demo_history)) [0x0A; 0x03; 0x41; 0x42; 0x43; 0x10; 0x64] t_bcmsg (zero demo t_bcmsg) = URet bc_abc None /\
  match unmarshal_bare 20 demo (run demo new_codec demo_history) [0x0A; 0x03; 0x41; 0x42; 0x43; 0x10; 0x64] t_bcmsg (zero demo t_bcmsg) with URet _ (Some _) => True | _ => False end.
Proof.
  split; [vm_compute; reflexivity|]. split; [vm_compute; tauto|]. split; [reflexivity|]. split; [vm_compute; reflexivity|].
  split; [vm_compute; reflexivity|]. split; [vm_compute; reflexivity|]. split; [vm_compute; reflexivity|]. vm_compute; exact I.
Qed.
Print Assumptions C24_marshal_prefix.
Print Assumptions C24_unmarshal_needs_prefix.
Print Assumptions C24_rest_as_unregistered.

(** ** C48 *)

Theorem C48_must_marshal : forall k env c t v,
  (forall bz, must (marshal_bare k env c t v) = EOk bz <-> marshal_bare k env c t v = EOk bz) /\
  (forall bz, must (marshal_length_prefixed k env c t v) = EOk bz <-> marshal_length_prefixed k env c t v = EOk bz) /\
  ((exists p, must (marshal_bare k env c t v) = EPanic p) <->
   (exists e, marshal_bare k env c t v = EErr e) \/ (exists p, marshal_bare k env c t v = EPanic p)) /\
  ((exists p, must (marshal_length_prefixed k env c t v) = EPanic p) <->
   (exists e, marshal_length_prefixed k env c t v = EErr e) \/ (exists p, marshal_length_prefixed k env c t v = EPanic p)) /\
  (forall e, must (marshal_bare k env c t v) <> EErr e) /\
  (forall e, must (marshal_length_prefixed k env c t v) <> EErr e).
Proof.
  intros k env c t v. generalize (marshal_bare k env c t v) as r. generalize (marshal_length_prefixed k env c t v) as q.
  assert (G : forall q : eres bytes, (forall bz, must q = EOk bz <-> q = EOk bz) /\
    ((exists p, must q = EPanic p) <-> (exists e, q = EErr e) \/ (exists p, q = EPanic p)) /\ (forall e, must q <> EErr e)).
  { intros [b|e|p|]; cbn [must]; (split; [|split]); try (intros; split; congruence); try congruence;
      split; try (intros [x X]; discriminate X); try (intros [[x X]|[x X]]; discriminate X); eauto. }
  intros q r. destruct (G q) as (A & B & C). destruct (G r) as (A' & B' & C'). splits; assumption.
Qed.
Theorem C48_must_unmarshal : forall k env c bz t v0,
  forall r, r = unmarshal_bare k env c bz t v0 \/ r = unmarshal_length_prefixed k env c bz t v0 ->
  (forall v, must_u r = URet v None <-> r = URet v None) /\
  ((exists p, must_u r = UPanic p) <-> (exists v e, r = URet v (Some e)) \/ (exists p, r = UPanic p)) /\
  (forall v e, must_u r <> URet v (Some e)).
Proof.
  intros k env c bz t v0 r _. destruct r as [v [e|]|p|]; cbn [must_u]; (split; [|split]); try (intros; split; congruence); try congruence;
    split; try (intros [x X]; discriminate X); try (intros [[x [y X]]|[x X]]; discriminate X); eauto.
Qed.
Example C48_example :
  must (marshal_bare 5 demo new_codec t_foo (foo 1 2)) = EOk [8; 1; 16; 2] /\
  must (marshal_bare 5 demo new_codec (TPtr t_foo) (VPtr None)) = EPanic "MarshalBinaryBare cannot marshal a nil pointer directly"%string /\
  must_u (unmarshal_bare 5 demo new_codec [8; 1; 16; 2] t_foo (foo 0 0)) = URet (foo 1 2) None /\
  unmarshal_bare 5 demo new_codec [8; 1; 16] t_foo (foo 0 0) <> UPanic "unmarshal failed"%string /\
  must_u (unmarshal_bare 5 demo new_codec [8; 1; 16] t_foo (foo 0 0)) = UPanic "unmarshal failed"%string.
Proof. vm_compute. splits; try reflexivity. discriminate. Qed.
Print Assumptions C48_must_marshal.
Print Assumptions C48_must_unmarshal.

(** ** C45 *)

(** As a field value, list element or part of any other value, a type with
    MarshalAmino is written as its representation, with the same options. *)
Theorem C45_encode_partial : forall env h, clean env new_codec h = true ->
  forall k id r f v w o bare info rinfo, let c := run env new_codec h in
  te_marshal env id = Some (MOk r f) -> get_type_info env c (TNamed id) = EOk info -> get_type_info env c r = EOk rinfo ->
  val_is_ptr v = false -> v <> VInvalid ->
  (f v = EOk w -> encode_reflect (S k) env c info v o bare = encode_reflect k env c rinfo w o bare) /\
  (forall e, f v = EErr e -> encode_reflect (S k) env c info v o bare = EErr e).
Proof.
  intros env h Hc k id r f v w o bare info rinfo c Hm Hg Hr Hp Hv.
  pose proof (gti_minfo _ _ _ _ (sane_run env h) Hg) as Hi. split.
  - intros Hf. unfold c. rewrite (method_encode env (run env new_codec h) k info (TNamed id) id r f v o bare Hi eq_refl Hm Hp Hv), Hf. cbn [ebind].
    fold c. rewrite Hr. reflexivity.
  - intros e Hf. unfold c. rewrite (method_encode env (run env new_codec h) k info (TNamed id) id r f v o bare Hi eq_refl Hm Hp Hv), Hf. reflexivity.
Qed.

(** It is read by reading the representation into a fresh variable and calling
    UnmarshalAmino on the target; if the representation cannot be read the method is not
    called and the target keeps its value. *)
Theorem C45_decode_partial : forall env h, clean env new_codec h = true ->
  forall k id r g v0 bz o bare info rinfo, let c := run env new_codec h in
  te_unmarshal env id = Some (UOk r g) -> get_type_info env c (TNamed id) = EOk info -> get_type_info env c r = EOk rinfo ->
  forall w n, (n <= length bz)%nat ->
  (decode_reflect k env c bz rinfo r (zero env r) o bare = DRet w n None ->
   (forall v e, g v0 w = EOk (v, e) -> decode_reflect (S k) env c bz info (TNamed id) v0 o bare = DRet v n e)) /\
  (forall e, decode_reflect k env c bz rinfo r (zero env r) o bare = DRet w n (Some e) ->
   decode_reflect (S k) env c bz info (TNamed id) v0 o bare = DRet v0 n (Some e)).
Proof.
  intros env h Hc k id r g v0 bz o bare info rinfo c Hm Hg Hr w n Hn.
  pose proof (gti_minfo _ _ _ _ (sane_run env h) Hg) as Hi.
  split.
  - intros H v e Hw. rewrite (method_decode env c k bz info (TNamed id) id r g v0 o bare rinfo Hi eq_refl Hm Hr), H. cbn [dbind].
    rewrite slide_le by exact Hn. change (base_of env (TNamed id) v0) with v0. rewrite Hw. reflexivity.
  - intros e H. rewrite (method_decode env c k bz info (TNamed id) id r g v0 o bare rinfo Hi eq_refl Hm Hr), H. cbn [dbind].
    rewrite slide_le by exact Hn. reflexivity.
Qed.

(** So it reads back as UnmarshalAmino makes it from what the representation reads
    back as. Missing: list types used directly as struct fields, and the field key
    of a top-level value, where the code does not do this (refuted below). *)
Theorem C45_round_trip_partial : forall env h, wf_env env -> marshal_typed env -> clean env new_codec h = true ->
  forall k fd id r f g v w w' v' o bare bz rest info, let c := run env new_codec h in
  te_marshal env id = Some (MOk r f) -> te_unmarshal env id = Some (UOk r g) -> deref_type r = r ->
  get_type_info env c (TNamed id) = EOk info -> known env c r = true ->
  has_type env (TNamed id) v = true -> val_is_ptr v = false -> 0 <= fo_num o ->
  f v = EOk w -> norm k env c r o w = Some w' -> g (zero env (TNamed id)) w' = EOk (v', None) ->
  encode_reflect (S k) env c info v o bare = EOk bz -> zlen bz < 2 ^ 63 -> (bare = true -> rest = []) -> (2 * k <= fd)%nat ->
  decode_reflect (S fd) env c (bz ++ rest) info (TNamed id) (zero env (TNamed id)) o bare = DRet v' (length bz) None.
Proof.
  intros env h We Hmt Hc k fd id r f g v w w' v' o bare bz rest info c Hm Hu Hdr Hg Hk Ht Hp Hnum Hf Hn Hgv He Hz Hb Hfd.
  unfold known in Hk. destruct (get_type_info env c r) as [rinfo| | |] eqn:Hr; try discriminate.
  assert (Hv : v <> VInvalid) by (intros ->; cbn [has_type] in Ht; destruct (resolve env (TNamed id)) as [[]| | | | | | | | | |]; discriminate Ht).
  destruct (C45_encode_partial env h Hc k id r f v w o bare info rinfo Hm Hg Hr Hp Hv) as [E _].
  fold c in E. rewrite (E Hf) in He.
  assert (D : decode_reflect fd env c (bz ++ rest) rinfo r (zero env r) o bare = DRet w' (length bz) None).
  { rewrite <- (ptrs_nonptr r w') by exact Hdr.
    apply (encode_decode env We c (wf_history env h Hc) (sane_run env h) Hmt k fd Hfd rinfo r w o bare bz w' rest r (zero env r)); try assumption.
    - exact (gti_minfo _ _ _ _ (sane_run env h) Hr).
    - exact (Hmt id r f v w Hm Ht Hf).
    - destruct r; try reflexivity.
    - rewrite base_zero, Hdr. reflexivity. }
  destruct (C45_decode_partial env h Hc fd id r g (zero env (TNamed id)) (bz ++ rest) o bare info rinfo Hu Hg Hr w' (length bz)) as [P _].
  { rewrite app_length. lia. }
  exact (P D v' None Hgv).
Qed.

(** At top level the field key is made from the declared type, not from the
    representation: a declared int32 represented by a string is written as
    "field 1, varint" followed by a length-prefixed string. *)
Theorem C45_top_level_key_refuted : exists env id r f g v w b1 b2, wf_env env /\ marshal_typed env /\
  te_marshal env id = Some (MOk r f) /\ te_unmarshal env id = Some (UOk r g) /\ has_type env (TNamed id) v = true /\ f v = EOk w /\
  marshal_bare 5 env new_codec (TNamed id) v = EOk b1 /\ marshal_bare 5 env new_codec r w = EOk b2 /\ b1 <> b2.
Proof.
  exists demo, 12%nat.
  destruct (te_marshal demo 12%nat) as [[?|r f]|] eqn:E; try discriminate E.
  destruct (te_unmarshal demo 12%nat) as [[?|r' g]|] eqn:E'; try discriminate E'.
  assert (r' = r) by (inversion E; inversion E'; subst; reflexivity). subst r'.
  exists r, f, g, (VInt 3), (VStr [97; 97; 97]), [8; 3; 97; 97; 97], [10; 3; 97; 97; 97].
  split; [exact demo_wf|]. split; [exact demo_marshal_typed|]. split; [reflexivity|]. split; [reflexivity|].
  split; [vm_compute; reflexivity|]. split; [inversion E; subst; vm_compute; reflexivity|].
  split; [vm_compute; reflexivity|]. split; [inversion E; subst; vm_compute; reflexivity|]. discriminate.
Qed.

(**     type Names []string
        func (n Names) MarshalAmino() (string, error)    // the first name
        func (n *Names) UnmarshalAmino(s string) error   // *n = Names{s}
        type S struct { N Names }
    The list in the field is written without calling MarshalAmino but read by
    calling UnmarshalAmino. *)
Definition names_env : tenv :=
  {| te_def := fun id => match id with
                         | 0%nat => UStruct [fld "N" (TNamed 1%nat) "" ""]
                         | _ => UType (TSlice TStr)
                         end;
     te_zero := fun id => match id with 0%nat => VStruct [VSlice None] | _ => VSlice None end;
     te_impl := fun _ _ => false;
     te_marshal := fun id => match id with
                             | 1%nat => Some (MOk TStr (fun v => match v with VSlice (Some (VStr s :: _)) => EOk (VStr s) | _ => EOk (VStr []) end))
                             | _ => None
                             end;
     te_unmarshal := fun id => match id with
                               | 1%nat => Some (UOk TStr (fun _ w => EOk (VSlice (Some [w]), None)))
                               | _ => None
                               end;
     te_hash := te_hash demo |}.
Theorem C45_list_field_refuted : exists env id fs1 l v w b, wf_env env /\
  te_def env id = UStruct [fs1] /\ (exists n, sf_type fs1 = TNamed n /\
    exists r f g, te_marshal env n = Some (MOk r f) /\ te_unmarshal env n = Some (UOk r g) /\
      f l = EOk w /\ (forall x, g x w = EOk (l, None))) /\
  v = VStruct [l] /\ has_type env (TNamed id) v = true /\
  marshal_bare 5 env new_codec (TNamed id) v = EOk b /\
  (exists v' e, unmarshal_bare 10 env new_codec b (TNamed id) (zero env (TNamed id)) = URet v' (Some e)).
Proof.
  exists names_env, 0%nat, (fld "N" (TNamed 1%nat) "" ""), (VSlice (Some [VStr [97]])), (VStruct [VSlice (Some [VStr [97]])]), (VStr [97]), [10; 1; 97].
  split.
  { split.
    - intros [|id]; cbn; discriminate.
    - intros [|id]; reflexivity.
    - discriminate.
    - discriminate.
    - exact (we_hash_len _ demo_wf).
    - exact (we_hash_ok _ demo_wf). }
  split; [reflexivity|]. split.
  { exists 1%nat. split; [reflexivity|]. eexists _, _, _. split; [reflexivity|]. split; [reflexivity|]. split; [reflexivity|]. intros x; reflexivity. }
  split; [reflexivity|]. split; [vm_compute; reflexivity|]. split; [vm_compute; reflexivity|].
  eexists _, _. vm_compute. reflexivity.
Qed.
Example C45_example : let c := run demo new_codec demo_history in
  wf_env demo /\ marshal_typed demo /\ clean demo new_codec demo_history = true /\
  match te_marshal demo 12%nat, te_unmarshal demo 12%nat, get_type_info demo c t_temp with
  | Some (MOk r f), Some (UOk r' g), EOk info =>
      r = r' /\ deref_type r = r /\ known demo c r = true /\ f (VInt 3) = EOk (VStr [97; 97; 97]) /\
      norm 5 demo c r no_opts (VStr [97; 97; 97]) = Some (VStr [97; 97; 97]) /\
      g (zero demo t_temp) (VStr [97; 97; 97]) = EOk (VInt 3, None) /\
      encode_reflect 6 demo c info (VInt 3) no_opts false = EOk [3; 97; 97; 97] /\
      decode_reflect 11 demo c ([3; 97; 97; 97] ++ [1; 2]) info t_temp (zero demo t_temp) no_opts false = DRet (VInt 3) 4 None
  | _, _, _ => False
  end.
Proof.
  cbv zeta. split; [exact demo_wf|]. split; [exact demo_marshal_typed|]. split; [vm_compute; reflexivity|].
  vm_compute. splits; reflexivity.
Qed.
Print Assumptions C45_encode_partial.
Print Assumptions C45_decode_partial.
Print Assumptions C45_round_trip_partial.
Print Assumptions C45_top_level_key_refuted.
Print Assumptions C45_list_field_refuted.

(** ** C43 *)

(** A struct with an amino-visible field of a float type and no unsafe tag (also
    behind pointers) can be neither registered nor written nor read: every attempt
    panics while its type information is computed. *)
Theorem C43_direct_fields_panic : forall env h, clean env new_codec h = true ->
  forall t fs f, let c := run env new_codec h in
  resolve env (deref_type t) = RStruct fs -> In f fs -> bad_float env f ->
  (forall k v, exists p, marshal_bare k env c t v = EPanic p) /\
  (forall k v, exists p, marshal_length_prefixed k env c t v = EPanic p) /\
  (forall k bz v0, exists p, unmarshal_bare k env c bz t v0 = UPanic p) /\
  (forall c' name, exists p, snd (register_concrete env c' t name) = Some p).
Proof.
  intros env h Hc t fs f c Hr Hin Hb.
  destruct (float_struct_gti env c t fs f (sane_run env h) Hr Hin Hb) as [p Hp].
  assert (M : forall k v, exists p, marshal_bare k env c t v = EPanic p).
  { intros k v. rewrite marshal_eq. destruct (under v); [rewrite Hp; cbn [ebind]|]; eauto. }
  split; [exact M|]. split.
  { intros k v. destruct (M k v) as [q Hq]. unfold marshal_length_prefixed. rewrite Hq. cbn [ebind]. eauto. }
  split. { intros k bz v0. rewrite unmarshal_eq, Hp. eauto. }
  intros c' name. unfold register_concrete. destruct (cd_sealed c'); [cbn [snd]; eauto|]. cbv zeta beta.
  assert (N : forall x b, resolve env x = RStruct fs -> exists q, new_registered_info env x b name = EPanic q).
  { intros x b Hx. destruct (float_struct_info env x fs f Hx Hin Hb) as [q Hq]. unfold new_registered_info. rewrite Hq. cbn [ebind]. eauto. }
  destruct t as [p0| |n0 e0|e0|e0| | | |i|id]; cbn [deref_type] in Hr; try discriminate Hr; cbv iota; [|destruct (N (TNamed id) false Hr) as [q ->]; cbn [snd]; eauto].
  destruct e0; cbn [deref_type] in Hr; try discriminate Hr; cbv iota; cbn [snd]; eauto.
  match goal with |- context [new_registered_info env ?x true name] => destruct (N x true Hr) as [q ->] end. cbn [snd]. eauto.


Qed.

(** Fields holding floats behind pointers or in lists, without the tag: writing
    one that holds a float is an error. *)
Lemma float_not_unpacked env c t ci f : sane_codec env c -> get_type_info env c t = EOk (TIConc ci) -> In f (ci_fields ci) ->
  (float_base env (fi_type f) \/ exists e, float_list env (fi_type f) e) -> fi_unpacked f = false.
Proof.
  intros Hs Hg Hin Hf. destruct (gti_minfo _ _ _ _ Hs Hg) as [_ Hok].
  destruct (info_ok_parts _ _ Hok) as (_ & P & _). unfold parse_struct_info in P.
  destruct (resolve env (ci_type ci)) as [| | | | | | | | |fs|]; try (apply EOk_inj in P; rewrite <- P in Hin; contradiction).
  destruct (parse_fields_nth _ _ _ _ _ _ P Hin) as (sf & o & _ & _ & _ & _ & _ & Ht & Hu & _).
  apply unpacked_entries in Hu. rewrite Hu, <- Ht. unfold entries, delimited.
  destruct Hf as [(Hf & _)|(e & He & _ & _ & Hf & _)].
  - destruct (float_resolve _ _ Hf) as (p & Hr & _). destruct (fi_type f); try reflexivity; cbn [deref_type] in Hr; try discriminate Hr. rewrite Hr. reflexivity.
  - destruct (float_resolve _ _ Hf) as (p & Hr & Hp). destruct He as [He|[n He]]; rewrite He, Hr; destruct Hp as [-> | ->]; rewrite andb_false_r; reflexivity.
Qed.
Theorem C43_write_is_error : forall env h, wf_env env -> clean env new_codec h = true ->
  forall t ci f v k, let c := run env new_codec h in
  get_type_info env c t = EOk (TIConc ci) -> In f (ci_fields ci) -> fo_num (fi_opts f) < 2 ^ 29 -> 0 <= fo_num (fi_opts f) ->
  fo_unsafe (fi_opts f) = false -> known env c (fi_type f) = true -> has_type env (fi_type f) v = true ->
  (float_base env (fi_type f) /\ (exists w, under v = Some w)) \/
  (exists e l, float_list env (fi_type f) e /\ known env c e = true /\ list_elems v = Some l /\ l <> []) ->
  exists e, encode_field env c (encode_reflect (S (S k)) env c) f v = EErr e.
Proof.
  intros env h We Hc t ci f v k c Hg Hin Hn1 Hn2 Hun Hk Ht H.
  unfold known in Hk. destruct (get_type_info env c (fi_type f)) as [info| | |] eqn:Hi; try discriminate Hk.
  pose proof (sane_run env h) as Hs.
  destruct H as [(Hf & w & Hw)|(e & l & Hf & Hke & Hl & Hne)].
  - apply (float_ptr_field_enc env We c Hs f info Hi Hun) with (w := w); try assumption; try lia.
    apply (float_not_unpacked env c t ci f Hs Hg Hin). auto.
  - unfold known in Hke. destruct (get_type_info env c e) as [einfo| | |] eqn:He; try discriminate Hke.
    apply (float_list_field_enc env We c Hs f info Hi Hun) with (l := l) (e := e) (einfo := einfo); try assumption; try lia.
    apply (float_not_unpacked env c t ci f Hs Hg Hin). eauto.
Qed.

(** Reading such a field succeeds only if there is nothing to read: the field then
    holds its zero value. *)
Theorem C43_read_is_error : forall env h, wf_env env -> clean env new_codec h = true ->
  forall t ci f k bz last n l l' bz' last' n', let c := run env new_codec h in
  get_type_info env c t = EOk (TIConc ci) -> In f (ci_fields ci) -> fo_num (fi_opts f) < 2 ^ 29 -> 0 <= fo_num (fi_opts f) ->
  fo_unsafe (fi_opts f) = false -> known env c (fi_type f) = true ->
  float_base env (fi_type f) \/ (exists e, float_list env (fi_type f) e /\ known env c e = true) ->
  bytes_ok bz -> has_type env (fi_type f) (nth (fi_index f) l VInvalid) = true ->
  decode_field env c (decode_reflect (S (S k)) env c) f l bz last n = DRet (l', bz', last') n' None ->
  l' = upd (fi_index f) (zero env (fi_type f)) l.
Proof.
  intros env h We Hc t ci f k bz last n l l' bz' last' n' c Hg Hin Hn1 Hn2 Hun Hk Hf Hok Ht H.
  unfold known in Hk. destruct (get_type_info env c (fi_type f)) as [info| | |] eqn:Hi; try discriminate Hk.
  pose proof (sane_run env h) as Hs.
  apply (float_field_dec env We c Hs f info Hi Hun) with (k := k) (v := nth (fi_index f) l VInvalid) (bz := bz) (last := last) (n := n) (bz' := bz') (last' := last') (n' := n'); try assumption; try reflexivity; try lia.
  - apply (float_not_unpacked env c t ci f Hs Hg Hin). destruct Hf as [Hf|(e & Hf & _)]; eauto.
  - destruct Hf as [Hf|(e & Hf & Hke)]; [auto|]. right. unfold known in Hke.
    destruct (get_type_info env c e) as [einfo| | |] eqn:He; try discriminate Hke. eauto.
Qed.

(** With the tag: eight or four bytes, read back bit for bit; [quiet32] sets the
    quiet bit of float32 NaNs and changes nothing else. *)
Theorem C43_unsafe_exact : forall env h, clean env new_codec h = true ->
  forall k info t v0 o bare bits rest, let c := run env new_codec h in
  get_type_info env c t = EOk info -> float_base env t -> has_type env (deref_type t) (VFloat bits) = true -> fo_unsafe o = true ->
  exists bz bits', encode_reflect (S k) env c info (VFloat bits) o bare = EOk bz /\
    decode_reflect (S k) env c (bz ++ rest) info t v0 o bare = DRet (ptrs t (VFloat bits')) (length bz) None /\
    (resolve env (deref_type t) = RPrim PFloat64 -> bits' = bits /\ length bz = 8%nat) /\
    (resolve env (deref_type t) = RPrim PFloat32 -> bits' = quiet32 bits /\ length bz = 4%nat).
Proof.
  intros env h Hc k info t v0 o bare bits rest c Hg (Hf & Hm & Hu) Ht Hun.
  apply (float_exact env c k info t v0 o bare bits rest); try assumption. exact (gti_minfo _ _ _ _ (sane_run env h) Hg).
Qed.

(**     type Bad  struct { A int; F float64 }
        type Refs struct { P *float64; L []float32 }
        type Ok   struct { F float64 `amino:"unsafe"` } *)
Definition float_env : tenv :=
  {| te_def := fun id => match id with
                         | 0%nat => UStruct [fld "A" TInt "" ""; fld "F" (TPrim PFloat64) "" ""]
                         | 1%nat => UStruct [fld "P" (TPtr (TPrim PFloat64)) "" ""; fld "L" (TSlice (TPrim PFloat32)) "" ""]
                         | _ => UStruct [fld "F" (TPrim PFloat64) "" "unsafe"]
                         end;
     te_zero := fun id => match id with 0%nat => VStruct [VInt 0; VFloat 0] | 1%nat => VStruct [VPtr None; VSlice None] | _ => VStruct [VFloat 0] end;
     te_impl := fun _ _ => false;
     te_marshal := fun _ => None;
     te_unmarshal := fun _ => None;
     te_hash := te_hash demo |}.
Example C43_example :
  wf_env float_env /\ bad_float float_env (fld "F" (TPrim PFloat64) "" "") /\
  (exists p, marshal_bare 5 float_env new_codec (TNamed 0%nat) (VStruct [VInt 0; VFloat 0]) = EPanic p) /\
  float_base float_env (TPtr (TPrim PFloat64)) /\ float_list float_env (TSlice (TPrim PFloat32)) (TPrim PFloat32) /\
  marshal_bare 5 float_env new_codec (TNamed 1%nat) (VStruct [VPtr None; VSlice (Some [])]) = EOk [] /\
  (exists e, marshal_bare 5 float_env new_codec (TNamed 1%nat) (VStruct [VPtr (Some (VFloat 0)); VSlice None]) = EErr e) /\
  (exists e, marshal_bare 5 float_env new_codec (TNamed 1%nat) (VStruct [VPtr None; VSlice (Some [VFloat 0])]) = EErr e) /\
  (exists v e, unmarshal_bare 5 float_env new_codec [9; 0; 0; 0; 0; 0; 0; 0; 0] (TNamed 1%nat) (VStruct [VPtr None; VSlice None]) = URet v (Some e)) /\
  marshal_bare 5 float_env new_codec (TNamed 2%nat) (VStruct [VFloat 0x7ff0000000000001]) = EOk [9; 1; 0; 0; 0; 0; 0; 0xf0; 0x7f] /\
  unmarshal_bare 5 float_env new_codec [9; 1; 0; 0; 0; 0; 0; 0xf0; 0x7f] (TNamed 2%nat) (VStruct [VFloat 0]) = URet (VStruct [VFloat 0x7ff0000000000001]) None /\
  quiet32 0x7f800001 = 0x7fc00001 /\ quiet32 0x3f800000 = 0x3f800000.
Proof.
  split.
  { split.
    - intros [|[|id]]; cbn; discriminate.
    - intros [|[|id]]; reflexivity.
    - discriminate.
    - discriminate.
    - exact (we_hash_len _ demo_wf).
    - exact (we_hash_ok _ demo_wf). }
  split. { split; [reflexivity|]. split; [reflexivity|]. eexists. split; reflexivity. }
  split; [eexists; vm_compute; reflexivity|].
  split; [split; [reflexivity|split; intros id X; discriminate X]|].
  split. { split; [left; reflexivity|]. split; [intros id X; discriminate X|]. split; [intros id X; discriminate X|].
    split; [reflexivity|split; intros id X; discriminate X]. }
  split; [vm_compute; reflexivity|]. split; [eexists; vm_compute; reflexivity|]. split; [eexists; vm_compute; reflexivity|].
  split; [eexists _, _; vm_compute; reflexivity|]. split; [vm_compute; reflexivity|]. split; [vm_compute; reflexivity|]. split; vm_compute; reflexivity.
Qed.
Print Assumptions C43_direct_fields_panic.
Print Assumptions C43_write_is_error.
Print Assumptions C43_read_is_error.
Print Assumptions C43_unsafe_exact.

(** ** C44 *)

(** If reading an integer (possibly behind pointers) succeeds, the result is the integer
    that the bytes read denote, and it is in the range of its type.  Missing: uint32
    without the fixed32 tag, which is truncated (refuted below). *)
Theorem C44_value_is_denoted_partial : forall env h, clean env new_codec h = true ->
  forall k bz info t v0 o bare p v n, let c := run env new_codec h in
  get_type_info env c t = EOk info -> no_unmarshal env (deref_type t) -> resolve env (deref_type t) = RPrim p ->
  exact_int p o = true -> bytes_ok bz -> decode_reflect k env c bz info t v0 o bare = DRet v n None ->
  exists z, v = ptrs t (int_value p z) /\ denotes p o (firstn n bz) z /\ fst (int_range p) <= z < snd (int_range p).
Proof.
  intros env h Hc k bz info t v0 o bare p v n c Hg Hu Hr Hp Hok H. destruct k as [|k]; [discriminate H|].
  unfold c in H. rewrite (prim_decode env (run env new_codec h) k bz info t v0 o bare p (gti_minfo _ _ _ _ (sane_run env h) Hg) Hu Hr) in H.
  destruct (decode_prim p (base_of env t v0) bz o) as [w m e| |] eqn:E; cbn [dmap] in H; try discriminate H.
  assert (X : ptrs t w = v /\ m = n /\ e = None) by (inversion H; auto). destruct X as (<- & -> & ->).
  destruct (int_sound _ _ _ _ _ _ Hok Hp E) as (z & -> & Hz). exists z. split; [reflexivity|exact Hz].
Qed.

(** Integers outside the range of the type are errors, and the variable keeps its value
    (a nil pointer is replaced by one to zero). *)
Theorem C44_out_of_range_partial : forall env h, clean env new_codec h = true ->
  forall k b rest info t v0 o bare p z, let c := run env new_codec h in
  get_type_info env c t = EOk info -> no_unmarshal env (deref_type t) -> resolve env (deref_type t) = RPrim p ->
  exact_int p o = true -> bytes_ok (b ++ rest) -> denotes p o b z -> ~ (fst (int_range p) <= z < snd (int_range p)) ->
  exists n e, decode_reflect (S k) env c (b ++ rest) info t v0 o bare = DRet (ptrs t (base_of env t v0)) n (Some e).
Proof.
  intros env h Hc k b rest info t v0 o bare p z c Hg Hu Hr Hp Hok Hd Hz.
  unfold c. rewrite (prim_decode env (run env new_codec h) k (b ++ rest) info t v0 o bare p (gti_minfo _ _ _ _ (sane_run env h) Hg) Hu Hr).
  destruct (int_reject p (base_of env t v0) b rest o z Hok Hp Hd Hz) as (n & e & ->). exists n, e. reflexivity.
Qed.

(** 2^32 is read as the uint32 0 (binary-decode.go:116 converts without a check). *)
Theorem C44_uint32_refuted : exists bz z, denotes PUint32 no_opts bz z /\ ~ (fst (int_range PUint32) <= z < snd (int_range PUint32)) /\
  forall k bare, exists info, get_type_info demo new_codec (TPrim PUint32) = EOk info /\
  decode_reflect (S k) demo new_codec bz info (TPrim PUint32) (VUint 7) no_opts bare = DRet (VUint 0) (length bz) None.
Proof.
  exists [128; 128; 128; 128; 16], (2 ^ 32). split.
  { cbn [denotes no_opts fo_fixed32]. exists [0; 0; 0; 0], 16. split; [reflexivity|]. split; [repeat constructor; lia|]. split; [unfold digit128; lia|reflexivity]. }
  split; [cbn; lia|]. intros k bare. eexists. split; [reflexivity|]. reflexivity.
Qed.
Example C44_example :
  no_unmarshal demo (deref_type (TPtr (TPrim PInt8))) /\ resolve demo (deref_type (TPtr (TPrim PInt8))) = RPrim PInt8 /\ exact_int PInt8 no_opts = true /\
  denotes PInt8 no_opts [128; 2] 128 /\ ~ (fst (int_range PInt8) <= 128 < snd (int_range PInt8)) /\
  denotes PInt8 no_opts [255; 1] (-128) /\ fst (int_range PInt8) <= -128 < snd (int_range PInt8) /\
  match get_type_info demo new_codec (TPtr (TPrim PInt8)) with
  | EOk info =>
      (exists e, decode_reflect 3 demo new_codec [128; 2] info (TPtr (TPrim PInt8)) (VPtr None) no_opts false = DRet (VPtr (Some (VInt 0))) 2 (Some e)) /\
      decode_reflect 3 demo new_codec [255; 1] info (TPtr (TPrim PInt8)) (VPtr None) no_opts false = DRet (VPtr (Some (VInt (-128)))) 2 None
  | _ => False
  end.
Proof.
  split; [intros id X; discriminate X|]. split; [reflexivity|]. split; [reflexivity|].
  split. { exists [0], 2. split; [reflexivity|]. split; [repeat constructor; lia|]. split; [unfold digit128; lia|reflexivity]. }
  split; [cbn; lia|].
  split. { exists [127], 1. split; [reflexivity|]. split; [repeat constructor; lia|]. split; [unfold digit128; lia|reflexivity]. }
  split; [cbn; lia|]. vm_compute. split; [eexists; reflexivity|reflexivity].
Qed.
Print Assumptions C44_value_is_denoted_partial.
Print Assumptions C44_out_of_range_partial.
Print Assumptions C44_uint32_refuted.

(** ** C42 *)

(** Types that are decoded in one piece (numbers, strings, times, slices, byte
    arrays; types whose UnmarshalAmino leaves its receiver alone on error) keep their
    value when Unmarshal fails, unless it fails because bytes are left over. *)
Theorem C42_one_piece_partial : forall env h, clean env new_codec h = true ->
  forall k bz t v0 v e, deref_type t = t -> all_or_nothing env t ->
  unmarshal_bare k env (run env new_codec h) bz t v0 = URet v (Some e) -> v = v0 \/ e = "unmarshal didn't read all bytes"%string.
Proof. intros env h Hc k bz t v0 v e Hd Ha H. exact (unmarshal_keeps env _ k bz t v0 v e (sane_run env h) Hd Ha H). Qed.

(** For every type, missing prefix bytes and wrong length prefixes leave the target
    alone.  Missing for the full statement: structs, arrays and pointers, which
    are filled in piece by piece, and left-over bytes (refuted below). *)
Theorem C42_prefix_partial : forall env h t n d p, clean env new_codec h = true -> In (t, n) (conc_calls h) ->
  name_to_disfix env n = EOk (d, p) -> forall k rt v0 bz, deref_type rt = conc_of t ->
  (forall body, bz <> p ++ body) -> exists e, unmarshal_bare k env (run env new_codec h) bz rt v0 = URet v0 (Some e).
Proof. exact C24_unmarshal_needs_prefix. Qed.
Theorem C42_frame_partial : forall k env c bz t v0, bytes_ok bz -> zlen bz < 2 ^ 63 ->
  (forall pre body, ~ framed bz pre body) -> exists e, unmarshal_length_prefixed k env c bz t v0 = URet v0 (Some e).
Proof. intros k env c bz t v0 Hok Hz H. apply unmarshal_unframed; assumption. Qed.
Theorem C42_unchanged_refuted :
  (exists bz v0 v e, unmarshal_bare 5 demo new_codec bz t_foo v0 = URet v (Some e) /\ v <> v0) /\
  (exists bz v0 v e, unmarshal_bare 5 demo new_codec bz (TPrim PUint) v0 = URet v (Some e) /\ v <> v0).
Proof.
  split.
  - eexists [8; 1; 16; 128], (foo 5 6), _, _. split; [vm_compute; reflexivity|]. discriminate.
  - eexists [8; 1; 2], (VUint 5), _, _. split; [vm_compute; reflexivity|]. discriminate.
Qed.
Example C42_example :
  all_or_nothing demo (TSlice t_foo) /\
  (exists e, unmarshal_bare 5 demo new_codec [10; 2; 8; 1; 10; 2; 8] (TSlice t_foo) (VSlice (Some [foo 1 2])) = URet (VSlice (Some [foo 1 2])) (Some e)) /\
  (exists e, unmarshal_bare 5 demo new_codec [10; 5; 8] TStr (VStr [97]) = URet (VStr [97]) (Some e)).
Proof. split; [reflexivity|]. split; eexists; vm_compute; reflexivity. Qed.
Print Assumptions C42_one_piece_partial.
Print Assumptions C42_prefix_partial.
Print Assumptions C42_frame_partial.
Print Assumptions C42_unchanged_refuted.
