(** Facts behind the properties about integers, floats and method types. *)
From Coq Require Import ZArith String List Bool Lia.
From Coq Require Import ZifyBool ZifyNat.
From Verif Require Import Base Prims SpecWire PrimFacts PrimProps Types Codec BinEnc BinDec Amino FuelFacts DecFacts
  ValueInd Typing Registry SpecRegistry RegistryFacts RegistryProps Sane DecSafe SpecNorm EncFacts RoundTrip TopFacts SpecSupported SupportedFacts TopProps.
Import ListNotations.
Local Open Scope Z_scope.
Local Open Scope amino_scope.

(** ** Integers *)

(** [z] is the integer that the bytes [b] denote in a field of kind [p] with
    options [o]: fixed width little-endian two's complement, zigzag base-128 for
    int8 and int16, base-128 two's complement for the other signed kinds, plain
    base-128 for unsigned ones. *)
Definition denotes (p : prim) (o : fopts) (b : bytes) (z : Z) : Prop :=
  match p with
  | PInt64 => if fo_fixed64 o then length b = 8%nat /\ - 2 ^ 63 <= z < 2 ^ 63 /\ val256 b = z mod 2 ^ 64 else - 2 ^ 63 <= z < 2 ^ 63 /\ leb128 b (z mod 2 ^ 64)
  | PInt32 => if fo_fixed32 o then length b = 4%nat /\ - 2 ^ 31 <= z < 2 ^ 31 /\ val256 b = z mod 2 ^ 32 else - 2 ^ 63 <= z < 2 ^ 63 /\ leb128 b (z mod 2 ^ 64)
  | PInt => - 2 ^ 63 <= z < 2 ^ 63 /\ leb128 b (z mod 2 ^ 64)
  | PInt8 | PInt16 => leb128 b (zigzag z)
  | PUint64 => if fo_fixed64 o then length b = 8%nat /\ val256 b = z else leb128 b z
  | PUint32 => if fo_fixed32 o then length b = 4%nat /\ val256 b = z else leb128 b z
  | PUint | PUint8 | PUint16 => leb128 b z
  | _ => False
  end.
Definition int_value (p : prim) (z : Z) : value :=
  match p with PInt | PInt8 | PInt16 | PInt32 | PInt64 => VInt z | _ => VUint z end.
Definition int_range (p : prim) : Z * Z :=
  match p with
  | PInt | PInt64 => (- 2 ^ 63, 2 ^ 63)
  | PInt32 => (- 2 ^ 31, 2 ^ 31) | PInt16 => (- 2 ^ 15, 2 ^ 15) | PInt8 => (- 2 ^ 7, 2 ^ 7)
  | PUint | PUint64 => (0, 2 ^ 64)
  | PUint32 => (0, 2 ^ 32) | PUint16 => (0, 2 ^ 16) | PUint8 => (0, 2 ^ 8)
  | _ => (0, 0)
  end.
Definition is_int (p : prim) : bool :=
  match p with PBool | PString | PFloat32 | PFloat64 => false | _ => true end.

Lemma decode_uvarint_leb bz u n : bytes_ok bz -> decode_uvarint bz = DRet u n None ->
  leb128 (firstn n bz) u /\ 0 <= u < 2 ^ 64.
Proof.
  intros Hok H. pose proof (decode_uvarint_range _ _ _ Hok H) as R. apply decode_uvarint_inv in H; [|assumption].
  destruct H as (ds & last & rest & -> & Hds & Hl & _ & _ & Hv & ->). split; [|assumption].
  exists ds, last. splits; try assumption.
  replace (map contb ds ++ last :: rest) with ((map contb ds ++ [last]) ++ rest) by (rewrite <- app_assoc; reflexivity).
  rewrite firstn_app_exact by (rewrite app_length, map_length; cbn; lia). reflexivity.
Qed.
Lemma set_scalar_ok {A} v0 bz (r : dres A) f v n : set_scalar v0 bz r f = DRet v n None ->
  exists a m, r = DRet a n None /\ f a = DRet v m None.
Proof.
  unfold set_scalar. destruct r as [a m e| |]; cbn [dbind]; try discriminate. intros H. unfold slide in H.
  destruct (length bz <? m)%nat; [discriminate|]. destruct e; [discriminate|].
  destruct (f a) as [w m' e'| |] eqn:E; cbn [dbind] in H; try discriminate. inversion H; subst. eauto.
Qed.

(** A base-128 number is determined by any byte string it starts. *)
Lemma leb_prefix b u b' u' r r' : leb128 b u -> leb128 b' u' -> b ++ r = b' ++ r' -> b = b' /\ u = u'.
Proof.
  intros (ds & x & -> & Hd & Hx & ->) (ds' & x' & -> & Hd' & Hx' & ->) E.
  rewrite <- !app_assoc in E. cbn [app] in E.
  assert (G : ds = ds' /\ x = x').
  { revert ds' Hd' E. induction Hd as [|d ds Hd1 Hd2 IH]; intros [|d' ds'] Hd' E; cbn [map app] in E.
    - inversion E. auto.
    - inversion E; subst. inversion Hd'; subst. unfold digit128 in *. lia.
    - inversion E; subst. unfold digit128 in *. lia.
    - inversion E as [[E1 E2]]. inversion Hd'; subst. destruct (IH _ H2 E2). split; [f_equal; [lia|assumption]|assumption]. }
  destruct G as [-> ->]. auto.
Qed.

Lemma i64_range u : - 2 ^ 63 <= i64 u < 2 ^ 63.
Proof. apply (iwrap_range 64). lia. Qed.
Lemma i32_range u : - 2 ^ 31 <= i32 u < 2 ^ 31.
Proof. apply (iwrap_range 32). lia. Qed.
Lemma u32_i32 z : 0 <= z < 2 ^ 32 -> u32 (i32 z) = z.
Proof.
  intros H. unfold u32, i32, iwrap, uwrap. rewrite (Z.mod_small z) by exact H.
  destruct (z <? 2 ^ (32 - 1)); [apply Z.mod_small; exact H|].
  rewrite <- (Z.mod_small z (2 ^ 32)) at 2 by exact H. rewrite <- (Z.mod_add z (-1) (2 ^ 32)) by lia. reflexivity.
Qed.

Definition exact_int (p : prim) (o : fopts) : bool :=
  is_int p && match p with PUint32 => fo_fixed32 o | _ => true end.

Lemma decode_fixed_val size conv msg bz v n : bytes_ok bz -> decode_fixed size conv msg bz = DRet v n None ->
  n = size /\ length (firstn n bz) = size /\ v = conv (val256 (firstn n bz)) /\ 0 <= val256 (firstn n bz) < 256 ^ Z.of_nat size.
Proof.
  intros Hok H. apply decode_fixed_iff in H; [|assumption]. destruct H as (H & -> & ->).
  assert (L : length (firstn size bz) = size) by (apply firstn_length_le; assumption).
  destruct (get_le_val (firstn size bz)) as [_ B]; [apply bytes_ok_firstn; assumption|]. unfold zlen in B. rewrite L in B. auto.
Qed.

Lemma int_sound p v0 bz o v n : bytes_ok bz -> exact_int p o = true -> decode_prim p v0 bz o = DRet v n None ->
  exists z, v = int_value p z /\ denotes p o (firstn n bz) z /\ fst (int_range p) <= z < snd (int_range p).
Proof.
  intros Hok Hp H.
  assert (W : forall u, 0 <= u < 2 ^ 64 -> - 2 ^ 63 <= i64 u < 2 ^ 63 /\ i64 u mod 2 ^ 64 = u).
  { intros u Hu. split; [apply i64_range|]. change (u64 (i64 u) = u). apply u64_i64. exact Hu. }
  destruct p; try discriminate Hp; cbn [decode_prim exact_int is_int andb] in *; unfold int_value, denotes, int_range; cbn [fst snd].
  - apply set_scalar_ok in H. destruct H as (u & m & Hu & H). apply decode_uvarint_leb in Hu; [|assumption]. destruct Hu as [L R].
    destruct (_ || _) in H; [discriminate|]. inversion H; subst. destruct (W u R) as [W1 W2]. exists (i64 u). rewrite W2. auto.
  - apply set_scalar_ok in H. destruct H as (u & m & Hu & H). apply decode_int8_iff in Hu. destruct Hu as [Hu R]. inversion H; subst.
    apply decode_varint_uvarint in Hu. destruct Hu as (w & Hu & ->). apply decode_uvarint_leb in Hu; [|assumption]. destruct Hu as [L R'].
    exists (unzigzag w). rewrite zigzag_unzigzag by assumption. splits; try assumption; try reflexivity; lia.
  - apply set_scalar_ok in H. destruct H as (u & m & Hu & H). apply decode_int16_iff in Hu. destruct Hu as [Hu R]. inversion H; subst.
    apply decode_varint_uvarint in Hu. destruct Hu as (w & Hu & ->). apply decode_uvarint_leb in Hu; [|assumption]. destruct Hu as [L R'].
    exists (unzigzag w). rewrite zigzag_unzigzag by assumption. splits; try assumption; try reflexivity; lia.
  - destruct (fo_fixed32 o).
    + apply set_scalar_ok in H. destruct H as (u & m & Hu & H). inversion H; subst. apply decode_fixed_val in Hu; [|assumption].
      destruct Hu as (-> & L & -> & R). exists (i32 (val256 (firstn 4 bz))). change (256 ^ Z.of_nat 4) with (2 ^ 32) in R.
      splits; try reflexivity; try assumption; try apply i32_range. change (val256 (firstn 4 bz) = u32 (i32 (val256 (firstn 4 bz)))). symmetry. apply u32_i32; assumption.
    + apply set_scalar_ok in H. destruct H as (u & m & Hu & H). apply decode_uvarint_leb in Hu; [|assumption]. destruct Hu as [L R].
      destruct (_ || _) eqn:E in H; [discriminate|]. inversion H; subst. destruct (W u R) as [W1 W2]. exists (i64 u). rewrite W2. splits; auto; lia.
  - destruct (fo_fixed64 o).
    + apply set_scalar_ok in H. destruct H as (u & m & Hu & H). inversion H; subst. apply decode_fixed_val in Hu; [|assumption].
      destruct Hu as (-> & L & -> & R). exists (i64 (val256 (firstn 8 bz))). change (256 ^ Z.of_nat 8) with (2 ^ 64) in R.
      destruct (W _ R) as [W1 W2]. rewrite W2. auto.
    + apply set_scalar_ok in H. destruct H as (u & m & Hu & H). apply decode_uvarint_leb in Hu; [|assumption]. destruct Hu as [L R].
      inversion H; subst. destruct (W u R) as [W1 W2]. exists (i64 u). rewrite W2. auto.
  - apply set_scalar_ok in H. destruct H as (u & m & Hu & H). apply decode_uvarint_leb in Hu; [|assumption]. inversion H; subst. exists u. tauto.
  - apply set_scalar_ok in H. destruct H as (u & m & Hu & H). apply decode_uint8_iff in Hu. destruct Hu as [Hu R]. inversion H; subst.
    apply decode_uvarint_leb in Hu; [|assumption]. exists u. splits; try tauto; lia.
  - apply set_scalar_ok in H. destruct H as (u & m & Hu & H). apply decode_uint16_iff in Hu. destruct Hu as [Hu R]. inversion H; subst.
    apply decode_uvarint_leb in Hu; [|assumption]. exists u. splits; try tauto; lia.
  - rewrite Hp in H. rewrite Hp. apply set_scalar_ok in H. destruct H as (u & m & Hu & H). inversion H; subst.
    apply decode_fixed_val in Hu; [|assumption]. destruct Hu as (-> & L & -> & R). exists (val256 (firstn 4 bz)). auto.
  - destruct (fo_fixed64 o).
    + apply set_scalar_ok in H. destruct H as (u & m & Hu & H). inversion H; subst.
      apply decode_fixed_val in Hu; [|assumption]. destruct Hu as (-> & L & -> & R). exists (val256 (firstn 8 bz)). auto.
    + apply set_scalar_ok in H. destruct H as (u & m & Hu & H). apply decode_uvarint_leb in Hu; [|assumption]. inversion H; subst. exists u. tauto.
Qed.

Lemma denotes_fun p o b z b' z' r r' : denotes p o b z -> denotes p o b' z' -> b ++ r = b' ++ r' -> z = z'.
Proof.
  assert (W : forall w z z', 0 < w -> - 2 ^ (w - 1) <= z < 2 ^ (w - 1) -> - 2 ^ (w - 1) <= z' < 2 ^ (w - 1) -> z mod 2 ^ w = z' mod 2 ^ w -> z = z').
  { clear. intros w z z' Hw Hz Hz' E. rewrite <- (iwrap_uwrap w z), <- (iwrap_uwrap w z') by assumption. unfold uwrap. rewrite E. reflexivity. }
  assert (Zz : forall z z', zigzag z = zigzag z' -> z = z').
  { clear. intros z z'. unfold zigzag. destruct (z <? 0) eqn:E, (z' <? 0) eqn:E'; lia. }
  assert (F : forall k, length b = k -> length b' = k -> b ++ r = b' ++ r' -> b = b').
  { intros k L L' E. rewrite <- (firstn_app_exact b r k L), <- (firstn_app_exact b' r' k L'), E. reflexivity. }
  intros H H' E. destruct p; cbn [denotes] in *; try contradiction.
  - destruct H as [R L], H' as [R' L']. destruct (leb_prefix _ _ _ _ _ _ L L' E) as [_ X]. apply (W 64); try assumption; lia.
  - destruct (leb_prefix _ _ _ _ _ _ H H' E) as [_ X]. auto.
  - destruct (leb_prefix _ _ _ _ _ _ H H' E) as [_ X]. auto.
  - destruct (fo_fixed32 o).
    + destruct H as (L & R & V), H' as (L' & R' & V'). rewrite (F _ L L' E) in V. apply (W 32); try assumption; try lia; congruence.
    + destruct H as [R L], H' as [R' L']. destruct (leb_prefix _ _ _ _ _ _ L L' E) as [_ X]. apply (W 64); try assumption; lia.
  - destruct (fo_fixed64 o).
    + destruct H as (L & R & V), H' as (L' & R' & V'). rewrite (F _ L L' E) in V. apply (W 64); try assumption; try lia; congruence.
    + destruct H as [R L], H' as [R' L']. destruct (leb_prefix _ _ _ _ _ _ L L' E) as [_ X]. apply (W 64); try assumption; lia.
  - destruct (leb_prefix _ _ _ _ _ _ H H' E) as [_ X]. auto.
  - destruct (leb_prefix _ _ _ _ _ _ H H' E) as [_ X]. auto.
  - destruct (leb_prefix _ _ _ _ _ _ H H' E) as [_ X]. auto.
  - destruct (fo_fixed32 o).
    + destruct H as (L & V), H' as (L' & V'). rewrite (F _ L L' E) in V. congruence.
    + destruct (leb_prefix _ _ _ _ _ _ H H' E) as [_ X]. auto.
  - destruct (fo_fixed64 o).
    + destruct H as (L & V), H' as (L' & V'). rewrite (F _ L L' E) in V. congruence.
    + destruct (leb_prefix _ _ _ _ _ _ H H' E) as [_ X]. auto.
Qed.

(** The scalar decoders return, and leave the old value on error. *)
Lemma set_scalar_ret {A} v0 bz (r : dres A) f : (exists a n e, r = DRet a n e /\ (n <= length bz)%nat) ->
  (forall a, (exists v, f a = DRet v 0 None) \/ (exists e, f a = DRet v0 0 (Some e))) ->
  (exists v n, set_scalar v0 bz r f = DRet v n None) \/ (exists n e, set_scalar v0 bz r f = DRet v0 n (Some e)).
Proof.
  intros (a & n & e & -> & Hn) Hf. unfold set_scalar. cbn [dbind]. rewrite slide_le by assumption.
  destruct e as [e|]; [right; eauto|]. destruct (Hf a) as [[v ->]|[e ->]]; cbn [dbind]; eauto.
Qed.
Lemma decode_prim_ret p v0 bz o :
  (exists v n, decode_prim p v0 bz o = DRet v n None) \/ (exists n e, decode_prim p v0 bz o = DRet v0 n (Some e)).
Proof.
  destruct p; cbn [decode_prim]; try destruct (fo_fixed32 o); try destruct (fo_fixed64 o); try destruct (fo_unsafe o); cbn [negb];
    try (right; eauto; fail);
    (apply set_scalar_ret; [|intros; cbv beta; try destruct (_ || _); eauto]);
    first [apply wb_uvarint|apply wb_int8|apply wb_int16|apply wb_uint8|apply wb_uint16
            |apply wb_int32|apply wb_int64|apply wb_uint32|apply wb_uint64|apply wb_bool
            |apply wb_float32|apply wb_float64|apply wb_string].
Qed.

Lemma int_reject p v0 b rest o z : bytes_ok (b ++ rest) -> exact_int p o = true -> denotes p o b z ->
  ~ (fst (int_range p) <= z < snd (int_range p)) -> exists n e, decode_prim p v0 (b ++ rest) o = DRet v0 n (Some e).
Proof.
  intros Hok Hp Hd Hr. destruct (decode_prim_ret p v0 (b ++ rest) o) as [(v & n & H)|H]; [|exact H].
  destruct (int_sound _ _ _ _ _ _ Hok Hp H) as (z' & _ & Hd' & R). exfalso. apply Hr.
  replace z with z'; [exact R|]. eapply (denotes_fun p o (firstn n (b ++ rest)) z' b z (skipn n (b ++ rest)) rest); try assumption. apply firstn_skipn.
Qed.

(** ** Types without methods *)

Definition no_marshal (env : tenv) (t : gotype) : Prop := forall id, t = TNamed id -> te_marshal env id = None.
Definition no_unmarshal (env : tenv) (t : gotype) : Prop := forall id, t = TNamed id -> te_unmarshal env id = None.

Lemma plain_decode env c k bz info t v0 o bare : minfo env c info t -> no_unmarshal env (deref_type t) -> is_iface (deref_type t) = false ->
  decode_reflect (S k) env c bz info t v0 o bare =
  dmap (ptrs t) (decode_switch env c (decode_reflect k env c) bz info (base_of env t v0) o bare).
Proof.
  intros Hi Hu Hif. cbn [decode_reflect]. destruct info as [ci|ii]; [|destruct Hi as [_ Hi]; rewrite Hi in Hif; discriminate].
  destruct Hi as [H1 H2]. pose proof (minfo_unmethod _ _ _ H1 H2) as U. change (rebuild t) with (ptrs t).
  destruct ci as [ct cf cm [u|] cr]; cbn [ci_unmarshal] in *; [|destruct t; reflexivity].
  destruct U as (id & g & Ht & Hg & _). rewrite (Hu id Ht) in Hg. discriminate.
Qed.
Lemma plain_encode env c k info t v o bare : minfo env c info t -> no_marshal env (deref_type t) ->
  val_is_ptr v = false -> v <> VInvalid ->
  encode_reflect (S k) env c info v o bare = encode_switch env c (encode_reflect k env c) (S k) info v o bare.
Proof.
  intros Hi Hu Hp Hv. cbn [encode_reflect]. destruct info as [ci|ii]; [|destruct v; try discriminate Hp; try congruence; reflexivity].
  destruct Hi as [H1 H2]. pose proof (minfo_method _ _ _ H1 H2) as U.
  destruct ci as [ct cf [m|] cu cr]; cbn [ci_marshal] in *; [|destruct v; try discriminate Hp; try congruence; reflexivity].
  destruct U as (id & g & Ht & Hg & _). rewrite (Hu id Ht) in Hg. discriminate.
Qed.
Lemma prim_decode env c k bz info t v0 o bare p : minfo env c info t -> no_unmarshal env (deref_type t) -> resolve env (deref_type t) = RPrim p ->
  decode_reflect (S k) env c bz info t v0 o bare = dmap (ptrs t) (decode_prim p (base_of env t v0) bz o).
Proof.
  intros Hi Hu Hr. rewrite plain_decode by (try assumption; destruct (deref_type t); try reflexivity; discriminate).
  unfold decode_switch. rewrite (minfo_type _ _ _ _ Hi), Hr. reflexivity.
Qed.
Lemma prim_encode env c k info t v o bare p : minfo env c info t -> no_marshal env (deref_type t) -> resolve env (deref_type t) = RPrim p ->
  prim_has p v = true -> encode_reflect (S k) env c info v o bare = encode_prim p v o.
Proof.
  intros Hi Hu Hr Hp. rewrite (plain_encode _ _ _ _ t) by (try assumption; destruct v, p; try discriminate; reflexivity).
  unfold encode_switch. rewrite (minfo_type _ _ _ _ Hi), Hr. reflexivity.
Qed.

(** ** Floats *)

Definition is_float (env : tenv) (t : gotype) : bool :=
  match resolve env t with RPrim PFloat32 | RPrim PFloat64 => true | _ => false end.
(** A struct field that amino uses, of a float type, without the unsafe tag. *)
Definition bad_float (env : tenv) (f : sfield) : Prop :=
  sf_exported f = true /\ is_float env (sf_type f) = true /\
  exists o, parse_field_options f = Some o /\ fo_unsafe o = false.

Lemma unpacked_cases env t o : (exists b, unpacked_list env t o = EOk b) \/ (exists p, unpacked_list env t o = EPanic p).
Proof.
  unfold unpacked_list, type_to_typ3. destruct (resolve env t) as [| |n e|e| | | | | | |]; eauto;
  destruct (is_uint8 env e); eauto; destruct (resolve env (deref_type e)) as [p| | | | | | | | | |]; cbn [ebind]; eauto;
  destruct p; cbn [ebind]; eauto; destruct (fo_fixed64 o), (fo_fixed32 o); cbn [ebind]; eauto.
Qed.
Lemma check_cases env t o : (exists b, check_unsafe env t o = EOk b) \/ (exists p, check_unsafe env t o = EPanic p).
Proof. unfold check_unsafe. destruct (fo_unsafe o); eauto. destruct (resolve env t) as [p| | | | | | | | | |]; eauto. destruct p; eauto. Qed.

Lemma parse_fields_cases env : forall fs i num, (exists l, parse_fields env fs i num = EOk l) \/ (exists p, parse_fields env fs i num = EPanic p).
Proof.
  induction fs as [|f fs IH]; intros i num; cbn [parse_fields]; [eauto|].
  destruct (sf_exported f); cbn [negb]; [|apply IH]. destruct (parse_field_options f) as [o|]; [|apply IH].
  destruct (unpacked_cases env (sf_type f) o) as [[b ->]|[p ->]]; cbn [ebind]; [|eauto].
  destruct (check_cases env (sf_type f) (set_num (u32 (Z.of_nat num + 1)) o)) as [[u ->]|[p ->]]; cbn [ebind]; [|eauto].
  destruct (IH (S i) (S num)) as [[l ->]|[p ->]]; cbn [ebind]; eauto.
Qed.
Lemma parse_float_panics env f : bad_float env f -> forall fs i num, In f fs -> exists p, parse_fields env fs i num = EPanic p.
Proof.
  intros (Hx & Hf & o & Ho & Hun). induction fs as [|g fs IH]; intros i num; cbn [In parse_fields]; [contradiction|].
  intros [->|Hin].
  - rewrite Hx, Ho. cbn [negb]. destruct (unpacked_cases env (sf_type f) o) as [[b ->]|[p ->]]; cbn [ebind]; [|eauto].
    assert (C : exists p, check_unsafe env (sf_type f) (set_num (u32 (Z.of_nat num + 1)) o) = EPanic p).
    { unfold check_unsafe. cbn [set_num fo_unsafe]. rewrite Hun. unfold is_float in Hf.
      destruct (resolve env (sf_type f)) as [p| | | | | | | | | |]; try discriminate. destruct p; try discriminate; eauto. }
    destruct C as [p ->]. cbn [ebind]. eauto.
  - destruct (sf_exported g); cbn [negb]; [|apply IH; assumption]. destruct (parse_field_options g) as [og|]; [|apply IH; assumption].
    destruct (unpacked_cases env (sf_type g) og) as [[b ->]|[p ->]]; cbn [ebind]; [|eauto].
    destruct (check_cases env (sf_type g) (set_num (u32 (Z.of_nat num + 1)) og)) as [[u ->]|[p ->]]; cbn [ebind]; [|eauto].
    destruct (IH (S i) (S num) Hin) as [p ->]. cbn [ebind]. eauto.
Qed.
Lemma float_struct_info env t fs f : resolve env t = RStruct fs -> In f fs -> bad_float env f -> exists p, new_type_info env t = EPanic p.
Proof.
  intros Hr Hin Hb. destruct (parse_float_panics env f Hb fs 0%nat 0%nat Hin) as [p Hp].
  unfold new_type_info, parse_struct_info. rewrite Hr, Hp. destruct t; cbn [ebind]; eauto.
Qed.
Lemma float_struct_gti env c t fs f : sane_codec env c -> resolve env (deref_type t) = RStruct fs -> In f fs -> bad_float env f ->
  exists p, get_type_info env c t = EPanic p.
Proof.
  intros Hs Hr Hin Hb. destruct (float_struct_info env _ fs f Hr Hin Hb) as [p Hp].
  assert (N : assoc gotype_eqb (deref_type t) (cd_types c) = None).
  { destruct (assoc gotype_eqb (deref_type t) (cd_types c)) as [ci|] eqn:E; [|reflexivity]. destruct (sa_types _ _ Hs _ _ E) as [H1 H2].
    exfalso. destruct (info_ok_parts _ _ H2) as (_ & P & _). rewrite H1 in P. unfold parse_struct_info in P. rewrite Hr in P.
    destruct (parse_float_panics env f Hb fs 0%nat 0%nat Hin) as [q Hq]. rewrite Hq in P. discriminate. }
  unfold get_type_info. rewrite N, Hp. cbn [ebind]. destruct (deref_type t); try discriminate Hr; eauto.
Qed.

(** Elements of a list, values behind a pointer. *)
Lemma float_encode env c k info t v o bare : minfo env c info t -> no_marshal env (deref_type t) -> is_float env (deref_type t) = true ->
  has_type env (deref_type t) v = true -> fo_unsafe o = false -> exists e, encode_reflect (S k) env c info v o bare = EErr e.
Proof.
  intros Hi Hm Hf Ht Hu. unfold is_float in Hf. destruct (resolve env (deref_type t)) as [p| | | | | | | | | |] eqn:Er; try discriminate.
  assert (Hp : prim_has p v = true) by (destruct v; cbn [has_type] in Ht; rewrite Er in Ht; exact Ht).
  rewrite (prim_encode _ _ _ _ _ _ _ _ _ Hi Hm Er Hp). destruct p; try discriminate; destruct v; try discriminate; cbn; rewrite Hu; eauto.
Qed.
Lemma float_decode env c k bz info t v0 o bare : minfo env c info t -> no_unmarshal env (deref_type t) -> is_float env (deref_type t) = true ->
  fo_unsafe o = false -> exists e, decode_reflect (S k) env c bz info t v0 o bare = DRet (ptrs t (base_of env t v0)) 0 (Some e).
Proof.
  intros Hi Hm Hf Hu. unfold is_float in Hf. destruct (resolve env (deref_type t)) as [p| | | | | | | | | |] eqn:Er; try discriminate.
  rewrite (prim_decode _ _ _ _ _ _ _ _ _ _ Hi Hm Er). destruct p; try discriminate; cbn; rewrite Hu; cbn; eauto.
Qed.
Lemma float_exact env c k info t v0 o bare bits rest : minfo env c info t -> no_marshal env (deref_type t) -> no_unmarshal env (deref_type t) -> is_float env (deref_type t) = true ->
  has_type env (deref_type t) (VFloat bits) = true -> fo_unsafe o = true ->
  exists bz bits', encode_reflect (S k) env c info (VFloat bits) o bare = EOk bz /\
    decode_reflect (S k) env c (bz ++ rest) info t v0 o bare = DRet (ptrs t (VFloat bits')) (length bz) None /\
    (resolve env (deref_type t) = RPrim PFloat64 -> bits' = bits /\ length bz = 8%nat) /\
    (resolve env (deref_type t) = RPrim PFloat32 -> bits' = quiet32 bits /\ length bz = 4%nat).
Proof.
  intros Hi Hm Hu Hf Ht Hun. unfold is_float in Hf. destruct (resolve env (deref_type t)) as [p| | | | | | | | | |] eqn:Er; try discriminate.
  cbn [has_type] in Ht. rewrite Er in Ht.
  assert (E : exists bz, encode_prim p (VFloat bits) o = EOk bz /\ length bz = match p with PFloat32 => 4%nat | _ => 8%nat end).
  { destruct p; try discriminate; cbn [encode_prim]; rewrite Hun; eexists; (split; [reflexivity|apply put_le_length]). }
  destruct E as (bz & E & L'). assert (L : (length bz <= 8)%nat) by (destruct p; lia). exists bz, (match p with PFloat32 => quiet32 bits | _ => bits end).
  rewrite (prim_encode _ _ _ _ _ _ _ _ _ Hi Hm Er Ht), E. rewrite (prim_decode _ _ _ _ _ _ _ _ _ _ Hi Hu Er).
  rewrite (prim_rt p o (VFloat bits) bz (base_of env t v0) rest Ht) by (try assumption; unfold zlen; lia).
  destruct p; try discriminate; (split; [reflexivity|split; [reflexivity|]]); split; intros X; try discriminate X; auto.
Qed.

(** Lists of floats. *)
Lemma float_list_encode env c k e einfo l o : wf_env env -> minfo env c einfo e -> no_marshal env (deref_type e) -> is_float env (deref_type e) = true ->
  forallb (has_type env e) l = true -> fo_unsafe o = false -> l <> [] ->
  exists err, encode_packed env (encode_reflect (S k) env c) e einfo l o = EErr err.
Proof.
  intros We Hi Hm Hf Ht Hu Hl. destruct l as [|v l]; [congruence|]. cbn [forallb] in Ht. apply andb_true_iff in Ht. destruct Ht as [Hv _].
  cbn [encode_packed]. rewrite deref_zero_under.
  assert (T : has_type env (deref_type e) (match under v with Some w => w | None => zero env (deref_type e) end) = true).
  { destruct (under v) as [w|] eqn:E; [eapply under_typed; eassumption|]. apply has_type_zero. exact We. }
  destruct (float_encode env c k einfo e _ o false Hi Hm Hf T Hu) as [err ->]. cbn [ebind]. eauto.
Qed.
Lemma float_slice_decode env c k e einfo o m bz n : minfo env c einfo e -> no_unmarshal env (deref_type e) -> is_float env (deref_type e) = true ->
  fo_unsafe o = false -> bz <> [] -> (0 < m)%nat ->
  exists n' err, decode_slice_packed env (decode_reflect (S k) env c) m bz n einfo e o [] = DRet [] n' (Some err).
Proof.
  intros Hi Hm Hf Hu Hb Hm0. destruct m as [|m]; [lia|]. destruct bz as [|x bz]; [congruence|]. cbn [decode_slice_packed].
  destruct (float_decode env c k (x :: bz) einfo e (zero env e) o false Hi Hm Hf Hu) as [err ->]. cbn [dbind]. rewrite slide_le by lia. eexists _, _. reflexivity.
Qed.

(** A type that holds floats behind pointers or in a list, with no methods on the way. *)
Definition float_base (env : tenv) (t : gotype) : Prop :=
  is_float env (deref_type t) = true /\ no_marshal env (deref_type t) /\ no_unmarshal env (deref_type t).
Definition float_list (env : tenv) (t : gotype) (e : gotype) : Prop :=
  (resolve env t = RSlice e \/ exists n, resolve env t = RArray n e) /\ no_marshal env t /\ no_unmarshal env t /\ float_base env e.

Lemma float_resolve env t : is_float env t = true -> exists p, resolve env t = RPrim p /\ (p = PFloat32 \/ p = PFloat64).
Proof. unfold is_float. destruct (resolve env t) as [p| | | | | | | | | |]; try discriminate. destruct p; try discriminate; eauto. Qed.
Lemma list_nonptr env t e : resolve env t = RSlice e \/ (exists n, resolve env t = RArray n e) -> deref_type t = t.
Proof. intros [H|[n H]]; destruct t; try reflexivity; discriminate. Qed.
Lemma float_typ3 env t o : is_float env t = true -> exists z, type_to_typ3 env t o = EOk z /\ (z =? Typ3ByteLength) = false.
Proof.
  intros H. destruct (float_resolve _ _ H) as (p & Hr & [-> | ->]); unfold type_to_typ3; rewrite Hr; eexists; split; reflexivity.
Qed.
Lemma float_not_list env e : float_base env e -> is_list_kind env e = false /\ is_uint8 env e = false /\ is_iface (deref_type e) = false.
Proof.
  intros [H _]. destruct (float_resolve _ _ H) as (p & Hr & Hp).
  assert (I : is_iface (deref_type e) = false) by (destruct (deref_type e); try reflexivity; discriminate Hr).
  assert (Q : resolve env e = RPrim p \/ exists e', resolve env e = RPtr e') by (destruct e; cbn [deref_type] in Hr; auto; right; eexists; reflexivity).
  unfold is_list_kind, is_uint8. destruct Q as [Q|[e' Q]]; rewrite Q; destruct Hp as [-> | ->]; auto.
Qed.

Lemma write_field_err env rec num info o v we bare typ3 e : type_to_typ3 env (ti_type info) o = EOk typ3 -> 0 <= num < 2 ^ 29 ->
  rec info v o bare = EErr e -> write_field env rec num info o v we bare = EErr e.
Proof.
  intros Ht Hn Hr. unfold write_field. rewrite Ht. cbn [ebind].
  rewrite encode_field_key_ok by (pose proof (typ3_range _ _ _ _ Ht); lia). cbn [ebind]. rewrite Hr. reflexivity.
Qed.

Lemma default_under v : forall w, under v = Some w -> defaultv v = defaultv w.
Proof.
  induction v using value_ind'; intros w; cbn [under]; try (intros X; inversion X; reflexivity); try discriminate. apply IHv.
Qed.

Section FloatField.
  Variable env : tenv.
  Hypothesis We : wf_env env.
  Variable c : codec.
  Hypothesis Hs : sane_codec env c.
  Variable f : finfo.
  Variable info : tinfo.
  Hypothesis Hg : get_type_info env c (fi_type f) = EOk info.
  Hypothesis Hun : fo_unsafe (fi_opts f) = false.
  Hypothesis Hup : fi_unpacked f = false.
  Hypothesis Hnum : 0 <= fo_num (fi_opts f) < 2 ^ 29.

  Lemma float_ptr_field_enc k v w : float_base env (fi_type f) -> has_type env (fi_type f) v = true -> under v = Some w ->
    exists e, encode_field env c (encode_reflect (S k) env c) f v = EErr e.
  Proof.
    intros (Hf & Hm & Hu) Ht Hw. unfold encode_field. rewrite Hg, default_pair, Hw. cbn [ebind].
    pose proof (gti_minfo _ _ _ _ Hs Hg) as Hi. pose proof (under_typed _ We _ _ _ Ht Hw) as Tw.
    assert (Hd : defaultv v = false).
    { rewrite (default_under v w Hw). destruct (float_resolve _ _ Hf) as (p & Hr & Hp). destruct w; cbn [has_type] in Tw; rewrite Hr in Tw; destruct Hp as [-> | ->]; try discriminate; reflexivity. }
    rewrite Hd, Hup. cbn [andb]. destruct (float_typ3 _ _ (fi_opts f) Hf) as (z & Hz & _).
    destruct (float_encode env c k info (fi_type f) w (fi_opts f) false Hi Hm Hf Tw Hun) as [e He].
    exists e. eapply write_field_err; try eassumption. rewrite (minfo_type _ _ _ _ Hi). exact Hz.
  Qed.

  Lemma float_list_field_enc k v l e einfo : float_list env (fi_type f) e -> get_type_info env c e = EOk einfo ->
    has_type env (fi_type f) v = true -> list_elems v = Some l -> l <> [] ->
    exists err, encode_field env c (encode_reflect (S (S k)) env c) f v = EErr err.
  Proof.
    intros (Hr & Hm & Hu & Hb) Hge Ht Hl Hne. pose proof (list_nonptr _ _ _ Hr) as Hd. pose proof (float_not_list _ _ Hb) as (N1 & N2 & N3).
    destruct Hb as (Hf & Hme & Hue).
    assert (Tl : forallb (has_type env e) l = true).
    { destruct v as [| | | | | |lv|[lv|]| | | | | | |]; try discriminate Hl; apply (f_equal (fun o => match o with Some x => x | None => [] end)) in Hl; cbn in Hl; subst;
      cbn [has_type] in Ht; destruct Hr as [Hr|[n Hr]]; rewrite Hr in Ht; try discriminate; try exact Ht; try congruence.
      apply andb_true_iff in Ht. tauto. }
    assert (Hv : under v = Some v /\ defaultv v = false) by (destruct v as [| | | | | |lv|[[|? ?]|]| | | | | | |]; try discriminate Hl; cbn in Hl |- *; split; congruence).
    unfold encode_field. rewrite Hg, default_pair. destruct Hv as [-> ->]. rewrite Hup. cbn [ebind andb].
    pose proof (gti_minfo _ _ _ _ Hs Hg) as Hi. pose proof (gti_minfo _ _ _ _ Hs Hge) as Hie.
    destruct (float_list_encode env c k e einfo l (fi_opts f) We Hie Hme Hf Tl Hun Hne) as [err He].
    destruct (float_typ3 _ _ (fi_opts f) Hf) as (z & Hz & Hz').
    exists err. eapply write_field_err; [| exact Hnum |].
    - rewrite (minfo_type _ _ _ _ Hi), Hd. unfold type_to_typ3. destruct Hr as [Hr|[n Hr]]; rewrite Hr; reflexivity.
    - rewrite (plain_encode _ _ _ _ (fi_type f)); try assumption; try (rewrite Hd; assumption); try (destruct v; try discriminate Hl; first [reflexivity|discriminate]).
      assert (EL : encode_list env c (encode_reflect (S k) env c) info v (fi_opts f) false = EErr err).
      { unfold encode_list. rewrite (minfo_type _ _ _ _ Hi), Hd.
        destruct Hr as [Hr|[n Hr]]; rewrite Hr, N2, Hge; cbn [ebind]; rewrite (minfo_type _ _ _ _ Hie), Hz; cbn [ebind]; rewrite Hl, Hz'; cbn [negb]; rewrite He; reflexivity. }
      unfold encode_switch. rewrite (minfo_type _ _ _ _ Hi), Hd. destruct Hr as [Hr|[n Hr]]; rewrite Hr, N2, N1; exact EL.
  Qed.

  (** A float field that decodes without error held nothing. *)
  Lemma float_field_dec k v bz last n l l' bz' last' n' :
    (float_base env (fi_type f) \/ exists e einfo, float_list env (fi_type f) e /\ get_type_info env c e = EOk einfo) ->
    bytes_ok bz -> nth (fi_index f) l VInvalid = v -> has_type env (fi_type f) v = true ->
    decode_field env c (decode_reflect (S (S k)) env c) f l bz last n = DRet (l', bz', last') n' None ->
    l' = upd (fi_index f) (zero env (fi_type f)) l.
  Proof.
    intros Hsh Hok Hv Htv H. pose proof (gti_minfo _ _ _ _ Hs Hg) as Hi.
    assert (DV : default_value env (fi_type f) = zero env (fi_type f)).
    { unfold default_value. destruct Hsh as [(Hf & _)|(e & einfo & (Hr & _) & _)].
      - destruct (float_resolve _ _ Hf) as (p & Hr & _). destruct (deref_type (fi_type f)); try reflexivity. discriminate.
      - rewrite (list_nonptr _ _ _ Hr). destruct Hr as [Hr|[m Hr]]; destruct (fi_type f); try reflexivity; discriminate. }
    unfold decode_field in H. rewrite Hg in H. cbn [eget] in H. rewrite Hup in H. rewrite Hv in H.
    destruct bz as [|x bz]; [inversion H; subst; rewrite DV; reflexivity|].
    destruct (decode_field_key_ret (x :: bz)) as ([fnum typ] & m & e & E & Hm). rewrite E in H. cbn [dbind] in H.
    destruct (fo_num (fi_opts f) <? fnum) eqn:E1; [inversion H; subst; rewrite DV; reflexivity|].
    destruct (fnum <=? last) eqn:E2; [discriminate|]. rewrite slide_le in H by assumption. destruct e; [discriminate|].
    destruct (negb _) eqn:E3 in H; [discriminate|]. destruct (type_to_typ3 env (ti_type info) (fi_opts f)) as [tw| | |]; cbn [eget] in H; try discriminate.
    destruct (negb _) eqn:E4 in H; [discriminate|]. remember (skipn m (x :: bz)) as bz1 eqn:Eb.
    assert (Hok1 : bytes_ok bz1) by (subst bz1; apply bytes_ok_skipn; assumption).
    destruct Hsh as [(Hf & Hma & Hu)|(el & einfo & (Hr & Hma & Hu & Hb) & Hge)].
    - destruct (float_decode env c (S k) bz1 info (fi_type f) v (fi_opts f) false Hi Hu Hf Hun) as [err Hdd]. rewrite Hdd in H. cbn [dbind] in H.
      rewrite slide_le in H by lia. discriminate.
    - pose proof (list_nonptr _ _ _ Hr) as Hd. pose proof (float_not_list _ _ Hb) as (N1 & N2 & N3). destruct Hb as (Hf & Hme & Hue).
      pose proof (gti_minfo _ _ _ _ Hs Hge) as Hie. destruct (float_typ3 _ _ (fi_opts f) Hf) as (z & Hz & Hz').
      rewrite plain_decode in H by (try assumption; rewrite ?Hd; try assumption; destruct Hr as [Hr|[q Hr]]; destruct (fi_type f); try reflexivity; discriminate).
      rewrite base_nonptr in H by assumption.
      assert (SW : exists dv m2 er, decode_switch env c (decode_reflect (S k) env c) bz1 info v (fi_opts f) false = DRet dv m2 er /\ (er = None -> dv = zero env (fi_type f))).
      { unfold decode_switch. rewrite (minfo_type _ _ _ _ Hi), Hd. destruct Hr as [Hr|[q Hr]]; rewrite Hr, N2.
        - unfold decode_slice. rewrite N2, Hge. cbn [eget]. unfold enter.
          destruct (decode_byte_slice_ret bz1) as (b & nb & eb & Hb1 & Hb2). rewrite Hb1. cbn [dbind]. rewrite slide_le by assumption.
          destruct eb as [eb|]; [eexists _, _, _; split; [reflexivity|discriminate]|].
          rewrite (minfo_type _ _ _ _ Hie), Hz. cbn [eget]. rewrite Hz'. cbn [negb].
          destruct b as [|y b].
          + cbn. eexists _, _, _. split; [reflexivity|]. intros _. symmetry. eapply zero_slice; eassumption.
          + destruct (float_slice_decode env c k el einfo (fi_opts f) (length (y :: b)) (y :: b) (Z.to_nat (uvarint_size (zlen (y :: b)))) Hie Hue Hf Hun ltac:(discriminate) ltac:(cbn; lia)) as (nn & err & ->).
            cbn [dbind]. eexists _, _, _. split; [reflexivity|discriminate].
        - unfold decode_array. rewrite N2. destruct v as [| | | | | |l0|[lv|]|[?|]| | [?|]| [?|]| | |]; cbn [has_type] in Htv; rewrite Hr in Htv; try discriminate Htv.
          rewrite Hge. cbn [eget]. unfold enter.
          destruct (decode_byte_slice_ret bz1) as (b & nb & eb & Hb1 & Hb2). rewrite Hb1. cbn [dbind]. rewrite slide_le by assumption.
          destruct eb as [eb|]; [eexists _, _, _; split; [reflexivity|discriminate]|].
          rewrite (minfo_type _ _ _ _ Hie), Hz. cbn [eget]. rewrite Hz'. cbn [negb].
          destruct l0 as [|w l0]; cbn [decode_array_packed dbind].
          + apply andb_true_iff in Htv. destruct Htv as [Hq _]. apply Nat.eqb_eq in Hq. cbn in Hq. subst q.
            destruct b; eexists _, _, _; (split; [reflexivity|]); try discriminate. intros _. rewrite (zero_array _ _ _ _ We Hr). reflexivity.
          + destruct (float_decode env c k b einfo el w (fi_opts f) false Hie Hue Hf Hun) as [err ->]. cbn [dbind]. rewrite slide_le by lia.
            cbn [wrap_err]. eexists _, _, _. split; [reflexivity|discriminate]. }
      destruct SW as (dv & m2 & er & SW1 & SW2). rewrite SW1 in H. cbn [dmap dbind] in H. unfold slide in H. destruct (_ <? m2)%nat; [discriminate|].
      inversion H; subst er. rewrite SW2 by reflexivity. rewrite ptrs_nonptr by assumption. reflexivity.
  Qed.
End FloatField.

(** ** Types with methods *)

Lemma method_encode env c k info t id r f v o bare : minfo env c info t -> deref_type t = TNamed id -> te_marshal env id = Some (MOk r f) ->
  val_is_ptr v = false -> v <> VInvalid ->
  encode_reflect (S k) env c info v o bare =
  ebind (f v) (fun w => ebind (get_type_info env c r) (fun rinfo => encode_reflect k env c rinfo w o bare)).
Proof.
  intros Hi Hd Hm Hp Hv. cbn [encode_reflect]. destruct info as [ci|ii]; [|destruct Hi as [_ Hi]; congruence].
  destruct Hi as [H1 H2]. rewrite Hd in H1. pose proof (minfo_method _ _ _ H1 H2) as U.
  destruct ci as [ct cf [m|] cu cr]; cbn [ci_marshal ci_type] in *; [|rewrite (U _ eq_refl) in Hm; discriminate].
  destruct U as (id' & f' & Ht & Hg & _). inversion Ht; subst id'. rewrite Hm in Hg. inversion Hg; subst m f'. subst ct.
  unfold to_repr. rewrite Hm. destruct v; try discriminate Hp; try congruence; reflexivity.
Qed.
Lemma method_decode env c k bz info t id r g v0 o bare rinfo : minfo env c info t -> deref_type t = TNamed id -> te_unmarshal env id = Some (UOk r g) ->
  get_type_info env c r = EOk rinfo ->
  decode_reflect (S k) env c bz info t v0 o bare =
  dmap (ptrs t) (dbind (decode_reflect k env c bz rinfo r (zero env r) o bare) (fun w n e =>
    slide bz n (fun _ => match e with
    | Some e => DRet (base_of env t v0) n (Some e)
    | None => match g (base_of env t v0) w with
              | EOk (v, e) => DRet v n e
              | EErr e => DRet (base_of env t v0) n (Some e)
              | EPanic p => DPanic p
              | EFuel => DFuel
              end
    end))).
Proof.
  intros Hi Hd Hm Hr. cbn [decode_reflect]. destruct info as [ci|ii]; [|destruct Hi as [_ Hi]; congruence].
  destruct Hi as [H1 H2]. rewrite Hd in H1. pose proof (minfo_unmethod _ _ _ H1 H2) as U. change (rebuild t) with (ptrs t).
  destruct ci as [ct cf cm [u|] cr]; cbn [ci_unmarshal ci_type] in *; [|rewrite (U _ eq_refl) in Hm; discriminate].
  destruct U as (id' & f' & Ht & Hg & _). inversion Ht; subst id'. rewrite Hm in Hg. inversion Hg; subst u f'. subst ct.
  rewrite Hr. cbn [eget]. unfold from_repr. rewrite Hm.
  destruct t; try discriminate Hd; cbv iota beta zeta.
  all: f_equal; destruct (decode_reflect k env c bz rinfo r (zero env r) o bare) as [w n e| |]; cbn [dbind]; try reflexivity;
    unfold slide; destruct (_ <? n)%nat; try reflexivity; destruct e; try reflexivity; destruct (g _ w) as [[v er]| | |]; reflexivity.
Qed.

(** ** Decoders that leave the target alone on error *)

Definition atomic (env : tenv) (t : gotype) : bool :=
  match resolve env t with
  | RPrim _ | RTime | RSlice _ => true
  | RArray _ e => is_uint8 env e
  | _ => false
  end.

Lemma atomic_switch env c rec bz info t v0 o bare v n e : minfo env c info t -> deref_type t = t -> atomic env t = true ->
  decode_switch env c rec bz info v0 o bare = DRet v n (Some e) -> v = v0.
Proof.
  intros Hi Hd Ha H. unfold decode_switch in H. rewrite (minfo_type _ _ _ _ Hi), Hd in H. unfold atomic in Ha.
  destruct (resolve env t) as [p| |m el|el| | | | | | |] eqn:Er; try discriminate Ha.
  - destruct (decode_prim_ret p v0 bz o) as [(v' & n' & E)|(n' & e' & E)]; rewrite E in H; [discriminate|]. inversion H. reflexivity.
  - destruct info as [ci|ii]; [|discriminate]. destruct Hi as [H1 _]. rewrite Hd in H1. unfold decode_struct, enter in H. rewrite H1, Er in H.
    assert (K : forall b n0, dbind (decode_time b) (fun t n e => slide b n (fun _ => match e with Some e => DRet v0 (n0 + n)%nat (Some e) | None => DRet (VTime (fst t) (snd t)) (n0 + n)%nat None end)) = DRet v n (Some e) -> v = v0).
    { intros b n0. destruct (decode_time b) as [tt n1 [e1|]| |]; cbn [dbind]; try discriminate; unfold slide; destruct (_ <? n1)%nat; try discriminate. intros X. inversion X. reflexivity. }
    destruct bare; [eapply K; exact H|].
    destruct (decode_byte_slice bz) as [b nb eb| |]; cbn [dbind] in H; try discriminate. unfold slide in H at 1. destruct (_ <? nb)%nat in H; [discriminate|].
    destruct eb; [inversion H; reflexivity|]. eapply K; exact H.
  - rewrite Ha in H. unfold decode_byte_array in H. destruct (_ <? m)%nat; [inversion H; reflexivity|].
    destruct (decode_byte_slice bz) as [b nb eb| |]; cbn [dbind] in H; try discriminate. unfold slide in H. destruct (_ <? nb)%nat; [discriminate|].
    destruct eb; [inversion H; reflexivity|]. destruct (negb _); [inversion H; reflexivity|]. destruct (gotype_eqb _ _); discriminate.
  - destruct (is_uint8 env el) eqn:Eu.
    + unfold decode_byte_slice_val in H. destruct bz as [|x bz]; [discriminate|].
      destruct (decode_byte_slice (x :: bz)) as [b nb eb| |]; cbn [dbind] in H; try discriminate. unfold slide in H. destruct (_ <? nb)%nat; [discriminate|].
      destruct eb; [inversion H; reflexivity|]. destruct b; [discriminate|]. destruct (gotype_eqb _ _); discriminate.
    + unfold decode_slice in H. rewrite Eu in H. destruct (get_type_info env c el) as [einfo| | |]; cbn [eget] in H; try discriminate; [|inversion H; reflexivity].
      assert (K : forall b n0, eget (type_to_typ3 env (ti_type einfo) o) (fun e => DRet v0 n0 (Some e)) (fun typ3 =>
        dbind (if negb (typ3 =? Typ3ByteLength) then decode_slice_packed env rec (length b) b n0 einfo el o []
               else decode_slice_unpacked env rec (length b) b n0 einfo el o []) (fun l n e =>
        match e with Some e => DRet v0 n (Some e) | None => DRet (mk_slice l) n None end)) = DRet v n (Some e) -> v = v0).
      { intros b n0. destruct (type_to_typ3 env (ti_type einfo) o) as [z| | |]; cbn [eget]; try discriminate; [|intros X; inversion X; reflexivity].
        destruct (if negb (z =? Typ3ByteLength) then _ else _) as [l n1 [e1|]| |]; cbn [dbind]; try discriminate. intros X. inversion X. reflexivity. }
      unfold enter in H. destruct bare; [eapply K; exact H|].
      destruct (decode_byte_slice bz) as [b nb eb| |]; cbn [dbind] in H; try discriminate. unfold slide in H at 1. destruct (_ <? nb)%nat in H; [discriminate|].
      destruct eb; [inversion H; reflexivity|]. eapply K; exact H.
Qed.

(** A type is all-or-nothing when it is atomic, or has an UnmarshalAmino method
    that leaves its receiver alone on error. *)
Definition all_or_nothing (env : tenv) (t : gotype) : Prop :=
  match (match t with TNamed id => te_unmarshal env id | _ => None end) with
  | Some (UOk r g) => forall v0 w v e, g v0 w = EOk (v, Some e) -> v = v0
  | Some (UBad _) => True
  | None => atomic env t = true
  end.
Lemma decode_keeps env c k bz info t v0 o bare v n e : minfo env c info t -> deref_type t = t -> all_or_nothing env t ->
  decode_reflect k env c bz info t v0 o bare = DRet v n (Some e) -> v = v0.
Proof.
  intros Hi Hd Ha H. destruct k as [|k]; [discriminate|]. unfold all_or_nothing in Ha.
  assert (P : is_iface t = false -> no_unmarshal env t -> atomic env t = true -> v = v0).
  { intros Hif Hu At. rewrite plain_decode in H by (rewrite ?Hd; assumption). rewrite base_nonptr in H by assumption.
    destruct (decode_switch env c _ bz info v0 o bare) as [v1 n1 e1| |] eqn:E; cbn in H; try discriminate. inversion H; subst.
    rewrite ptrs_nonptr by assumption. eapply atomic_switch; eassumption. }
  assert (I : atomic env t = true -> is_iface t = false) by (unfold atomic; destruct t; try reflexivity; discriminate).
  assert (NI : forall id, t = TNamed id -> te_unmarshal env id <> None -> v = v0).
  { intros id Ht Hn. destruct (te_unmarshal env id) as [[p|r g]|] eqn:Em; [| |congruence].
    - exfalso. destruct info as [ci|ii]; [|destruct Hi as [_ Hi]; rewrite Hd, Ht in Hi; discriminate]. destruct Hi as [H1 H2]. rewrite Hd, Ht in H1.
      pose proof (minfo_unmethod _ _ _ H1 H2) as U. destruct (ci_unmarshal ci).
      + destruct U as (id' & g0 & X & Y & _). inversion X; subst id'. congruence.
      + rewrite (U _ eq_refl) in Em. discriminate.
    - subst t. rewrite Em in Ha.
      assert (G : exists r0, get_type_info env c r = r0) by eauto. destruct G as [[rinfo|er|p|] G].
      + rewrite (method_decode env c k bz info (TNamed id) id r g v0 o bare rinfo) in H by (try assumption; reflexivity).
        destruct (decode_reflect k env c bz rinfo r (zero env r) o bare) as [w n1 e1| |]; cbn in H; try discriminate.
        unfold slide in H. destruct (_ <? n1)%nat; [discriminate|]. destruct e1 as [e1|]; [inversion H; reflexivity|].
        destruct (g v0 w) as [[v1 [e2|]]| | |] eqn:Eg; cbn in H; try discriminate; inversion H; subst; [eapply Ha; eassumption|reflexivity].
      + destruct info as [ci|ii]; [|destruct Hi as [_ Hi]; discriminate]; destruct Hi as [H1 H2]; cbn [deref_type] in H1; pose proof (minfo_unmethod _ _ _ H1 H2) as U;
          destruct ci as [ct cf cm [u|] cr]; cbn [ci_unmarshal ci_type] in *; [|rewrite (U _ eq_refl) in Em; discriminate];
          destruct U as (id' & f' & Ht' & Hg' & _); inversion Ht'; subst id'; rewrite Em in Hg'; inversion Hg'; subst u f'; subst ct;
          cbn [decode_reflect] in H; rewrite G in H; cbn in H; try discriminate; inversion H; reflexivity.
      + destruct info as [ci|ii]; [|destruct Hi as [_ Hi]; discriminate]; destruct Hi as [H1 H2]; cbn [deref_type] in H1; pose proof (minfo_unmethod _ _ _ H1 H2) as U;
          destruct ci as [ct cf cm [u|] cr]; cbn [ci_unmarshal ci_type] in *; [|rewrite (U _ eq_refl) in Em; discriminate];
          destruct U as (id' & f' & Ht' & Hg' & _); inversion Ht'; subst id'; rewrite Em in Hg'; inversion Hg'; subst u f'; subst ct;
          cbn [decode_reflect] in H; rewrite G in H; cbn in H; try discriminate; inversion H; reflexivity.
      + destruct info as [ci|ii]; [|destruct Hi as [_ Hi]; discriminate]; destruct Hi as [H1 H2]; cbn [deref_type] in H1; pose proof (minfo_unmethod _ _ _ H1 H2) as U;
          destruct ci as [ct cf cm [u|] cr]; cbn [ci_unmarshal ci_type] in *; [|rewrite (U _ eq_refl) in Em; discriminate];
          destruct U as (id' & f' & Ht' & Hg' & _); inversion Ht'; subst id'; rewrite Em in Hg'; inversion Hg'; subst u f'; subst ct;
          cbn [decode_reflect] in H; rewrite G in H; cbn in H; try discriminate; inversion H; reflexivity. }
  destruct t; try (apply P; [apply I; assumption|intros id X; discriminate X|assumption]).
  destruct (te_unmarshal env id) eqn:Em.
  - apply (NI id eq_refl). congruence.
  - apply P; [reflexivity| |exact Ha]. intros id' X. inversion X; subst. exact Em.
Qed.

Lemma unmarshal_keeps env c k bz t v0 v e : sane_codec env c -> deref_type t = t -> all_or_nothing env t ->
  unmarshal_bare k env c bz t v0 = URet v (Some e) -> v = v0 \/ e = "unmarshal didn't read all bytes"%string.
Proof.
  intros Hs Hd Ha H. rewrite unmarshal_eq in H. destruct (get_type_info env c t) as [info|er|p|] eqn:Hg; try discriminate; [|inversion H; auto].
  pose proof (gti_minfo _ _ _ _ Hs Hg) as Hi. cbv zeta in H.
  assert (B : forall b, um_body env (fun b bare => decode_reflect k env c b info t v0 top_opts bare) (ti_type info) t v0 b = URet v (Some e) ->
    v = v0 \/ e = "unmarshal didn't read all bytes"%string).
  { intros b. assert (F : forall b bare, um_finish b (decode_reflect k env c b info t v0 top_opts bare) = URet v (Some e) -> v = v0 \/ e = "unmarshal didn't read all bytes"%string).
    { intros b' bare. destruct (decode_reflect k env c b' info t v0 top_opts bare) as [v1 n1 [e1|]| |] eqn:E; cbn; try discriminate.
      - intros X. inversion X; subst. left. eapply decode_keeps; eassumption.
      - destruct (negb _); intros X; inversion X. auto. }
    unfold um_body. destruct (if is_struct_or_repeated_struct env (ti_type info) then _ else _) as [st| | |]; try discriminate; [|intros X; inversion X; auto].
    destruct (_ && _); [|apply F]. destruct (decode_field_key b) as [[fn ty] nk [ek|]| |]; try discriminate; [intros X; inversion X; auto|].
    destruct (negb _); [intros X; inversion X; auto|]. destruct (type_to_typ3 env (ti_type info) no_opts); try discriminate; [|intros X; inversion X; auto].
    destruct (negb _); [intros X; inversion X; auto|]. destruct (Nat.ltb (length b) nk); [intros X; discriminate X|]. apply F. }
  destruct info as [ci|ii]; [|eapply B; exact H]. destruct (ci_reg ci); [|eapply B; exact H].
  destruct (_ <? 4)%nat; [inversion H; auto|]. destruct (negb _); [inversion H; auto|]. eapply B; exact H.
Qed.
