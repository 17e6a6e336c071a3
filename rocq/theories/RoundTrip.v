(** What is encoded can be decoded, and reads as its normal form. *)
From Coq Require Import ZArith String List Bool Lia.
From Coq Require Import ZifyBool ZifyNat.
From Verif Require Import Base Prims SpecWire PrimFacts PrimProps Types Codec BinEnc BinDec Amino DecFacts
  ValueInd Typing Registry SpecRegistry RegistryFacts Sane DecSafe SpecNorm EncFacts.
Import ListNotations.
Local Open Scope Z_scope.

(** ** Scalars *)

Lemma set_scalar_app {A} v0 b rest (r : dres A) f a v : r = DRet a (length b) None -> f a = DRet v 0 None ->
  set_scalar v0 (b ++ rest) r f = DRet v (length b) None.
Proof. intros -> Hf. unfold set_scalar. cbn [dbind]. rewrite slide_app by reflexivity. rewrite Hf. reflexivity. Qed.

Lemma narrow_ok r lo hi msg conv z n : r = DRet z n None -> lo <= z <= hi -> conv z = z ->
  narrow r lo hi msg conv = DRet z n None.
Proof.
  intros -> H1 H2. unfold narrow.
  destruct (Z.ltb_spec z lo); [lia|]. destruct (Z.ltb_spec hi z); [lia|]. cbn [orb]. rewrite H2. reflexivity.
Qed.

Lemma f32conv_idem b : f32conv (f32conv b) = f32conv b.
Proof.
  assert (H : f32conv b = b \/ f32conv b = Z.lor b (2 ^ 22)) by (unfold f32conv; destruct (_ && _); auto).
  destruct H as [H|H]; rewrite H; [exact H|]. unfold f32conv; destruct (_ && _); [|reflexivity].
  rewrite <- Z.lor_assoc, Z.lor_diag. reflexivity.
Qed.

Lemma prim_rt p o v bz v0 rest : prim_has p v = true -> zlen bz < 2 ^ 63 -> encode_prim p v o = EOk bz ->
  decode_prim p v0 (bz ++ rest) o =
    DRet (match p, v with PFloat32, VFloat b => VFloat (quiet32 b) | _, _ => v end) (length bz) None.
Proof.
  intros Hp Hl H.
  assert (P31 : 2 ^ 31 = 2147483648) by reflexivity. assert (P63 : 2 ^ 63 = 9223372036854775808) by reflexivity.
  assert (P32 : 2 ^ 32 = 4294967296) by reflexivity. assert (P64 : 2 ^ 64 = 18446744073709551616) by reflexivity.
  destruct p, v; try discriminate; cbn [encode_prim prim_has decode_prim] in *;
    unfold in_int, in_uint in Hp.
  - apply EOk_inj in H; subst bz. destruct b; reflexivity.
  - apply EOk_inj in H; subst bz. change (64 - 1) with 63 in Hp.
    eapply set_scalar_app; [apply decode_uvarint_encode, u64_range|]. cbv beta. rewrite i64_u64 by lia.
    replace ((2 ^ 63 - 1 <? z) || (z <? - 2 ^ 63)) with false by lia. reflexivity.
  - apply EOk_inj in H; subst bz. change (8 - 1) with 7 in Hp. unfold encode_int8. rewrite iwrap_small by (change (8 - 1) with 7; lia).
    eapply set_scalar_app; [|reflexivity].
    apply narrow_ok; [apply decode_varint_encode; lia|lia|apply iwrap_small; change (8 - 1) with 7; lia].
  - apply EOk_inj in H; subst bz. change (16 - 1) with 15 in Hp. unfold encode_int16. rewrite iwrap_small by (change (16 - 1) with 15; lia).
    eapply set_scalar_app; [|reflexivity].
    apply narrow_ok; [apply decode_varint_encode; lia|lia|apply iwrap_small; change (16 - 1) with 15; lia].
  - change (32 - 1) with 31 in Hp. destruct (fo_fixed32 o); apply EOk_inj in H; subst bz.
    + eapply set_scalar_app; [|reflexivity]. unfold encode_int32. rewrite i32_small by lia.
      unfold decode_int32. rewrite decode_fixed_encode by (change (256 ^ Z.of_nat 4) with (2 ^ 32); apply u32_range).
      rewrite put_le_length, i32_u32 by lia. reflexivity.
    + eapply set_scalar_app; [apply decode_uvarint_encode, u64_range|]. cbv beta. rewrite i64_u64 by lia.
      replace ((2 ^ 31 - 1 <? z) || (z <? - 2 ^ 31)) with false by lia. reflexivity.
  - change (64 - 1) with 63 in Hp. destruct (fo_fixed64 o); apply EOk_inj in H; subst bz.
    + eapply set_scalar_app; [|reflexivity]. unfold encode_int64.
      unfold decode_int64. rewrite decode_fixed_encode by (change (256 ^ Z.of_nat 8) with (2 ^ 64); apply u64_range).
      rewrite put_le_length, i64_u64 by lia. reflexivity.
    + eapply set_scalar_app; [apply decode_uvarint_encode, u64_range|]. cbv beta. rewrite i64_u64 by lia. reflexivity.
  - apply EOk_inj in H; subst bz. eapply set_scalar_app; [apply decode_uvarint_encode; lia|reflexivity].
  - apply EOk_inj in H; subst bz. unfold encode_uint8. assert (U : uwrap 8 z = z) by (apply Z.mod_small; lia). rewrite !U.
    eapply set_scalar_app; [|reflexivity].
    apply narrow_ok; [apply decode_uvarint_encode; lia|lia|exact U].
  - apply EOk_inj in H; subst bz. unfold encode_uint16. assert (U : uwrap 16 z = z) by (apply Z.mod_small; lia). rewrite !U.
    eapply set_scalar_app; [|reflexivity].
    apply narrow_ok; [apply decode_uvarint_encode; lia|lia|exact U].
  - destruct (fo_fixed32 o); apply EOk_inj in H; subst bz.
    + eapply set_scalar_app; [|reflexivity]. unfold encode_uint32. rewrite u32_small by lia.
      unfold decode_uint32. rewrite decode_fixed_encode by (change (256 ^ Z.of_nat 4) with (2 ^ 32); lia).
      rewrite put_le_length. reflexivity.
    + eapply set_scalar_app; [apply decode_uvarint_encode; lia|]. cbv beta. rewrite u32_small by lia. reflexivity.
  - destruct (fo_fixed64 o); apply EOk_inj in H; subst bz.
    + eapply set_scalar_app; [|reflexivity]. unfold encode_uint64.
      unfold decode_uint64. rewrite decode_fixed_encode by (change (256 ^ Z.of_nat 8) with (2 ^ 64); lia).
      rewrite put_le_length. reflexivity.
    + eapply set_scalar_app; [apply decode_uvarint_encode; lia|]. reflexivity.
  - destruct (fo_unsafe o); [|discriminate]. apply EOk_inj in H; subst bz. cbn [negb].
    eapply set_scalar_app.
    + unfold encode_float32, encode_uint32, decode_float32.
      rewrite decode_fixed_encode by (change (256 ^ Z.of_nat 4) with (2 ^ 32); apply f32conv_range; lia).
      rewrite put_le_length. reflexivity.
    + cbv beta. rewrite f32conv_idem. reflexivity.
  - destruct (fo_unsafe o); [|discriminate]. apply EOk_inj in H; subst bz. cbn [negb].
    eapply set_scalar_app; [|reflexivity].
    unfold encode_float64, encode_uint64, decode_float64.
    rewrite decode_fixed_encode by (change (256 ^ Z.of_nat 8) with (2 ^ 64); lia).
    rewrite put_le_length. reflexivity.
  - apply EOk_inj in H; subst bz. eapply set_scalar_app; [|reflexivity].
    apply decode_byte_slice_encode. unfold encode_string in Hl. pose proof (zlen_byte_slice s). lia.
Qed.

(** ** Bytes *)

Lemma val_bytes_val env e l : is_uint8 env e = true -> forallb (has_type env e) l = true -> bytes_val (val_bytes l) = l.
Proof.
  intros He. unfold is_uint8 in He. destruct (resolve env e) as [p| | | | | | | | | |] eqn:Er; try discriminate. destruct p; try discriminate.
  induction l as [|v l IH]; intros H; [reflexivity|]. cbn [forallb] in H. apply andb_true_iff in H. destruct H as [Hv Hl].
  cbn [val_bytes bytes_val map]. f_equal; [|apply IH; assumption].
  rewrite (has_type_prim _ _ _ _ Er) in Hv. destruct v; try discriminate. reflexivity.
Qed.

Lemma byte_array_rt env e n l v0 rest : is_uint8 env e = true -> gotype_eqb e (TPrim PUint8) = true ->
  forallb (has_type env e) l = true -> length l = n -> zlen (encode_byte_slice (val_bytes l)) < 2 ^ 63 ->
  decode_byte_array (encode_byte_slice (val_bytes l) ++ rest) n e v0
  = DRet (VArr l) (length (encode_byte_slice (val_bytes l))) None.
Proof.
  intros Hu Hg Ht Hl Hz. unfold decode_byte_array. pose proof (byte_slice_len (val_bytes l)) as L.
  pose proof (zlen_byte_slice (val_bytes l)) as L2.
  assert (Lv : length (val_bytes l) = n) by (unfold val_bytes; rewrite map_length; exact Hl).
  destruct (Nat.ltb_spec (length (encode_byte_slice (val_bytes l) ++ rest)) n); [rewrite app_length in *; lia|].
  rewrite decode_byte_slice_encode by lia. cbn [dbind]. rewrite slide_app by reflexivity.
  rewrite Lv, Nat.eqb_refl, Hg. cbn [negb]. rewrite (val_bytes_val env e) by assumption. reflexivity.
Qed.
Lemma byte_slice_rt env e l v0 rest : is_uint8 env e = true -> (l <> [] -> gotype_eqb e (TPrim PUint8) = true) ->
  forallb (has_type env e) l = true -> zlen (encode_byte_slice (val_bytes l)) < 2 ^ 63 ->
  decode_byte_slice_val (encode_byte_slice (val_bytes l) ++ rest) e v0
  = DRet (slice_of l) (length (encode_byte_slice (val_bytes l))) None.
Proof.
  intros Hu Hg Ht Hz. unfold decode_byte_slice_val.
  pose proof (zlen_byte_slice (val_bytes l)) as L2.
  destruct (encode_byte_slice (val_bytes l) ++ rest) as [|x q] eqn:E.
  { apply app_eq_nil in E. destruct E as [E _]. exfalso. eapply byte_slice_nonnil. exact E. }
  rewrite <- E. rewrite decode_byte_slice_encode by lia. cbn [dbind]. rewrite slide_app by reflexivity.
  destruct l as [|v l]; [reflexivity|]. pose proof (val_bytes_val env e (v :: l) Hu Ht) as V.
  cbn [val_bytes map]. rewrite Hg by discriminate. cbn [val_bytes map] in V. rewrite V. reflexivity.
Qed.

(** ** Frames *)

(** What may follow the entries of field [num]. *)
Definition key_after (num : Z) (bz : bytes) : Prop :=
  bz = [] \/ exists num' typ rest, bz = key_bytes num' typ ++ rest /\ num < num' < 2 ^ 29 /\ 0 <= typ < 8.

Lemma key_after_le a b bz : a <= b -> key_after b bz -> key_after a bz.
Proof. intros H [->|(n & t & r & -> & H1 & H2)]; [left; reflexivity|right]. exists n, t, r. splits; try reflexivity; lia. Qed.

Lemma enter_finish {A} (v0 : A) bare buf rest k : zlen buf < 2 ^ 63 ->
  exists n0 rest', enter v0 bare (finish bare buf ++ rest) k = k (buf ++ rest') n0 /\
    (n0 + length buf = length (finish bare buf))%nat /\ (bare = false -> rest' = []) /\ (bare = true -> rest' = rest).
Proof.
  intros Hz. destruct bare; cbn [enter finish].
  - exists 0%nat, rest. splits; try reflexivity. discriminate.
  - exists (Z.to_nat (uvarint_size (zlen buf))), []. rewrite decode_byte_slice_encode by assumption. cbn [dbind].
    rewrite slide_app by reflexivity. rewrite app_nil_r. splits; try reflexivity; [|discriminate].
    unfold encode_byte_slice. rewrite app_length. rewrite <- encode_uvarint_length by (unfold zlen in *; lia).
    unfold zlen. rewrite Nat2Z.id. reflexivity.
Qed.

Lemma ptrs_default t v : defaultv (ptrs t v) = defaultv v.
Proof. induction t; cbn [ptrs defaultv]; auto. Qed.
Lemma ptrs_nonptr t v : deref_type t = t -> ptrs t v = v.
Proof. intros H. pose proof (deref_is_ptr t) as P. rewrite H in P. destruct t; try reflexivity. discriminate. Qed.

(** ** One level of recursion *)

Section RT.
  Variable env : tenv.
  Hypothesis We : wf_env env.
  Variable c : codec.
  Hypothesis Hc : wf_codec env c.
  Hypothesis Hs : sane_codec env c.
  Hypothesis Hm : marshal_typed env.

  Section Step.
  Variable enc : tinfo -> value -> fopts -> bool -> eres bytes.
  Variable bl : gotype -> fopts -> value -> bool.
  Variable fw : gotype -> fopts -> bool.
  Variable nm : gotype -> fopts -> value -> option value.
  Hypothesis Hlead : lead_ok env c enc bl fw nm.

  Definition rt_ok (dec : bytes -> tinfo -> gotype -> value -> fopts -> bool -> dres value) : Prop :=
    forall info t v o bare bz v' rest tt w0,
    minfo env c info t -> deref_type t = t -> has_type env t v = true -> 0 <= fo_num o ->
    enc info v o bare = EOk bz -> zlen bz < 2 ^ 63 -> nm t o v = Some v' ->
    (bare = true -> rest = []) -> deref_type tt = t -> is_ptr tt && is_iface t = false ->
    base_of env tt w0 = zero env t ->
    dec (bz ++ rest) info tt w0 o bare = DRet (ptrs tt v') (length bz) None.

  Section Lists.
  Variable dec : bytes -> tinfo -> gotype -> value -> fopts -> bool -> dres value.
  Hypothesis Hdec : rt_ok dec.

  Lemma iface_delimited e : is_iface (deref_type e) = true -> delimited env e = true.
  Proof. clear. unfold delimited. destruct (deref_type e); try discriminate. reflexivity. Qed.

  (** One packed element. *)
  Lemma packed_elem e einfo v o b y rest : minfo env c einfo e -> has_type env e v = true -> 0 <= fo_num o ->
    delimited env e = false ->
    enc einfo (deref_pointers_zero env e v) o false = EOk b -> zlen b < 2 ^ 63 -> norm_packed env nm e o v = Some y ->
    b <> [] /\ exists w, dec (b ++ rest) einfo e (zero env e) o false = DRet w (length b) None /\ prefer_nil env e w = y.
  Proof.
    intros Hi Hv Hn Hd H Hz Hy. rewrite deref_zero_under in H. apply (packed_typed _ We) in Hv.
    unfold norm_packed in Hy. cbv zeta in Hy. destruct (nm _ _ _) as [w'|] eqn:Enm; [|discriminate]. inversion Hy; subst y; clear Hy.
    destruct (Hlead _ _ _ _ _ (minfo_deref _ _ _ _ Hi) (deref_idem e) Hv Hn H Hz) as [L1 L2]. split.
    - destruct (bl _ _ _); [rewrite (L1 eq_refl); discriminate|]. apply L2; [reflexivity|congruence].
    - exists (ptrs e w'). split.
      + eapply (Hdec einfo (deref_type e) _ o false b w' rest e); [apply minfo_deref; exact Hi|apply deref_idem|exact Hv|exact Hn|exact H|exact Hz|
          exact Enm|discriminate|reflexivity| |apply base_zero].
        destruct (is_iface (deref_type e)) eqn:Ei; [|apply andb_false_r]. apply iface_delimited in Ei. congruence.
      + unfold prefer_nil. rewrite default_eq, ptrs_default. destruct e; cbn [is_ptr andb]; reflexivity.
  Qed.

  Lemma slice_packed_rt e einfo o : minfo env c einfo e -> 0 <= fo_num o -> delimited env e = false ->
    forall l l' buf k n done, forallb (has_type env e) l = true -> opt_map (norm_packed env nm e o) l = Some l' ->
    encode_packed env enc e einfo l o = EOk buf -> zlen buf < 2 ^ 63 -> (length buf <= k)%nat ->
    decode_slice_packed env dec k buf n einfo e o done = DRet (done ++ l') (n + length buf) None.
  Proof.
    intros Hi Hn Hd. induction l as [|v l IH]; intros l' buf k n done Ht Hm' H Hz Hk; cbn [encode_packed opt_map forallb] in *.
    - apply EOk_inj in H. inversion Hm'; subst. cbn [length]. rewrite app_nil_r, Nat.add_0_r. destruct k; reflexivity.
    - einv H. einv H. apply EOk_inj in H. subst buf. apply andb_true_iff in Ht. destruct Ht as [Hv Hl].
      destruct (norm_packed env nm e o v) as [y|] eqn:Ey; [|discriminate]. destruct (opt_map _ l) as [r|] eqn:Er; [|discriminate].
      inversion Hm'; subst l'; clear Hm'. rewrite zlen_app in Hz. pose proof (zlen_nonneg a). pose proof (zlen_nonneg a0).
      destruct (packed_elem _ _ _ _ _ _ a0 Hi Hv Hn Hd E ltac:(lia) Ey) as (Hb & w & Hw & Hp).
      destruct a as [|x a]; [contradiction|]. destruct k as [|k]; [cbn in Hk; lia|].
      cbn [decode_slice_packed app]. rewrite app_comm_cons. rewrite Hw. cbn [dbind]. rewrite slide_app by reflexivity. rewrite Hp.
      rewrite (IH r) by (try assumption; try reflexivity; try lia; rewrite app_length in Hk; cbn in Hk; lia).
      rewrite <- app_assoc, app_length, Nat.add_assoc. reflexivity.
  Qed.
  Lemma array_packed_rt e einfo o rest : minfo env c einfo e -> 0 <= fo_num o -> delimited env e = false ->
    forall l l' buf n done, forallb (has_type env e) l = true -> opt_map (norm_packed env nm e o) l = Some l' ->
    encode_packed env enc e einfo l o = EOk buf -> zlen buf < 2 ^ 63 ->
    decode_array_packed env dec (buf ++ rest) n einfo e o done (repeat (zero env e) (length l)) = DRet (done ++ l', rest) (n + length buf) None.
  Proof.
    intros Hi Hn Hd. induction l as [|v l IH]; intros l' buf n done Ht Hm' H Hz; cbn [encode_packed opt_map forallb length repeat] in *.
    - apply EOk_inj in H. inversion Hm'; subst. cbn [length decode_array_packed app]. rewrite app_nil_r, Nat.add_0_r. reflexivity.
    - einv H. einv H. apply EOk_inj in H. subst buf. apply andb_true_iff in Ht. destruct Ht as [Hv Hl].
      destruct (norm_packed env nm e o v) as [y|] eqn:Ey; [|discriminate]. destruct (opt_map _ l) as [r|] eqn:Er; [|discriminate].
      inversion Hm'; subst l'; clear Hm'. rewrite zlen_app in Hz. pose proof (zlen_nonneg a). pose proof (zlen_nonneg a0).
      destruct (packed_elem _ _ _ _ _ _ (a0 ++ rest) Hi Hv Hn Hd E ltac:(lia) Ey) as (Hb & w & Hw & Hp).
      cbn [decode_array_packed]. rewrite <- app_assoc, Hw. cbn [dbind]. rewrite slide_app by reflexivity. rewrite Hp.
      rewrite (IH r) by (try assumption; try reflexivity; lia).
      rewrite <- app_assoc, app_length, Nat.add_assoc. reflexivity.
  Qed.

  (** One entry. *)
  Lemma entry_rt e einfo v o b y rest : minfo env c einfo e -> has_type env e v = true ->
    (let '(erv, isdef) := is_default_value v in
     (if isdef then
        if is_ptr e && is_struct env (ti_type einfo) && fo_empty_elements o
        then EErr "nil struct pointers not supported when empty_elements field tag is set"%string
        else EOk (encode_byte 0)
      else enc einfo erv (set_num 1 o) false)) = EOk b -> zlen b < 2 ^ 63 ->
    norm_entry env bl fw nm e o v = Some y ->
    (b = [0] /\ skip_empty env einfo e o (b ++ rest) = true /\ y = default_value env e) \/
    (b <> [] /\ skip_empty env einfo e o (b ++ rest) = false /\
     dec (b ++ rest) einfo e (zero env e) (set_num 1 o) false = DRet y (length b) None).
  Proof.
    intros Hi Hv H Hz Hy. rewrite default_pair in H. unfold norm_entry in Hy. cbv zeta in Hy.
    pose proof (minfo_type _ _ _ _ Hi) as Ety. unfold skip_empty. rewrite Ety in *.
    set (keep := is_ptr e && is_struct env (deref_type e) && fo_empty_elements o) in *. clearbody keep.
    destruct (defaultv v).
    - destruct keep; [discriminate|]. apply EOk_inj in H. inversion Hy; subst y. left. subst b.
      rewrite absent_eq. splits; reflexivity.
    - destruct (under v) as [w|] eqn:Eu; [|discriminate].
      pose proof (under_typed _ We _ _ _ Hv Eu) as Hw.
      destruct (Hlead einfo (deref_type e) w (set_num 1 o) b (minfo_deref _ _ _ _ Hi) (deref_idem e) Hw ltac:(change (0 <= 1); lia) H Hz) as [L1 L2].
      assert (D : forall y', is_ptr e && is_iface (deref_type e) = false -> nm (deref_type e) (set_num 1 o) w = Some y' ->
        dec (b ++ rest) einfo e (zero env e) (set_num 1 o) false = DRet (ptrs e y') (length b) None).
      { intros y' D1 D2. eapply (Hdec einfo (deref_type e) w (set_num 1 o) false b y' rest e); [apply minfo_deref; exact Hi|apply deref_idem|exact Hw|change (0 <= 1); lia|exact H|exact Hz|
          exact D2|discriminate|reflexivity|exact D1|apply base_zero]. }
      destruct keep; cbn [negb andb] in *.
      + destruct (is_ptr e && is_iface (deref_type e)); [discriminate|]. unfold option_map in Hy.
        destruct (nm _ _ _) as [y'|] eqn:En; [|discriminate]. inversion Hy; subst y. right. splits; [| |apply D; reflexivity].
        * destruct (bl _ _ _); [rewrite (L1 eq_refl); discriminate|apply L2; [reflexivity|discriminate]].
        * destruct (b ++ rest) as [|[]]; reflexivity.
      + destruct (bl _ _ _).
        * left. rewrite (L1 eq_refl). inversion Hy; subst y. rewrite absent_eq. splits; reflexivity.
        * destruct (fw _ _); [discriminate|]. destruct (is_ptr e && is_iface (deref_type e)); [discriminate|]. unfold option_map in Hy.
          destruct (nm _ _ _) as [y'|] eqn:En; [|discriminate]. inversion Hy; subst y. right.
          destruct (L2 eq_refl) as (N1 & _ & N2); [discriminate|]. specialize (N2 eq_refl). splits; [exact N1| |apply D; reflexivity].
          destruct b as [|x b]; [contradiction|]. cbn [app]. destruct x; [contradiction| |]; reflexivity.
  Qed.

  Lemma slice_unpacked_rt e einfo o rest : minfo env c einfo e -> 0 <= fo_num o -> key_after (fo_num o) rest ->
    forall l l' buf k n done, forallb (has_type env e) l = true -> opt_map (norm_entry env bl fw nm e o) l = Some l' ->
    encode_unpacked env enc e einfo l o = EOk buf -> zlen buf < 2 ^ 63 -> (length (buf ++ rest) <= k)%nat ->
    decode_slice_unpacked env dec k (buf ++ rest) n einfo e o done = DRet (done ++ l') (n + length buf) None.
  Proof.
    intros Hi Hn Hr. induction l as [|v l IH]; intros l' buf k n done Ht Hm' H Hz Hk; cbn [encode_unpacked opt_map forallb] in *.
    - apply EOk_inj in H. inversion Hm'; subst. cbn [length app] in *. rewrite app_nil_r, Nat.add_0_r.
      destruct Hr as [->|(num' & typ & r & -> & H1 & H2)]; [destruct k; reflexivity|].
      destruct (encode_uvarint_not_nil (num' * 8 + typ) r ltac:(lia)) as (x & q & Eq). fold (key_bytes num' typ) in Eq.
      destruct k as [|k]; [rewrite Eq in Hk; cbn in Hk; lia|]. cbn [decode_slice_unpacked]. rewrite Eq, <- Eq.
      rewrite decode_field_key_encode by lia. cbn [dbind fst].
      destruct (Z.ltb_spec num' (fo_num o)); [lia|]. destruct (Z.ltb_spec (fo_num o) num'); [|lia]. reflexivity.
    - einv H.
      destruct (is_default_value v) as [erv isdef] eqn:Edv. einv H. einv H. apply EOk_inj in H. subst buf.
      apply key_ok_inv in E; [|assumption|unfold Typ3ByteLength; lia]. destruct E as [Hn2 ->].
      apply andb_true_iff in Ht. destruct Ht as [Hv Hl].
      destruct (norm_entry env bl fw nm e o v) as [y|] eqn:Ey; [|discriminate]. destruct (opt_map _ l) as [r|] eqn:Er; [|discriminate].
      inversion Hm'; subst l'; clear Hm'. rewrite !zlen_app in Hz.
      pose proof (zlen_nonneg a0). pose proof (zlen_nonneg a1). pose proof (zlen_nonneg (key_bytes (fo_num o) Typ3ByteLength)).
      pose proof (key_nonnil (fo_num o) Typ3ByteLength ltac:(lia) ltac:(unfold Typ3ByteLength; lia)) as K.
      assert (ENT := entry_rt e einfo v o a0 y (a1 ++ rest) Hi Hv). rewrite Edv in ENT. specialize (ENT E0 ltac:(lia) Ey).
      rewrite <- !app_assoc in *. rewrite !app_length in Hk.
      destruct k as [|k]; [lia|]. cbn [decode_slice_unpacked].
      destruct (key_bytes (fo_num o) Typ3ByteLength ++ a0 ++ a1 ++ rest) as [|x q] eqn:Eq.
      { apply app_eq_nil in Eq. destruct Eq as [Eq _]. rewrite Eq in K. cbn in K. lia. }
      rewrite <- Eq. rewrite decode_field_key_encode by (unfold Typ3ByteLength; lia). cbn [dbind fst snd].
      rewrite Z.ltb_irrefl, Z.eqb_refl. cbn [negb]. rewrite slide_app by reflexivity.
      destruct ENT as [(-> & -> & ->)|(Hb & -> & Hd)].
      + cbn [app skipn]. rewrite (IH r) by (try assumption; try reflexivity; try lia; rewrite app_length; cbn [length] in *; lia).
        rewrite <- app_assoc. cbn [app]. f_equal. rewrite !app_length. cbn [length]. lia.
      + rewrite Hd. cbn [dbind]. rewrite slide_app by reflexivity.
        assert (0 < length a0)%nat by (destruct a0; [contradiction|cbn; lia]).
        rewrite (IH r) by (try assumption; try reflexivity; try lia; rewrite app_length; lia).
        rewrite <- app_assoc. cbn [app]. f_equal. rewrite !app_length. lia.
  Qed.

  Lemma array_unpacked_rt e einfo o rest : minfo env c einfo e -> 0 <= fo_num o ->
    forall l l' buf n done, forallb (has_type env e) l = true -> opt_map (norm_entry env bl fw nm e o) l = Some l' ->
    encode_unpacked env enc e einfo l o = EOk buf -> zlen buf < 2 ^ 63 ->
    decode_array_unpacked env dec (buf ++ rest) n einfo e o done (repeat (zero env e) (length l))
    = DRet (done ++ l', rest) (n + length buf) None.
  Proof.
    intros Hi Hn. induction l as [|v l IH]; intros l' buf n done Ht Hm' H Hz; cbn [encode_unpacked opt_map forallb length repeat] in *.
    - apply EOk_inj in H. inversion Hm'; subst. cbn [length decode_array_unpacked app]. rewrite app_nil_r, Nat.add_0_r. reflexivity.
    - einv H.
      destruct (is_default_value v) as [erv isdef] eqn:Edv. einv H. einv H. apply EOk_inj in H. subst buf.
      apply key_ok_inv in E; [|assumption|unfold Typ3ByteLength; lia]. destruct E as [Hn2 ->].
      apply andb_true_iff in Ht. destruct Ht as [Hv Hl].
      destruct (norm_entry env bl fw nm e o v) as [y|] eqn:Ey; [|discriminate]. destruct (opt_map _ l) as [r|] eqn:Er; [|discriminate].
      inversion Hm'; subst l'; clear Hm'. rewrite !zlen_app in Hz.
      pose proof (zlen_nonneg a0). pose proof (zlen_nonneg a1). pose proof (zlen_nonneg (key_bytes (fo_num o) Typ3ByteLength)).
      assert (ENT := entry_rt e einfo v o a0 y (a1 ++ rest) Hi Hv). rewrite Edv in ENT. specialize (ENT E0 ltac:(lia) Ey).
      rewrite <- !app_assoc in *. cbn [decode_array_unpacked].
      rewrite decode_field_key_encode by (unfold Typ3ByteLength; lia). cbn [dbind fst snd].
      rewrite !Z.eqb_refl. cbn [negb]. rewrite slide_app by reflexivity.
      destruct ENT as [(-> & -> & ->)|(Hb & -> & Hd)].
      + cbn [app skipn]. rewrite (IH r) by (try assumption; try reflexivity; lia).
        rewrite <- app_assoc. cbn [app]. f_equal. rewrite !app_length. cbn [length]. lia.
      + rewrite Hd. cbn [dbind]. rewrite slide_app by reflexivity.
        rewrite (IH r) by (try assumption; try reflexivity; lia).
        rewrite <- app_assoc. cbn [app]. f_equal. rewrite !app_length. lia.
  Qed.

  (** A list standing alone, or the entries of a field. *)
  Lemma list_rt info t v o bare bz v' rest : minfo env c info t -> deref_type t = t -> has_type env t v = true -> 0 <= fo_num o ->
    encode_list env c enc info v o bare = EOk bz -> zlen bz < 2 ^ 63 -> norm_list env c bl fw nm t o v = Some v' ->
    (bare = true -> rest = [] \/ entries env t = true /\ key_after (fo_num o) rest) ->
    match resolve env t with
    | RArray _ e => decode_array env c dec (bz ++ rest) e (zero env t) o bare
    | RSlice e => decode_slice env c dec (bz ++ rest) e (zero env t) o bare
    | _ => DFuel
    end = DRet v' (length bz) None.
  Proof.
    intros Hi Hd Ht Hn H Hz Hnl Hr. apply encode_list_inv in H.
    destruct H as (e & einfo & l & buf & He & Hu & Hg & Hl & -> & [z Hz3] & H). specialize (H z Hz3).
    pose proof (minfo_type _ _ _ _ Hi) as Ety. rewrite Hd in Ety. rewrite Ety in He.
    pose proof (gti_minfo _ _ _ _ Hs Hg) as Hei. pose proof (typ3_elem _ _ _ _ _ _ Hei Hz3) as Edel.
    pose proof (elem_typed _ _ _ _ _ He Ht Hl) as Hte.
    assert (Zb : zlen buf < 2 ^ 63).
    { destruct bare; [exact Hz|]. cbn [finish] in Hz. pose proof (zlen_byte_slice buf). lia. }
    assert (Hent : entries env t = delimited env e).
    { unfold entries, elem_type in *. destruct (resolve env t); try discriminate; inversion He; subst; rewrite Hu; reflexivity. }
    assert (KA : forall rest', (bare = false -> rest' = []) -> (bare = true -> rest' = rest) ->
      key_after (fo_num o) rest' /\ (delimited env e = false -> rest' = [])).
    { intros rest' R1 R2. destruct bare; [|rewrite R1 by reflexivity; split; [left|]; auto].
      rewrite (R2 eq_refl). destruct (Hr eq_refl) as [->|[X Y]]; [split; [left|]; auto|]. split; [assumption|]. congruence. }
    unfold norm_list in Hnl. unfold elem_type in He.
    destruct (resolve env t) as [p| |n e'|e'| | | | | | |] eqn:Er; try discriminate; inversion He; subst e'; clear He.
    - (* array *)
      destruct v as [| | | | | |l0| | | | | | | |]; try discriminate. cbn [list_elems] in Hl. inversion Hl; subst l0; clear Hl.
      unfold option_map in Hnl. destruct (norm_elems _ _ _ _ _ _ _) as [l'|] eqn:Enl; [|discriminate]. inversion Hnl; subst v'; clear Hnl.
      unfold norm_elems in Enl.
      cbn [has_type] in Ht. rewrite Er in Ht. apply andb_true_iff in Ht. destruct Ht as [Hlen _]. apply Nat.eqb_eq in Hlen. subst n.
      rewrite (zero_array _ _ _ _ We Er). unfold decode_array. rewrite Hu, Hg. cbn [eget].
      edestruct (@enter_finish value) as (n0 & rest' & -> & Hn0 & R1 & R2); [exact Zb|]. rewrite Hz3. cbn [eget].
      destruct (KA rest' R1 R2) as [K1 K2]. rewrite Edel in *. destruct (delimited env e) eqn:Ed; cbn [negb].
      + rewrite (array_unpacked_rt e einfo o rest' Hei Hn l l') by assumption. cbn [dbind app]. rewrite Hn0.
        destruct K1 as [->|(num' & typ & r & -> & X1 & X2)]; [reflexivity|].
        destruct (encode_uvarint_not_nil (num' * 8 + typ) r ltac:(lia)) as (x & q & Eq). fold (key_bytes num' typ) in Eq.
        rewrite Eq, <- Eq. rewrite decode_field_key_encode by lia. cbn [dbind fst].
        destruct (Z.leb_spec num' (fo_num o)); [lia|]. reflexivity.
      + rewrite (array_packed_rt e einfo o rest' Hei Hn Ed l l') by assumption. cbn [dbind app]. rewrite (K2 eq_refl), Hn0. reflexivity.
    - (* slice *)
      assert (X : exists l', norm_elems env bl fw nm e o l = Some l' /\ v' = slice_of l').
      { destruct v as [| | | | | | |[l0|]| | | | | | |]; try discriminate; cbn [list_elems] in Hl; inversion Hl; subst l;
        (destruct (known env c e); [|discriminate]).
        - unfold option_map in Hnl. destruct (norm_elems _ _ _ _ _ _ _) as [l'|]; [|discriminate]. inversion Hnl. eauto.
        - inversion Hnl. exists []. split; [|reflexivity]. unfold norm_elems. destruct (delimited env e); reflexivity. }
      destruct X as (l' & Enl & ->). unfold norm_elems in Enl.
      unfold decode_slice. rewrite Hu, Hg. cbn [eget].
      edestruct (@enter_finish value) as (n0 & rest' & -> & Hn0 & R1 & R2); [exact Zb|]. rewrite Hz3. cbn [eget].
      destruct (KA rest' R1 R2) as [K1 K2]. rewrite Edel in *. destruct (delimited env e) eqn:Ed; cbn [negb].
      + rewrite (slice_unpacked_rt e einfo o rest' Hei Hn K1 l l') by (try assumption; lia). cbn [dbind app]. rewrite Hn0. reflexivity.
      + rewrite (K2 eq_refl), app_nil_r. rewrite (slice_packed_rt e einfo o Hei Hn Ed l l') by (try assumption; lia).
        cbn [dbind app]. rewrite Hn0. reflexivity.
  Qed.
  End Lists.

  (** ** Fields *)

  Section Fields.
  Variable dec dec0 : bytes -> tinfo -> gotype -> value -> fopts -> bool -> dres value.
  Hypothesis Hdec : rt_ok dec.
  Hypothesis Hdec0 : rt_ok dec0.
  Hypothesis Hlist : forall bz info t v0 o bare, minfo env c info t -> entries env t = true -> has_method env t = false ->
    dec bz info t v0 o bare =
    match resolve env t with
    | RArray _ e => decode_array env c dec0 bz e v0 o bare
    | RSlice e => decode_slice env c dec0 bz e v0 o bare
    | _ => DFuel
    end.
  Hypothesis Hbl : forall t a o v, bl t (set_num a o) v = bl t o v.

  Lemma entries_field_enc info t o : minfo env c info t -> entries env t = true ->
    norm_list env c bl fw nm t o (VSlice None) <> None -> encode_list env c enc info (VSlice None) o true = EOk [].
  Proof.
    clear - Hs. intros Hi He Hn. pose proof (minfo_type _ _ _ _ Hi) as Ety. pose proof (entries_elem _ _ He) as (e & Ee & _).
    rewrite deref_nonptr in Ety by (eapply elem_nonptr; eassumption).
    unfold entries in He. unfold norm_list in Hn. unfold encode_list. rewrite Ety.
    destruct (resolve env t) as [| | |e'| | | | | | |]; try discriminate; try contradiction.
    apply andb_true_iff in He. destruct He as [Hu Hd]. destruct (is_uint8 env e'); [discriminate|].
    unfold known in Hn. destruct (get_type_info env c e') as [einfo| | |] eqn:Eg; try contradiction. cbn [ebind].
    pose proof (gti_minfo _ _ _ _ Hs Eg) as Hei. rewrite (minfo_type _ _ _ _ Hei).
    unfold delimited in Hd. unfold type_to_typ3. destruct (resolve env (deref_type e')) as [[]| | | | | | | | | |]; try discriminate; reflexivity.
  Qed.

  Lemma default_list t v : has_type env t v = true -> entries env t = true -> defaultv v = true -> v = VSlice None \/ v = VSlice (Some []).
  Proof.
    clear. intros Ht He Hd. unfold entries in He.
    destruct v as [| | | | | | |[[|]|]|[w|]| | | | | |]; cbn [defaultv] in Hd; try discriminate; auto;
      cbn [has_type] in Ht; destruct (resolve env t) as [p| | | | | | | | | |]; try discriminate; destruct p; discriminate.
  Qed.
  Lemma norm_list_empty t o : norm_list env c bl fw nm t o (VSlice (Some [])) = norm_list env c bl fw nm t o (VSlice None).
  Proof. clear. unfold norm_list, norm_elems. destruct (resolve env t); try reflexivity; destruct (delimited env e); reflexivity. Qed.

  Lemma field_rt f v b v' l rest last n : has_type env (fi_type f) v = true -> fi_unpacked f = entries env (fi_type f) ->
    0 <= fo_num (fi_opts f) < 2 ^ 29 -> encode_field env c enc f v = EOk b -> zlen b < 2 ^ 63 ->
    norm_field env c bl fw nm (fi_type f) (fi_opts f) v = Some v' -> key_after (fo_num (fi_opts f)) rest ->
    nth (fi_index f) l VInvalid = zero env (fi_type f) -> last < fo_num (fi_opts f) ->
    (b = [] \/ exists typ r, b = key_bytes (fo_num (fi_opts f)) typ ++ r /\ 0 <= typ < 8) /\
    exists last', last' <= fo_num (fi_opts f) /\
    decode_field env c dec f l (b ++ rest) last n = DRet (upd (fi_index f) v' l, rest, last') (n + length b) None.
  Proof.
    intros Ht Hup Hnum H Hz Hn Hrest Hnth Hlast. unfold encode_field in H. einv H. rename a into info.
    rewrite default_pair in H. rewrite Hup in H. pose proof (gti_minfo _ _ _ _ Hs E) as Hi. unfold norm_field in Hn.
    unfold decode_field. rewrite E, Hup, Hnth. cbn [eget].
    destruct (entries env (fi_type f)) eqn:Ent.
    - (* one entry per element *)
      destruct (has_method env (fi_type f)) eqn:Hme; [discriminate|].
      pose proof (entries_elem _ _ Ent) as (e & Ee & Edel & Eu). pose proof (elem_nonptr _ _ _ Ee) as Np.
      pose proof (deref_nonptr _ Np) as Hd.
      rewrite (under_nonptr _ _ _ Ht Np We) in H.
      set (o := fi_opts f) in *. set (t := fi_type f) in *.
      assert (HH : exists v1, has_type env t v1 = true /\ encode_list env c enc info v1 o true = EOk b /\ norm_list env c bl fw nm t o v1 = Some v').
      { destruct (defaultv v && negb (fo_write_empty o)) eqn:Edef; [|exists v; auto].
        apply andb_true_iff in Edef. destruct Edef as [Edef _].
        apply EOk_inj in H. subst b. exists (VSlice None).
        assert (Hn' : norm_list env c bl fw nm t o (VSlice None) = Some v').
        { destruct (default_list _ _ Ht Ent Edef) as [->| ->]; [assumption|]. rewrite <- norm_list_empty. assumption. }
        splits; [|apply entries_field_enc with (t := t); try assumption; congruence|assumption].
        unfold norm_list in Hn'. cbn [has_type]. destruct (resolve env t); try discriminate. reflexivity. }
      clear H Hn Ht v. destruct HH as (v & Ht & H & Hn).
      pose proof (list_lead env We c Hs enc bl fw nm Hlead Hbl info t v o b Hi Hd Ht ltac:(lia) H Hz) as LL.
      rewrite Ee in LL. destruct (list_elems v) as [lv|] eqn:Elv; [|contradiction]. specialize (LL (or_introl Edel)).
      split.
      { destruct b as [|x b]; [left; reflexivity|right]. apply encode_list_inv in H.
        destruct H as (e' & einfo & l0 & buf & He' & _ & Hg & Hl0 & Hb & [z Hz3] & H). specialize (H z Hz3).
        pose proof (minfo_type _ _ _ _ Hi) as Ety. rewrite Hd in Ety. rewrite Ety, Ee in He'. inversion He'; subst e'.
        pose proof (gti_minfo _ _ _ _ Hs Hg) as Hei. rewrite (typ3_elem _ _ _ _ _ _ Hei Hz3), Edel in H.
        cbn [finish] in Hb. subst buf. destruct l0 as [|w l0]; cbn [encode_unpacked] in H; [apply EOk_inj in H; discriminate|].
        einv H. destruct (is_default_value w) as [erv isdef]. einv H. einv H. apply EOk_inj in H.
        apply key_ok_inv in E0; [|lia|unfold Typ3ByteLength; lia]. destruct E0 as [_ ->].
        exists Typ3ByteLength, (a0 ++ a1). split; [symmetry; exact H|unfold Typ3ByteLength; lia]. }
      exists last. split; [lia|].
      pose proof (list_rt dec0 Hdec0 info t v o true b v' rest Hi Hd Ht ltac:(lia) H Hz Hn ltac:(auto)) as R.
      destruct (b ++ rest) as [|x q] eqn:Eb.
      + apply app_eq_nil in Eb. destruct Eb as [-> ->]. cbn [length]. rewrite Nat.add_0_r.
        assert (lv = []) by (apply LL; reflexivity). subst lv. f_equal. f_equal. f_equal. f_equal.
        unfold elem_type in Ee. rewrite <- absent_eq. unfold absent. rewrite Hd.
        assert (Z : v' = zero env t).
        { unfold norm_list in Hn. destruct (resolve env t) as [| |nn e'|e'| | | | | | |] eqn:Er; try discriminate.
          - destruct v; try discriminate. cbn [list_elems] in Elv. inversion Elv; subst.
            cbn [has_type] in Ht. rewrite Er in Ht. apply andb_true_iff in Ht. destruct Ht as [Hl _]. apply Nat.eqb_eq in Hl. cbn in Hl. subst nn.
            rewrite (zero_array _ _ _ _ We Er). unfold norm_elems, option_map in Hn. destruct (delimited env e'); cbn in Hn; inversion Hn; reflexivity.
          - rewrite (zero_slice _ _ _ We Er). destruct v as [| | | | | | |[l0|]| | | | | | |]; try discriminate; destruct (known env c e'); try discriminate; [|congruence].
            cbn [list_elems] in Elv. inversion Elv; subst. unfold norm_elems, option_map in Hn. destruct (delimited env e'); cbn in Hn; inversion Hn; reflexivity. }
        rewrite Z. destruct t eqn:Et; try reflexivity. unfold t in *. discriminate.
      + rewrite <- Eb. rewrite (Hlist _ _ _ _ _ _ Hi Ent Hme). rewrite <- Eb in R. rewrite R. cbn [dbind]. rewrite slide_app by reflexivity. reflexivity.
    - (* a single field *)
      set (o := fi_opts f) in *. set (t := fi_type f) in *.
      assert (ABS : b = [] -> v' = absent env t -> exists last', last' <= fo_num o /\
        match b ++ rest with
        | [] => DRet (upd (fi_index f) (default_value env t) l, b ++ rest, last) n None
        | _ :: _ =>
          dbind (decode_field_key (b ++ rest)) (fun kt m e =>
          let '(fnum, typ) := kt in
          if fo_num o <? fnum then DRet (upd (fi_index f) (default_value env t) l, b ++ rest, last) n None
          else if fnum <=? last then
            DRet (l, b ++ rest, last) n (Some "encountered fieldNum but we have already seen fnum"%string)
          else slide (b ++ rest) m (fun bz1 =>
          let n1 := (n + m)%nat in
          match e with
          | Some e => DRet (l, bz1, fnum) n1 (Some e)
          | None =>
              if negb (fo_num o =? fnum) then
                DRet (l, bz1, fnum) n1 (Some "expected field #"%string)
              else
                eget (type_to_typ3 env (ti_type info) o) (fun e => DRet (l, bz1, fnum) n1 (Some e)) (fun tw =>
                if negb (typ =? tw) then DRet (l, bz1, fnum) n1 (Some "expected field type"%string)
                else
                  dbind (dec bz1 info t (zero env t) o false) (fun v m2 e =>
                  slide bz1 m2 (fun bz2 => DRet (upd (fi_index f) v l, bz2, fnum) (n1 + m2)%nat e)))
          end))
        end = DRet (upd (fi_index f) v' l, rest, last') (n + length b) None).
      { intros -> Hv'. rewrite absent_eq in Hv'. rewrite Hv'. clear Hv'. exists last. split; [lia|]. cbn [app length]. rewrite Nat.add_0_r.
        destruct Hrest as [->|(num' & typ & r & -> & H1 & H2)]; [reflexivity|].
        destruct (encode_uvarint_not_nil (num' * 8 + typ) r ltac:(lia)) as (x & q & Eq). fold (key_bytes num' typ) in Eq.
        rewrite Eq; cbv iota; rewrite <- Eq. rewrite decode_field_key_encode by lia. cbn [dbind].
        destruct (Z.ltb_spec (fo_num o) num'); [reflexivity|lia]. }
      destruct (defaultv v && negb (fo_write_empty o)) eqn:Edef.
      { apply EOk_inj in H. inversion Hn; subst. split; [left; reflexivity|]. apply ABS; reflexivity. }
      destruct (under v) as [w|] eqn:Eun; [|discriminate].
      pose proof (under_typed _ We _ _ _ Ht Eun) as Hw. rewrite (val_ptr_typed _ _ _ We Ht) in H.
      unfold write_field in H. einv H. einv H. einv H. rename a into typ3, a0 into key, a1 into b0.
      pose proof (typ3_range _ _ _ _ E0) as Htr. apply key_ok_inv in E1; [|lia|lia]. destruct E1 as [_ ->].
      assert (Zb : zlen b0 < 2 ^ 63).
      { destruct (_ && beqb b0 [0]) eqn:Ebb in H; apply EOk_inj in H; subst b.
        - apply andb_true_iff in Ebb. destruct Ebb as [_ Ebb]. apply beqb_eq in Ebb. subst b0. cbn. lia.
        - rewrite zlen_app in Hz. pose proof (zlen_nonneg (key_bytes (fo_num o) typ3)). lia. }
      destruct (Hlead _ _ _ _ _ (minfo_deref _ _ _ _ Hi) (deref_idem t) Hw ltac:(apply Hnum) E2 Zb) as [L1 L2].
      assert (DD : forall w', is_ptr t && is_iface (deref_type t) = false -> nm (deref_type t) o w = Some w' ->
        dec (b0 ++ rest) info t (zero env t) o false = DRet (ptrs t w') (length b0) None).
      { intros w' D1 D2. eapply (Hdec info (deref_type t) w o false b0 w' rest t); [apply minfo_deref; exact Hi|apply deref_idem|exact Hw|lia|exact E2|exact Zb|
          exact D2|discriminate|reflexivity|exact D1|apply base_zero]. }
      assert (PRES : forall w', b = key_bytes (fo_num o) typ3 ++ b0 -> v' = ptrs t w' ->
        dec (b0 ++ rest) info t (zero env t) o false = DRet (ptrs t w') (length b0) None ->
        (b = [] \/ exists typ r, b = key_bytes (fo_num o) typ ++ r /\ 0 <= typ < 8) /\
        exists last', last' <= fo_num o /\
        match b ++ rest with
        | [] => DRet (upd (fi_index f) (default_value env t) l, b ++ rest, last) n None
        | _ :: _ =>
          dbind (decode_field_key (b ++ rest)) (fun kt m e =>
          let '(fnum, typ) := kt in
          if fo_num o <? fnum then DRet (upd (fi_index f) (default_value env t) l, b ++ rest, last) n None
          else if fnum <=? last then
            DRet (l, b ++ rest, last) n (Some "encountered fieldNum but we have already seen fnum"%string)
          else slide (b ++ rest) m (fun bz1 =>
          let n1 := (n + m)%nat in
          match e with
          | Some e => DRet (l, bz1, fnum) n1 (Some e)
          | None =>
              if negb (fo_num o =? fnum) then
                DRet (l, bz1, fnum) n1 (Some "expected field #"%string)
              else
                eget (type_to_typ3 env (ti_type info) o) (fun e => DRet (l, bz1, fnum) n1 (Some e)) (fun tw =>
                if negb (typ =? tw) then DRet (l, bz1, fnum) n1 (Some "expected field type"%string)
                else
                  dbind (dec bz1 info t (zero env t) o false) (fun v m2 e =>
                  slide bz1 m2 (fun bz2 => DRet (upd (fi_index f) v l, bz2, fnum) (n1 + m2)%nat e)))
          end))
        end = DRet (upd (fi_index f) v' l, rest, last') (n + length b) None).
      { intros w' -> -> D. split; [right; exists typ3, b0; auto|]. exists (fo_num o). split; [lia|].
        rewrite <- app_assoc.
        destruct (encode_uvarint_not_nil (fo_num o * 8 + typ3) (b0 ++ rest) ltac:(lia)) as (x & q & Eq). fold (key_bytes (fo_num o) typ3) in Eq.
        rewrite Eq; cbv iota; rewrite <- Eq. rewrite decode_field_key_encode by lia. cbn [dbind].
        rewrite Z.ltb_irrefl. destruct (Z.leb_spec (fo_num o) last); [lia|]. rewrite slide_app by reflexivity.
        rewrite Z.eqb_refl. cbn [negb]. rewrite E0. cbn [eget]. rewrite Z.eqb_refl. cbn [negb]. rewrite D. cbn [dbind].
        rewrite slide_app by reflexivity. rewrite app_length, Nat.add_assoc. reflexivity. }
      assert (Zt : is_ptr t = false -> deref_type t = t) by apply deref_nonptr.
      destruct (fo_write_empty o) eqn:Ewe; cbn [negb andb orb] in *.
      + apply EOk_inj in H. destruct (is_ptr t && is_iface (deref_type t)) eqn:Epi; [discriminate|]. unfold option_map in Hn.
        destruct (nm (deref_type t) o w) as [w'|] eqn:Enm; [|discriminate]. inversion Hn; subst v'.
        apply (PRES w'); [symmetry; exact H|reflexivity|]. apply DD; reflexivity.
      + destruct (is_ptr t) eqn:Ept; cbn [negb andb orb] in *.
        * apply EOk_inj in H. destruct (is_iface (deref_type t)) eqn:Epi; [discriminate|]. unfold option_map in Hn.
          destruct (nm (deref_type t) o w) as [w'|] eqn:Enm; [|discriminate]. inversion Hn; subst v'.
          apply (PRES w'); [symmetry; exact H|reflexivity|]. apply DD; reflexivity.
        * rewrite Zt in * by reflexivity. unfold option_map in Hn. destruct (bl t o w) eqn:Ebl.
          -- rewrite (L1 eq_refl) in H. cbn in H. apply EOk_inj in H. inversion Hn; subst. split; [left; reflexivity|]. apply ABS; reflexivity.
          -- destruct (nm t o w) as [w'|] eqn:Enm; [|discriminate]. inversion Hn; subst v'.
             destruct (L2 eq_refl) as (N1 & N2 & _); [discriminate|].
             assert (Nb : beqb b0 [0] = false) by (destruct (beqb b0 [0]) eqn:X; [apply beqb_eq in X; contradiction|reflexivity]).
             rewrite Nb in H. apply EOk_inj in H. apply (PRES w'); [symmetry; exact H|reflexivity|]. apply DD; reflexivity.
  Qed.

  Lemma upd_mid {A} (x y : A) b : forall a, upd (length a) x (a ++ y :: b) = (a ++ [x]) ++ b.
  Proof. clear. induction a; cbn; [reflexivity|]. rewrite IHa. reflexivity. Qed.
  Lemma nth_mid {A} (y d : A) b : forall a, nth (length a) (a ++ y :: b) d = y.
  Proof. clear. induction a; cbn; auto. Qed.

  (** How many fields are not skipped. *)
  Definition live (fs : list sfield) : Z :=
    zlen (filter (fun f => match field_opts 0 f with Some _ => true | None => false end) fs).
  Lemma live_cons f fs n : live (f :: fs) = match field_opts n f with Some _ => live fs + 1 | None => live fs end.
  Proof.
    clear. unfold live. cbn [filter]. unfold field_opts. destruct (sf_exported f); [|reflexivity].
    destruct (parse_field_options f); cbn [option_map]; [|reflexivity]. unfold zlen. cbn [length]. lia.
  Qed.
  Lemma live_nonneg fs : 0 <= live fs.
  Proof. apply zlen_nonneg. Qed.

  Lemma fields_rt : forall fs i num infos pre l buf l' donel last n rest,
    parse_fields env fs i num = EOk infos -> length pre = i ->
    forall2b (fun f w => has_type env (sf_type f) w) fs l = true ->
    encode_fields env c enc infos (pre ++ l) = EOk buf -> zlen buf < 2 ^ 63 ->
    norm_fields env c bl fw nm (Z.of_nat num + 1) fs l = Some l' -> length donel = i -> last <= Z.of_nat num ->
    key_after (Z.of_nat num + live fs) rest ->
    key_after (Z.of_nat num) (buf ++ rest) /\ exists last', last' <= Z.of_nat num + live fs /\
    decode_fields env c dec infos (donel ++ map (fun f => zero env (sf_type f)) fs) (buf ++ rest) last n
    = DRet (donel ++ l', rest, last') (n + length buf) None.
  Proof.
    induction fs as [|f fs IH]; intros i num infos pre l buf l' donel last n rest Hp Hpre Ht H Hz Hn Hdl Hlast Hrest.
    - cbn [parse_fields] in Hp. apply EOk_inj in Hp. subst infos. cbn [encode_fields] in H. apply EOk_inj in H. subst buf.
      destruct l; [|discriminate]. cbn [norm_fields] in Hn. inversion Hn; subst l'. change (live []) with 0 in *.
      rewrite Z.add_0_r in *. split; [exact Hrest|]. exists last. split; [lia|].
      cbn [decode_fields map app length]. rewrite Nat.add_0_r. reflexivity.
    - apply parse_step in Hp. destruct l as [|v l]; [discriminate|]. cbn [forall2b] in Ht. apply andb_true_iff in Ht. destruct Ht as [Hv Hl].
      cbn [norm_fields] in Hn. cbn [map]. rewrite (live_cons f fs (Z.of_nat num + 1)) in *.
      destruct (field_opts (Z.of_nat num + 1) f) as [o|] eqn:Eo.
      + destruct Hp as (fi & infos' & -> & Hix & Hty & Hup & Hopts & _ & Hp).
        destruct (Z.leb_spec (2 ^ 29) (Z.of_nat num + 1)); [discriminate|].
        assert (Ho : fi_opts fi = o).
        { rewrite Hopts, u32_small by lia. unfold field_opts in Eo. destruct (sf_exported f); [|discriminate]. unfold option_map in Eo.
          destruct (parse_field_options f); [|discriminate]. inversion Eo. apply set_num_set. }
        assert (Hfn : fo_num o = Z.of_nat num + 1).
        { unfold field_opts in Eo. destruct (sf_exported f); [|discriminate]. unfold option_map in Eo.
          destruct (parse_field_options f); [|discriminate]. inversion Eo. reflexivity. }
        destruct (norm_field env c bl fw nm (sf_type f) o v) as [w|] eqn:Enf; [|discriminate].
        destruct (norm_fields env c bl fw nm (Z.of_nat num + 1 + 1) fs l) as [r|] eqn:Enr; [|discriminate]. inversion Hn; subst l'; clear Hn.
        cbn [encode_fields] in H. einv H. einv H. apply EOk_inj in H. subst buf. rename a into b, a0 into bs.
        rewrite Hix in E. rewrite <- Hpre in E. rewrite nth_mid in E.
        rewrite zlen_app in Hz. pose proof (zlen_nonneg b). pose proof (zlen_nonneg bs).
        assert (Nx : Z.of_nat (S num) = Z.of_nat num + 1) by lia.
        assert (IH' : forall last n, last <= Z.of_nat (S num) -> key_after (Z.of_nat (S num)) (bs ++ rest) /\
          exists last', last' <= Z.of_nat num + (live fs + 1) /\
          decode_fields env c dec infos' ((donel ++ [w]) ++ map (fun f => zero env (sf_type f)) fs) (bs ++ rest) last n
          = DRet ((donel ++ [w]) ++ r, rest, last') (n + length bs) None).
        { intros last1 n1 Hl1.
          destruct (IH (S i) (S num) infos' (pre ++ [v]) l bs r (donel ++ [w]) last1 n1 rest Hp) as [K (last' & L & D)]; try assumption.
          - rewrite app_length. cbn. lia.
          - rewrite <- app_assoc. exact E0.
          - lia.
          - rewrite Nx. exact Enr.
          - rewrite app_length. cbn. lia.
          - replace (Z.of_nat (S num) + live fs) with (Z.of_nat num + (live fs + 1)) by lia. assumption.
          - split; [exact K|]. exists last'. split; [lia|exact D]. }
        destruct (field_rt fi v b w (donel ++ zero env (sf_type f) :: map (fun f => zero env (sf_type f)) fs) (bs ++ rest) last n) as [K (last1 & L1 & D1)].
        * rewrite Hty. exact Hv.
        * rewrite Hty. exact Hup.
        * rewrite Ho, Hfn. lia.
        * exact E.
        * lia.
        * rewrite Hty, Ho. exact Enf.
        * rewrite Ho, Hfn, <- Nx. apply (IH' last n). lia.
        * rewrite Hix, Hty, <- Hdl, nth_mid. reflexivity.
        * rewrite Ho, Hfn. lia.
        * rewrite Ho, Hfn in K, L1. destruct (IH' last1 (n + length b)%nat ltac:(lia)) as [K2 (last' & L2 & D2)].
          rewrite <- app_assoc. split.
          { destruct K as [->|(typ & q & -> & Ht)].
            - cbn [app]. eapply key_after_le; [|exact K2]. lia.
            - right. exists (Z.of_nat num + 1), typ, (q ++ bs ++ rest). rewrite <- app_assoc. split; [reflexivity|]. lia. }
          exists last'. split; [exact L2|]. cbn [decode_fields]. rewrite D1. cbn [dbind].
          rewrite Hix. rewrite <- Hdl at 1. rewrite upd_mid, D2. rewrite <- app_assoc. cbn [app].
          rewrite app_length, Nat.add_assoc. reflexivity.
      + unfold option_map in Hn. destruct (norm_fields env c bl fw nm (Z.of_nat num + 1) fs l) as [r|] eqn:Enr; [|discriminate].
        inversion Hn; subst l'; clear Hn.
        destruct (IH (S i) num infos (pre ++ [v]) l buf r (donel ++ [zero env (sf_type f)]) last n rest Hp) as [K (last' & L & D)]; try assumption.
        * rewrite app_length. cbn. lia.
        * rewrite <- app_assoc. exact H.
        * rewrite app_length. cbn. lia.
        * split; [exact K|]. exists last'. split; [exact L|]. rewrite <- !app_assoc in D. exact D.
  Qed.
  End Fields.

  (** ** Interfaces *)

  Section Ifaces.
  Variable dec : bytes -> tinfo -> gotype -> value -> fopts -> bool -> dres value.
  Hypothesis Hdec : rt_ok dec.

  Lemma registered_find t ptr : registered c t = Some ptr -> exists ci r, In ci (cd_concretes c) /\ ci_type ci = t /\
    ci_reg ci = Some r /\ ri_ptr r = ptr /\ assoc gotype_eqb t (cd_types c) = Some ci /\ info_ok env ci.
  Proof.
    clear - Hc. unfold registered. destruct (find _ _) as [ci|] eqn:Ef; [|discriminate].
    apply find_some in Ef. destruct Ef as [Hin He]. apply gotype_eqb_eq in He. destruct (ci_reg ci) as [r|] eqn:Er; [|discriminate].
    intros X. inversion X. apply (wc_conc _ _ Hc) in Hin as Hin'. destruct Hin' as [Ha _].
    exists ci, r. rewrite He in Ha. splits; auto. apply (wc_types _ _ Hc) in Ha. tauto.
  Qed.
  Lemma conc_nonptr ci : info_ok env ci -> match ci_type ci with TPtr _ | TIface _ => False | _ => True end.
  Proof. clear. intros [H _]. unfold new_type_info in H. destruct (ci_type ci); try exact I; discriminate. Qed.

  Lemma conc_implements ci ii r : info_ok env ci -> ci_reg ci = Some r -> te_impl env (reg_form ci) (ii_id ii) = true -> implements env ci ii = true.
  Proof.
    clear - We. intros Hi Hr H. unfold reg_form in H. rewrite Hr in H. unfold implements.
    destruct (ri_ptr r); [exact H|]. apply (we_impl_ptr _ We); [|exact H]. pose proof (conc_nonptr _ Hi). destruct (ci_type ci); auto.
  Qed.

  Lemma filter_single {A} (f : A -> bool) x : forall l, In x l -> f x = true -> (length (filter f l) <= 1)%nat -> filter f l = [x].
  Proof.
    clear. intros l Hin Hf Hlen. assert (X : In x (filter f l)) by (apply filter_In; auto).
    destruct (filter f l) as [|y [|z q]]; [destruct X| |cbn in Hlen; lia]. destruct X as [->|[]]. reflexivity.
  Qed.

  Lemma iface_rt ii t v o bare bz v' rest : In ii (cd_ifaces c) -> t = TIface (ii_id ii) -> has_type env t v = true -> 0 <= fo_num o ->
    encode_interface env c enc ii v o bare = EOk bz -> zlen bz < 2 ^ 63 ->
    match v with VIface (Some (ct, cv)) => norm_iface env c nm (ii_id ii) o ct cv | _ => None end = Some v' ->
    (bare = true -> rest = []) ->
    decode_interface env c dec (bz ++ rest) ii (VIface None) o bare = DRet v' (length bz) None.
  Proof.
    intros Hin -> Ht Hnum H Hz Hn Hr. destruct v as [| | | | | | | | | |[[ct cv]|]| | | |]; try discriminate.
    cbn [has_type resolve] in Ht. apply andb_true_iff in Ht. destruct Ht as [Himp Ht0].
    assert (Ht : has_type env ct cv = true) by (destruct ct; try discriminate Ht0; exact Ht0). clear Ht0.
    unfold norm_iface in Hn. cbv zeta in Hn. cbn [encode_interface] in H.
    destruct (registered c (deref_type ct)) as [ptr|] eqn:Ereg; [|discriminate].
    destruct (under cv) as [w|] eqn:Eu; [|discriminate]. rewrite deref_pointers_under, Eu in H.
    set (form := if ptr then TPtr (deref_type ct) else deref_type ct) in *.
    destruct (te_impl env form (ii_id ii)) eqn:Eform; [|discriminate]. cbn [andb] in Hn.
    destruct (_ || _) eqn:Esl in Hn; [|discriminate].
    destruct (nm (deref_type ct) o w) as [w'|] eqn:Enm; [|discriminate]. inversion Hn; subst v'; clear Hn.
    destruct (registered_find _ _ Ereg) as (ci & r & Hci & Hct & Hreg & Hptr & Has & Hok).
    pose proof (under_typed _ We _ _ _ Ht Eu) as Hw. pose proof (conc_nonptr _ Hok) as Hnp. rewrite Hct in Hnp.
    assert (Hgi : get_type_info env c (deref_type ct) = EOk (TIConc ci)).
    { unfold get_type_info. rewrite deref_idem. rewrite Has. destruct (deref_type ct); try reflexivity; contradiction. }
    assert (Hform : reg_form ci = form) by (unfold reg_form; rewrite Hreg, Hptr, Hct; reflexivity).
    assert (Hnv : match w with VIface _ => False | _ => True end).
    { destruct w; try exact I. discriminate. }
    assert (H' : ebind (enc (TIConc ci) w o true) (fun body =>
      EOk (finish bare ((if ii_always ii || (1 <? length match assoc beqb (ri_prefix r) (ii_impls ii) with Some l => l | None => [] end)%nat
                         then 0 :: ri_disamb r else []) ++ ri_prefix r ++ body))) = EOk bz).
    { rewrite <- H. rewrite Hgi. cbn [ebind]. rewrite Hreg. destruct w; try contradiction; reflexivity. }
    clear H. rename H' into H. einv H. apply EOk_inj in H. rename a into body.
    set (need := _ || _) in H. set (buf := (if need then 0 :: ri_disamb r else []) ++ ri_prefix r ++ body) in *.
    destruct (reg_shape _ _ _ Hok Hreg) as (Ld & Lp & Np).
    assert (Zb : zlen buf < 2 ^ 63).
    { rewrite <- H in Hz. destruct bare; [exact Hz|]. cbn [finish] in Hz. pose proof (zlen_byte_slice buf). lia. }
    assert (Zbody : zlen body < 2 ^ 63).
    { unfold buf in Zb. rewrite !zlen_app in Zb. pose proof (zlen_nonneg (if need then 0 :: ri_disamb r else [])). pose proof (zlen_nonneg (ri_prefix r)). lia. }
    rewrite <- H. unfold decode_interface.
    edestruct (@enter_finish value) as (n0 & rest' & -> & Hn0 & R1 & R2); [exact Zb|].
    assert (rest' = []) by (destruct bare; [rewrite R2 by reflexivity|]; auto). subst rest'. rewrite app_nil_r.
    assert (Hpre : exists dp n1, decode_disamb_prefix buf = DRet dp n1 None /\ (n1 + length body = length buf)%nat /\ skipn n1 buf = body /\
      match fst dp with Some d => type_info_from_disfix c (to_disfix d (snd dp)) | None => type_info_from_prefix ii (snd dp) end = EOk ci).
    { unfold buf, decode_disamb_prefix. destruct need eqn:En.
      - exists (Some (ri_disamb r), ri_prefix r), 8%nat.
        assert (L8 : length ((0 :: ri_disamb r) ++ ri_prefix r ++ body) = (8 + length body)%nat) by (rewrite !app_length; cbn [length]; lia).
        assert (F1 : firstn 3 (skipn 1 ((0 :: ri_disamb r) ++ ri_prefix r ++ body)) = ri_disamb r).
        { change (firstn 3 (ri_disamb r ++ ri_prefix r ++ body) = ri_disamb r). apply firstn_app_exact. exact Ld. }
        assert (F2 : firstn 4 (skipn 4 ((0 :: ri_disamb r) ++ ri_prefix r ++ body)) = ri_prefix r).
        { change (firstn 4 (skipn 3 (ri_disamb r ++ ri_prefix r ++ body)) = ri_prefix r).
          rewrite skipn_app_exact by exact Ld. apply firstn_app_exact. exact Lp. }
        assert (F3 : skipn 8 ((0 :: ri_disamb r) ++ ri_prefix r ++ body) = body).
        { change (skipn 7 (ri_disamb r ++ ri_prefix r ++ body)  = body). rewrite app_assoc. apply skipn_app_exact. rewrite app_length. lia. }
        rewrite L8, F1, F2, F3. change (8 + length body <? 4)%nat with false. change (8 + length body <? 8)%nat with false.
        cbv iota. splits; try reflexivity.
        + cbn [fst snd]. unfold type_info_from_disfix.
          assert (D : assoc beqb (to_disfix (ri_disamb r) (ri_prefix r)) (cd_disfix c) = Some ci).
          { apply (wc_disfix _ _ Hc). split; [assumption|]. unfold ci_disfix. rewrite Hreg. reflexivity. }
          rewrite D. reflexivity.
      - exists (None, ri_prefix r), 4%nat. cbn [app].
        assert (L4 : length (ri_prefix r ++ body) = (4 + length body)%nat) by (rewrite !app_length; lia).
        rewrite L4. change (4 + length body <? 4)%nat with false. cbv iota.
        assert (F4 : firstn 4 (ri_prefix r ++ body) = ri_prefix r) by (apply firstn_app_exact; exact Lp).
        splits; try reflexivity.
        + rewrite F4. destruct (ri_prefix r) as [|x q]; [discriminate Lp|]. cbn [app]. cbn in Np. destruct x; [contradiction| |]; reflexivity.
        + apply skipn_app_exact. exact Lp.
        + cbn [fst snd]. unfold type_info_from_prefix.
          assert (I1 : impls_of ii (ri_prefix r) = [ci]).
          { rewrite (wc_impls _ _ Hc) by assumption. apply filter_single; [assumption| |].
            - rewrite (conc_implements ci ii r Hok Hreg) by (rewrite Hform; exact Eform). unfold ci_prefix. rewrite Hreg. cbn [andb]. apply beqb_eq. reflexivity.
            - rewrite <- (wc_impls _ _ Hc) by assumption. unfold need in En. apply orb_false_iff in En. destruct En as [_ En].
              apply Nat.ltb_ge in En. exact En. }
          unfold impls_of in I1. destruct (assoc beqb (ri_prefix r) (ii_impls ii)) as [li|]; [|discriminate]. rewrite I1. reflexivity. }
    destruct Hpre as (dp & n1 & -> & Hn1 & Hsk & Hti). cbn [dbind]. rewrite slide_le by lia. rewrite Hsk, Hti. cbn [eget].
    assert (WK : wants_key env ci body o = false).
    { unfold wants_key, is_struct_or_repeated_struct. rewrite Hct. unfold struct_like in Esl.
      apply orb_true_iff in Esl. destruct Esl as [Esl|Esl].
      - apply negb_true_iff in Esl. rewrite Esl, andb_false_r. reflexivity.
      - rewrite Esl. reflexivity. }
    rewrite WK.
    assert (DD : dec body (TIConc ci) (ci_type ci) (zero env (ci_type ci)) o true = DRet w' (length body) None).
    { rewrite <- (app_nil_r body) at 1.
      replace w' with (ptrs (ci_type ci) w') by (apply ptrs_nonptr; rewrite Hct; apply deref_idem).
      eapply (Hdec (TIConc ci) (deref_type ct) w o true body w' [] (ci_type ci)); try assumption.
      - cbn. rewrite deref_idem. auto.
      - apply deref_idem.
      - reflexivity.
      - rewrite Hct. apply deref_idem.
      - rewrite Hct. destruct (deref_type ct); try reflexivity; contradiction.
      - rewrite base_zero, Hct, deref_idem. reflexivity. }
    rewrite DD. cbn [dbind]. rewrite slide_le by lia. rewrite skipn_all. unfold set_iface. rewrite Hreg, Hptr, Hct. unfold form in *.
    destruct ptr; rewrite Eform; f_equal; lia.
  Qed.
  End Ifaces.
  End Step.

  (** ** The whole *)

  Lemma decode_list_unfold k bz info t v0 o bare : minfo env c info t -> entries env t = true -> has_method env t = false ->
    decode_reflect (S k) env c bz info t v0 o bare =
    match resolve env t with
    | RArray _ e => decode_array env c (decode_reflect k env c) bz e v0 o bare
    | RSlice e => decode_slice env c (decode_reflect k env c) bz e v0 o bare
    | _ => DFuel
    end.
  Proof.
    clear - We. intros Hi He Hme. pose proof (minfo_type _ _ _ _ Hi) as Ety.
    pose proof (entries_elem _ _ He) as (e & Ee & _ & Eu). pose proof (elem_nonptr _ _ _ Ee) as Np.
    rewrite (deref_nonptr _ Np) in Ety.
    assert (DM : forall r : dres value, dmap (rebuild t) r = r).
    { intros [v n er| |]; try reflexivity. cbn. unfold rebuild. rewrite <- ptrs_wrap, ptrs_nonptr by (apply deref_nonptr; exact Np). reflexivity. }
    assert (SW : decode_switch env c (decode_reflect k env c) bz info v0 o bare =
      match resolve env t with
      | RArray _ e => decode_array env c (decode_reflect k env c) bz e v0 o bare
      | RSlice e => decode_slice env c (decode_reflect k env c) bz e v0 o bare
      | _ => DFuel
      end).
    { unfold decode_switch. rewrite Ety. unfold elem_type in Ee. destruct (resolve env t); try discriminate; inversion Ee; subst; rewrite Eu; reflexivity. }
    rewrite <- SW, <- DM. cbn [decode_reflect]. destruct info as [ci|ii].
    - destruct Hi as [Hct Hok]. rewrite (deref_nonptr _ Np) in Hct.
      pose proof (minfo_unmethod _ _ _ Hct Hok) as M. destruct ci as [ct cf cm cu cr]. cbn [ci_unmarshal ci_type] in *.
      assert (cu = None).
      { destruct cu as [r|]; [|reflexivity]. destruct M as (id & g & -> & M & _). unfold has_method in Hme. rewrite M in Hme.
        destruct (te_marshal env id); discriminate. }
      subst cu. destruct t; try discriminate Np; reflexivity.
    - destruct t; try discriminate Np; reflexivity.
  Qed.

  Theorem encode_decode : forall k fd, (2 * k <= fd)%nat -> rt_ok (encode_reflect k env c) (norm k env c) (decode_reflect fd env c).
  Proof.
    induction k as [|k IH]; intros fd Hfd info t v o bare bz v' rest tt w0 Hi Hd Ht Hnum H Hz Hn Hr Htt Hpi Hbase; [discriminate|].
    destruct fd as [|[|fd]]; [lia|lia|].
    pose proof (IH (S fd) ltac:(lia)) as IH1. pose proof (IH fd ltac:(lia)) as IH0. clear IH.
    pose proof (encode_lead env We c Hs Hm k) as Hlead.
    pose proof (minfo_type _ _ _ _ Hi) as Ety. rewrite Hd in Ety.
    apply encode_reflect_inv in H.
    set (dec := decode_reflect (S fd) env c) in *.
    assert (SW : forall pl, encode_switch env c (encode_reflect k env c) (S k) info v o bare = EOk bz ->
      match resolve env t, v with
        | RPrim PFloat32, VFloat b => Some (VFloat (quiet32 b))
        | RPrim _, _ | RTime, _ => Some v
        | RArray _ e, VArr l =>
            if is_uint8 env e then (if gotype_eqb e (TPrim PUint8) then Some v else None)
            else if is_list env e then None
            else norm_list env c (blank k env) (fixed_width k env) (norm k env c) t o v
        | RSlice e, VSlice ol =>
            if is_uint8 env e then
              match ol with
              | None | Some [] => Some (VSlice None)
              | _ => if gotype_eqb e (TPrim PUint8) then Some v else None
              end
            else if is_list env e then None
            else norm_list env c (blank k env) (fixed_width k env) (norm k env c) t o v
        | RStruct fs, VStruct l =>
            option_map VStruct (norm_fields env c (blank k env) (fixed_width k env) (norm k env c) 1 fs l)
        | RIface i, VIface (Some (ct, cv)) => norm_iface env c (norm k env c) i o ct cv
        | _, _ => None
        end = Some pl ->
      decode_switch env c dec (bz ++ rest) info (zero env t) o bare = DRet pl (length bz) None).
    { clear Hn v'. intros pl H' Hn. unfold encode_switch in H'. unfold decode_switch. rewrite Ety in *.
      destruct (resolve env t) as [p| |len e|e| | | | |i|fs|] eqn:Er; try discriminate.
      - rewrite (has_type_prim _ _ _ _ Er) in Ht. rewrite (prim_rt _ _ _ _ (zero env t) rest Ht Hz H').
        destruct p, v; try discriminate; inversion Hn; reflexivity.
      - destruct info as [ci|ii]; [|discriminate]. destruct Hi as [Hct Hok]. unfold encode_struct in H'. rewrite Hct, Hd, Er in H'.
        destruct v; try discriminate. inversion Hn; subst pl; clear Hn. einv H'. destruct a as [buf [er|]]; [discriminate|]. apply EOk_inj in H'. subst bz.
        unfold decode_struct. rewrite (zero_time_eq _ _ We Er).
        assert (TK : time_ok s ns).
        { unfold time_ok. cbn [has_type] in Ht. rewrite Er in Ht. destruct (Z_lt_le_dec s min_seconds); [rewrite encode_time_bad_seconds in E by lia; discriminate|].
          destruct (Z_lt_le_dec s max_seconds); [|rewrite encode_time_bad_seconds in E by lia; discriminate].
          unfold max_nanos. lia. }
        assert (Zb : zlen buf < 2 ^ 63).
        { destruct bare; [exact Hz|]. cbn [finish] in Hz. pose proof (zlen_byte_slice buf). lia. }
        edestruct (@enter_finish value) as (n0 & rest' & -> & Hn0 & R1 & R2); [exact Zb|]. rewrite Hct, Hd, Er.
        assert (rest' = []) by (destruct bare; [rewrite R2 by reflexivity|]; auto). subst rest'. rewrite app_nil_r.
        rewrite (decode_time_encode s ns buf TK E).
        cbn [dbind]. rewrite slide_le by lia. cbn [fst snd]. rewrite Hn0. reflexivity.
      - destruct v; try discriminate. cbn [has_type] in Ht. rewrite Er in Ht. pose proof Ht as Ht'. apply andb_true_iff in Ht'. destruct Ht' as [Hlen Hte].
        destruct (is_uint8 env e) eqn:Eu.
        + destruct (gotype_eqb e (TPrim PUint8)) eqn:Eg; [|discriminate]. inversion Hn; subst pl. apply EOk_inj in H'. subst bz.
          apply Nat.eqb_eq in Hlen. subst len. eapply byte_array_rt; try eassumption. reflexivity.
        + unfold is_list in Hn. unfold is_list_kind in H'.
          assert (H2 : encode_list env c (encode_reflect k env c) info (VArr l) o bare = EOk bz) by (destruct (resolve env e); try discriminate; exact H').
          assert (Hn2 : norm_list env c (blank k env) (fixed_width k env) (norm k env c) t o (VArr l) = Some pl) by (destruct (resolve env e); try discriminate; exact Hn).
          pose proof (list_rt _ _ _ _ Hlead dec IH1 info t (VArr l) o bare bz pl rest Hi Hd) as R. rewrite Er in R. apply R; try assumption.
          * cbn [has_type]. rewrite Er. exact Ht.
          * intros X. left. auto.
      - destruct v as [| | | | | | |ol| | | | | | |]; try discriminate. cbn [has_type] in Ht. rewrite Er in Ht.
        destruct (is_uint8 env e) eqn:Eu.
        + assert (X : exists l, bz = encode_byte_slice (val_bytes l) /\ pl = slice_of l /\ forallb (has_type env e) l = true /\ (l <> [] -> gotype_eqb e (TPrim PUint8) = true)).
          { destruct ol as [l|]; apply EOk_inj in H'; subst bz.
            - exists l. split; [reflexivity|]. destruct l; [inversion Hn; splits; [reflexivity|reflexivity|contradiction]|].
              destruct (gotype_eqb e (TPrim PUint8)); [|discriminate]. inversion Hn. splits; [reflexivity|exact Ht|reflexivity].
            - exists []. inversion Hn. splits; [reflexivity|reflexivity|reflexivity|contradiction]. }
          destruct X as (l & -> & -> & X1 & X2). eapply byte_slice_rt; eassumption.
        + unfold is_list in Hn. unfold is_list_kind in H'.
          assert (H2 : encode_list env c (encode_reflect k env c) info (VSlice ol) o bare = EOk bz) by (destruct (resolve env e); try discriminate; exact H').
          assert (Hn2 : norm_list env c (blank k env) (fixed_width k env) (norm k env c) t o (VSlice ol) = Some pl) by (destruct (resolve env e); try discriminate; exact Hn).
          pose proof (list_rt _ _ _ _ Hlead dec IH1 info t (VSlice ol) o bare bz pl rest Hi Hd) as R. rewrite Er in R. apply R; try assumption.
          * cbn [has_type]. rewrite Er. exact Ht.
          * intros X. left. auto.
      - destruct info as [ci|ii]; [discriminate|]. destruct Hi as [Hin Hct]. rewrite Hd in Hct. subst t. cbn [zero].
        apply (iface_rt _ _ dec IH1 ii (TIface (ii_id ii)) v o bare bz pl rest Hin eq_refl Ht Hnum H' Hz); [|exact Hr].
        cbn [resolve] in Er. inversion Er; subst i. exact Hn.
      - destruct info as [ci|ii]; [|discriminate]. destruct Hi as [Hct Hok]. unfold encode_struct in H'. rewrite Hct, Hd, Er in H'.
        destruct v as [| | | | | | | | |l| | | | |]; try discriminate. einv H'. rename a into buf. apply EOk_inj in H'. subst bz.
        unfold option_map in Hn. destruct (norm_fields _ _ _ _ _ _ _ _) as [l'|] eqn:Enf; [|discriminate]. inversion Hn; subst pl; clear Hn.
        cbn [has_type] in Ht. rewrite Er in Ht.
        assert (Zb : zlen buf < 2 ^ 63).
        { destruct bare; [exact Hz|]. cbn [finish] in Hz. pose proof (zlen_byte_slice buf). lia. }
        unfold decode_struct. rewrite (zero_struct _ _ _ We Er).
        edestruct (@enter_finish value) as (n0 & rest' & -> & Hn0 & R1 & R2); [exact Zb|]. rewrite Hct, Hd, Er.
        assert (rest' = []) by (destruct bare; [rewrite R2 by reflexivity|]; auto). subst rest'.
        destruct (info_ok_parts _ _ Hok) as (_ & Hpf & _). rewrite Hct, Hd in Hpf. unfold parse_struct_info in Hpf. rewrite Er in Hpf.
        destruct (fields_rt _ _ _ _ Hlead dec (decode_reflect fd env c) IH1 IH0 (decode_list_unfold fd) (blank_num env k)
          fs 0%nat 0%nat (ci_fields ci) [] l buf l' [] 0 n0 [] Hpf eq_refl Ht E Zb Enf eq_refl) as [_ (last' & _ & D)]; [lia|left; reflexivity|].
        cbn [app] in D. rewrite D. cbn [dbind length consume_rest]. rewrite Hn0. reflexivity. }
    assert (ND : match info, tt with TIFace _, TPtr _ => False | _, _ => True end).
    { destruct info as [|ii]; [exact I|]. destruct tt; try exact I. cbn [is_ptr] in Hpi. destruct Hi as [_ Hi]. rewrite Hd in Hi. rewrite Hi in Hpi. discriminate. }
    assert (GO : dmap (rebuild tt)
            (match info with
             | TIConc {| ci_type := ct; ci_unmarshal := Some r |} =>
                 eget (get_type_info env c r) (fun e => DRet (zero env t) 0 (Some e)) (fun rinfo =>
                 dbind (dec (bz ++ rest) rinfo r (zero env r) o bare) (fun rv n e =>
                 slide (bz ++ rest) n (fun _ =>
                 match e with
                 | Some e => DRet (zero env t) n (Some e)
                 | None => eget (from_repr env ct (zero env t) rv) (fun e => DRet (zero env t) n (Some e))
                                (fun r => DRet (fst r) n (snd r))
                 end)))
             | _ => decode_switch env c dec (bz ++ rest) info (zero env t) o bare
             end) = DRet (ptrs tt v') (length bz) None).
    { assert (G : forall r, r = DRet v' (length bz) None -> dmap (rebuild tt) r = DRet (ptrs tt v') (length bz) None).
      { intros r ->. cbn. unfold rebuild. rewrite <- ptrs_wrap. reflexivity. }
      apply G. clear G. cbn [norm] in Hn. destruct info as [ci|ii].
      - destruct Hi as [Hct Hok]. rewrite Hd in Hct.
        pose proof (minfo_method _ _ _ Hct Hok) as M. pose proof (minfo_unmethod _ _ _ Hct Hok) as U.
        destruct ci as [ct cf cm cu cr]. cbn [ci_unmarshal ci_type ci_marshal] in *. subst ct.
        destruct cm as [r|].
        + destruct M as (id & f & Et & M & Mr). destruct H as (w & rinfo & Hw & Hri & H).
          clear Hpi ND Hbase SW Htt. subst t. cbv beta iota zeta in Hn.
          rewrite M in Hn. cbn [to_repr] in Hw. rewrite M in Hw. rewrite Hw in Hn.
          destruct (te_unmarshal env id) as [[|r' g]|] eqn:Eun; try discriminate.
          destruct (gotype_eqb r r') eqn:Err; [|discriminate]. apply gotype_eqb_eq in Err. subst r'.
          destruct cu as [r'|]; [|specialize (U id eq_refl); congruence]. destruct U as (id' & g' & X & U & _). inversion X; subst id'.
          rewrite Eun in U. inversion U; subst r' g'; clear U X.
          destruct (norm k env c r o w) as [w'|] eqn:Enk; [|discriminate].
          destruct (g (zero env (TNamed id)) w') as [[v1 [er|]]| | |] eqn:Eg; try discriminate. inversion Hn; subst v1; clear Hn.
          rewrite Hri. cbn [eget].
          assert (D : dec (bz ++ rest) rinfo r (zero env r) o bare = DRet (ptrs r w') (length bz) None).
          { eapply (IH1 rinfo r w o bare bz w' rest r); try assumption.
            - apply (gti_minfo _ _ _ _ Hs Hri).
            - eapply Hm; eassumption.
            - rewrite <- Mr. rewrite deref_is_ptr. reflexivity.
            - rewrite base_zero, Mr. reflexivity. }
          rewrite D, (ptrs_nonptr _ _ Mr). cbn [dbind]. rewrite slide_app by reflexivity. cbn [from_repr]. rewrite Eun, Eg. reflexivity.
        + assert (cu = None).
          { destruct cu as [r|]; [|reflexivity]. destruct U as (id & g & -> & U & _). specialize (M id eq_refl). rewrite M, U in Hn. discriminate. }
          subst cu. apply SW; [exact H|]. destruct t; try exact Hn. rewrite (M id eq_refl), (U id eq_refl) in Hn. exact Hn.
      - apply SW; [exact H|]. destruct Hi as [_ Hi]. rewrite Hd in Hi. subst t. exact Hn. }
    change (decode_reflect (S (S fd)) env c (bz ++ rest) info tt w0 o bare = DRet (ptrs tt v') (length bz) None).
    cbn [decode_reflect]. fold dec. rewrite Hbase. destruct info as [ci|ii]; [exact GO|]. destruct tt; try exact GO. contradiction.
  Qed.
End RT.
