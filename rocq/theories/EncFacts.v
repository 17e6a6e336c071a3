(** Facts about the encoder: agreement of the specification's vocabulary with
    reflect.go, and which values are written as a single zero byte. *)
From Coq Require Import ZArith String List Bool Lia.
From Coq Require Import ZifyBool ZifyNat.
From Verif Require Import Base Prims SpecWire PrimFacts PrimProps Types Codec BinEnc BinDec Amino DecFacts
  ValueInd Typing Registry SpecRegistry RegistryFacts Sane DecSafe SpecNorm.
Import ListNotations.
Local Open Scope Z_scope.

Lemma ebind_ok {A B} (r : eres A) (f : A -> eres B) b : ebind r f = EOk b -> exists a, r = EOk a /\ f a = EOk b.
Proof. destruct r; try discriminate. eauto. Qed.
Lemma EOk_inj {A} (a b : A) : EOk a = EOk b -> a = b.
Proof. congruence. Qed.
Ltac einv H := apply ebind_ok in H; let a := fresh "a" in let E := fresh "E" in destruct H as (a & E & H).

(** ** Vocabulary *)

Lemma deref_pointers_under v : deref_pointers v = match under v with Some w => (w, false) | None => (VInvalid, true) end.
Proof. induction v using value_ind'; cbn [deref_pointers under]; try reflexivity. assumption. Qed.

Lemma default_eq v : snd (is_default_value v) = defaultv v.
Proof.
  unfold is_default_value. induction v using value_ind'; cbn [deref_pointers defaultv snd]; try reflexivity; try exact IHv.
  destruct b; reflexivity.
Qed.
Lemma default_fst v : fst (is_default_value v) = match under v with Some w => w | None => VInvalid end.
Proof. unfold is_default_value. rewrite deref_pointers_under. destruct (under v); reflexivity. Qed.
Lemma default_pair v : is_default_value v = (match under v with Some w => w | None => VInvalid end, defaultv v).
Proof. rewrite <- default_eq, <- default_fst. destruct (is_default_value v). reflexivity. Qed.

Lemma ptrs_wrap t v : ptrs t v = wrap_ptrs t v.
Proof. induction t; cbn; try reflexivity. Qed.
Lemma absent_eq env t : absent env t = default_value env t.
Proof. unfold absent, default_value. rewrite ptrs_wrap. reflexivity. Qed.
Lemma mk_slice_eq l : slice_of l = mk_slice l.
Proof. reflexivity. Qed.

Lemma deref_zero_under env : forall v t, deref_pointers_zero env t v = match under v with Some w => w | None => zero env (deref_type t) end.
Proof.
  induction v using value_ind'; intros ty; cbn [deref_pointers_zero under]; try reflexivity.
  rewrite IHv. destruct ty; reflexivity.
Qed.

Lemma deref_idem t : deref_type (deref_type t) = deref_type t.
Proof. induction t; auto. Qed.
Lemma deref_nonptr t : is_ptr t = false -> deref_type t = t.
Proof. destruct t; try reflexivity. discriminate. Qed.
Lemma deref_is_ptr t : is_ptr (deref_type t) = false.
Proof. induction t; auto. Qed.

Lemma under_typed env : wf_env env -> forall v ty w, has_type env ty v = true -> under v = Some w ->
  has_type env (deref_type ty) w = true.
Proof.
  intros We. induction v using value_ind'; intros ty w Ht Hu; cbn [under] in Hu; try discriminate;
    try (inversion Hu; subst w;
         assert (N : is_ptr ty = false) by (destruct ty; try reflexivity; cbn in Ht; discriminate);
         rewrite (deref_nonptr _ N); exact Ht).
  cbn [has_type] in Ht. destruct (resolve env ty) eqn:E; try discriminate; [destruct p; discriminate|].
  apply resolve_ptr in E; [|assumption]. subst ty. cbn [deref_type]. eapply IHv; eassumption.
Qed.
Lemma ptr_typed env o ty : wf_env env -> has_type env ty (VPtr o) = true -> is_ptr ty = true.
Proof.
  intros We Ht. cbn [has_type] in Ht. destruct (resolve env ty) eqn:E; try discriminate; [destruct p; discriminate|].
  apply resolve_ptr in E; [|assumption]. subst ty. reflexivity.
Qed.
Lemma under_nonptr env v t : has_type env t v = true -> is_ptr t = false -> wf_env env -> under v = Some v.
Proof.
  intros Ht Hp We. destruct v; try reflexivity. apply ptr_typed in Ht; [congruence|assumption].
Qed.
Lemma val_ptr_typed env v t : wf_env env -> has_type env t v = true -> val_is_ptr v = is_ptr t.
Proof.
  intros We Ht. destruct v; cbn [val_is_ptr]; [..|symmetry; eapply ptr_typed; eassumption| | | | | |];
    (destruct t; cbn [is_ptr]; try reflexivity; cbn in Ht; discriminate).
Qed.
Lemma under_not_ptr v : forall w, under v = Some w -> val_is_ptr w = false.
Proof.
  induction v using value_ind'; intros w; cbn [under]; try (intros X; inversion X; reflexivity); try discriminate.
  apply IHv.
Qed.

Lemma gti_minfo env c t info : sane_codec env c -> get_type_info env c t = EOk info -> minfo env c info t.
Proof.
  intros S H. destruct info; cbn; [apply (get_type_info_sane env c t); assumption|apply (get_type_info_iface_sane env c t); assumption].
Qed.
Lemma minfo_deref env c info t : minfo env c info t -> minfo env c info (deref_type t).
Proof. destruct info; cbn; rewrite deref_idem; auto. Qed.

Lemma typ3_delimited env e o z : type_to_typ3 env (deref_type e) o = EOk z -> (z =? Typ3ByteLength) = delimited env e.
Proof.
  unfold type_to_typ3, delimited.
  destruct (resolve env (deref_type e)) as [[]| | | | | | | | | |]; try discriminate;
    try (destruct (fo_fixed64 o)); try (destruct (fo_fixed32 o)); intros H; inversion H; reflexivity.
Qed.
Lemma unpacked_entries env t o up : unpacked_list env t o = EOk up -> up = entries env t.
Proof.
  unfold unpacked_list, entries. destruct (resolve env t); try (intros H; inversion H; reflexivity);
  (destruct (is_uint8 env e); [intros H; inversion H; reflexivity|]; intros H; einv H; inversion H; cbn [negb andb];
   eapply typ3_delimited; eassumption).
Qed.
Lemma typ3_range env t o z : type_to_typ3 env t o = EOk z -> 0 <= z < 8.
Proof.
  unfold type_to_typ3. destruct (resolve env t) as [[]| | | | | | | | | |]; try discriminate;
    try (destruct (fo_fixed64 o)); try (destruct (fo_fixed32 o)); intros H; inversion H; cbv; intuition discriminate.
Qed.

Lemma zero_array env t n e : wf_env env -> resolve env t = RArray n e -> zero env t = VArr (repeat (zero env e) n).
Proof.
  intros We. destruct t; cbn; try discriminate; [intros H; inversion H; reflexivity|].
  rewrite (we_zero _ We). destruct (te_def env id) as [|[]]; try discriminate. intros H; inversion H; reflexivity.
Qed.
Lemma zero_slice env t e : wf_env env -> resolve env t = RSlice e -> zero env t = VSlice None.
Proof.
  intros We. destruct t; cbn; try discriminate; [intros H; inversion H; reflexivity|].
  rewrite (we_zero _ We). destruct (te_def env id) as [|[]]; try discriminate. intros H; inversion H; reflexivity.
Qed.
Lemma zero_struct env t fs : wf_env env -> resolve env t = RStruct fs -> zero env t = VStruct (map (fun f => zero env (sf_type f)) fs).
Proof.
  intros We. destruct t; cbn; try discriminate.
  rewrite (we_zero _ We). destruct (te_def env id) as [|[]]; try discriminate. intros H; inversion H; reflexivity.
Qed.
Lemma zero_time_eq env t : wf_env env -> resolve env t = RTime -> zero env t = zero_time.
Proof. intros We H. apply resolve_time in H; [|assumption]. subst. reflexivity. Qed.

Lemma base_zero env : forall t, base_of env t (zero env t) = zero env (deref_type t).
Proof. induction t; cbn [base_of zero deref_type]; try reflexivity. exact IHt. Qed.

(** ** First bytes *)

(** Not starting with a zero byte. *)
Definition nz (bz : bytes) : Prop := match bz with 0 :: _ => False | _ => True end.

Lemma uvarint_zero : encode_uvarint 0 = [0].
Proof. reflexivity. Qed.
Lemma uvarint_nz u : 0 < u < 2 ^ 64 -> exists b l, encode_uvarint u = b :: l /\ b <> 0.
Proof.
  intros H. unfold encode_uvarint. cbn [put_uvarint]. destruct (Z.ltb_spec u 128).
  - exists u, []. split; [reflexivity|lia].
  - rewrite lor_128. eexists _, _. split; [reflexivity|]. pose proof (Z.mod_pos_bound u 128 eq_refl). lia.
Qed.
Lemma nz_cons b l : b <> 0 -> nz (b :: l).
Proof. destruct b; cbn; auto. Qed.
Lemma nz_uvarint u rest : 0 < u < 2 ^ 64 -> nz (encode_uvarint u ++ rest) /\ encode_uvarint u ++ rest <> [0].
Proof.
  intros H. destruct (uvarint_nz u H) as (b & l & -> & Hb). cbn [app]. split; [apply nz_cons; assumption|].
  intros X. inversion X. contradiction.
Qed.
Lemma byte_slice_nil : encode_byte_slice [] = [0].
Proof. reflexivity. Qed.
Lemma byte_slice_nz b : b <> [] -> zlen b < 2 ^ 63 -> nz (encode_byte_slice b) /\ encode_byte_slice b <> [0].
Proof. intros H1 H2. unfold encode_byte_slice. apply nz_uvarint. destruct b; [contradiction|]. unfold zlen in *. cbn [length] in *. lia. Qed.
Lemma byte_slice_len b : (length b < length (encode_byte_slice b))%nat.
Proof. unfold encode_byte_slice. rewrite app_length. unfold encode_uvarint. cbn [put_uvarint]. destruct (_ <? _); cbn [length]; lia. Qed.
Lemma byte_slice_nonnil b : encode_byte_slice b <> [].
Proof. intros H. pose proof (byte_slice_len b). rewrite H in *. cbn in *. lia. Qed.
Lemma zlen_app {A} (a b : list A) : zlen (a ++ b) = zlen a + zlen b.
Proof. unfold zlen. rewrite app_length. lia. Qed.
Lemma zlen_nonneg {A} (a : list A) : 0 <= zlen a.
Proof. unfold zlen. lia. Qed.
Lemma zlen_byte_slice b : zlen b < zlen (encode_byte_slice b).
Proof. pose proof (byte_slice_len b). unfold zlen. lia. Qed.

Lemma key_ok_inv num typ key : 0 <= num -> 0 <= typ < 8 -> encode_field_key num typ = EOk key ->
  num < 2 ^ 29 /\ key = key_bytes num typ.
Proof.
  intros Hn Ht H. assert (num < 2 ^ 29).
  { unfold encode_field_key in H. destruct (negb _); [discriminate|]. destruct (Z.ltb_spec (2 ^ 29 - 1) num); [discriminate|]. lia. }
  split; [assumption|]. rewrite encode_field_key_ok in H by lia. inversion H. reflexivity.
Qed.
Lemma key_nonnil num typ : 0 <= num < 2 ^ 29 -> 0 <= typ < 8 -> (0 < length (key_bytes num typ))%nat.
Proof. intros. apply encode_uvarint_nonnil. lia. Qed.

(** ** Scalars *)

Definition fixed_prim (p : prim) (o : fopts) : bool :=
  match p with
  | PFloat32 | PFloat64 => true
  | PInt64 | PUint64 => fo_fixed64 o
  | PInt32 | PUint32 => fo_fixed32 o
  | _ => false
  end.

Lemma uv_lead u : 0 <= u < 2 ^ 64 -> if u =? 0 then encode_uvarint u = [0] else encode_uvarint u <> [0] /\ nz (encode_uvarint u).
Proof.
  intros H. destruct (Z.eqb_spec u 0); [subst; reflexivity|].
  pose proof (nz_uvarint u [] ltac:(lia)) as [H1 H2]. rewrite app_nil_r in *. auto.
Qed.
Lemma le_ne0 n v : (1 < n)%nat -> put_le n v <> [0].
Proof. intros H X. apply (f_equal (@length Z)) in X. rewrite put_le_length in X. cbn in X. lia. Qed.

Lemma u64_zero z : in_int 64 z = true -> (u64 z =? 0) = (z =? 0).
Proof.
  unfold in_int. intros H. change (64 - 1) with 63 in H. destruct (Z.eqb_spec z 0) as [->|N]; [reflexivity|].
  destruct (Z.leb_spec 0 z); [rewrite u64_small by lia|rewrite u64_neg by lia]; lia.
Qed.
Lemma in_int_w w w' z : 0 < w <= w' -> in_int w z = true -> in_int w' z = true.
Proof.
  unfold in_int. intros H. assert (2 ^ (w - 1) <= 2 ^ (w' - 1)) by (apply Z.pow_le_mono_r; lia). lia.
Qed.
Lemma varint_lead z : in_int 64 z = true -> if z =? 0 then encode_varint z = [0] else encode_varint z <> [0] /\ nz (encode_varint z).
Proof.
  intros H. unfold encode_varint. change (put_uvarint 10) with encode_uvarint.
  unfold in_int in H. change (64 - 1) with 63 in H. rewrite put_varint_u_zigzag by lia.
  pose proof (zigzag_range z ltac:(lia)) as R. pose proof (uv_lead _ R) as L.
  assert (E : (zigzag z =? 0) = (z =? 0)) by (unfold zigzag; destruct (z <? 0) eqn:E1; lia).
  rewrite E in L. exact L.
Qed.

Lemma prim_lead p o v bz : prim_has p v = true -> zlen bz < 2 ^ 63 -> encode_prim p v o = EOk bz ->
  bz <> [] /\ if blank_prim p o v then bz = [0] else bz <> [0] /\ (fixed_prim p o = false -> nz bz).
Proof.
  intros Hp Hl H.
  assert (UV : forall u, 0 <= u < 2 ^ 64 -> encode_uvarint u <> []) by
    (intros u Hu X; pose proof (encode_uvarint_nonnil u Hu); rewrite X in *; cbn in *; lia).
  assert (VV : forall z, in_int 64 z = true -> encode_varint z <> []).
  { intros z Hz. unfold encode_varint. change (put_uvarint 10) with encode_uvarint. unfold in_int in Hz. change (64 - 1) with 63 in Hz.
    rewrite put_varint_u_zigzag by lia. apply UV. apply zigzag_range. lia. }
  assert (LE : forall n x, (1 < n)%nat -> put_le n x <> []) by
    (intros n x Hn X; apply (f_equal (@length Z)) in X; rewrite put_le_length in X; cbn in X; lia).
  destruct p, v; try discriminate; cbn [encode_prim blank_prim fixed_prim prim_has] in *.
  - apply EOk_inj in H; subst bz. destruct b; cbn; split; try discriminate; [split; [discriminate|]|]; auto.
  - apply EOk_inj in H; subst bz. rewrite <- (u64_zero z) by assumption. split; [apply UV; apply u64_range|].
    pose proof (uv_lead _ (u64_range z)) as L. destruct (u64 z =? 0); tauto.
  - apply EOk_inj in H; subst bz. unfold encode_int8. rewrite iwrap_small by (unfold in_int in Hp; lia).
    apply (in_int_w 8 64) in Hp; [|lia]. split; [apply VV; assumption|]. pose proof (varint_lead _ Hp) as L. destruct (z =? 0); tauto.
  - apply EOk_inj in H; subst bz. unfold encode_int16. rewrite iwrap_small by (unfold in_int in Hp; lia).
    apply (in_int_w 16 64) in Hp; [|lia]. split; [apply VV; assumption|]. pose proof (varint_lead _ Hp) as L. destruct (z =? 0); tauto.
  - apply (in_int_w 32 64) in Hp; [|lia]. destruct (fo_fixed32 o); apply EOk_inj in H; subst bz.
    + rewrite andb_false_r. split; [apply LE; lia|]. split; [apply le_ne0; lia|discriminate].
    + rewrite andb_true_r, <- (u64_zero z) by assumption. split; [apply UV; apply u64_range|].
      pose proof (uv_lead _ (u64_range z)) as L. destruct (u64 z =? 0); tauto.
  - destruct (fo_fixed64 o); apply EOk_inj in H; subst bz.
    + rewrite andb_false_r. split; [apply LE; lia|]. split; [apply le_ne0; lia|discriminate].
    + rewrite andb_true_r, <- (u64_zero z) by assumption. split; [apply UV; apply u64_range|].
      pose proof (uv_lead _ (u64_range z)) as L. destruct (u64 z =? 0); tauto.
  - apply EOk_inj in H; subst bz. unfold in_uint in Hp. split; [apply UV; lia|]. pose proof (uv_lead z ltac:(lia)) as L. destruct (z =? 0); tauto.
  - apply EOk_inj in H; subst bz. unfold in_uint in Hp. unfold encode_uint8, uwrap. rewrite Z.mod_small by lia.
    split; [apply UV; lia|]. pose proof (uv_lead z ltac:(lia)) as L. destruct (z =? 0); tauto.
  - apply EOk_inj in H; subst bz. unfold in_uint in Hp. unfold encode_uint16, uwrap. rewrite Z.mod_small by lia.
    split; [apply UV; lia|]. pose proof (uv_lead z ltac:(lia)) as L. destruct (z =? 0); tauto.
  - unfold in_uint in Hp. destruct (fo_fixed32 o); apply EOk_inj in H; subst bz.
    + rewrite andb_false_r. split; [apply LE; lia|]. split; [apply le_ne0; lia|discriminate].
    + rewrite andb_true_r. split; [apply UV; lia|]. pose proof (uv_lead z ltac:(lia)) as L. destruct (z =? 0); tauto.
  - unfold in_uint in Hp. destruct (fo_fixed64 o); apply EOk_inj in H; subst bz.
    + rewrite andb_false_r. split; [apply LE; lia|]. split; [apply le_ne0; lia|discriminate].
    + rewrite andb_true_r. split; [apply UV; lia|]. pose proof (uv_lead z ltac:(lia)) as L. destruct (z =? 0); tauto.
  - destruct (fo_unsafe o); [|discriminate]. apply EOk_inj in H; subst bz. unfold encode_float32, encode_uint32. split; [apply LE; lia|]. split; [apply le_ne0; lia|intros X; discriminate X].
  - destruct (fo_unsafe o); [|discriminate]. apply EOk_inj in H; subst bz. unfold encode_float64, encode_uint64. split; [apply LE; lia|]. split; [apply le_ne0; lia|intros X; discriminate X].
  - apply EOk_inj in H; subst bz. unfold encode_string in *. split; [apply byte_slice_nonnil|]. destruct s as [|x s]; [reflexivity|].
    pose proof (zlen_byte_slice (x :: s)). destruct (byte_slice_nz (x :: s)); [discriminate|lia|]. auto.
Qed.

(** ** Inversion of the encoder *)

Definition elem_type (env : tenv) (t : gotype) : option gotype :=
  match resolve env t with RArray _ e | RSlice e => Some e | _ => None end.

Lemma elem_typed env t v e l : elem_type env t = Some e -> has_type env t v = true -> list_elems v = Some l ->
  forallb (has_type env e) l = true.
Proof.
  unfold elem_type. intros He Ht Hl. destruct v as [| | | | | |l0|[l0|]| | | | | | |]; cbn [list_elems] in Hl; try discriminate;
    inversion Hl; subst l; cbn [has_type] in Ht; destruct (resolve env t) as [p| | | | | | | | | |]; try discriminate; inversion He; subst; try reflexivity;
    try exact Ht.
  apply andb_true_iff in Ht. tauto.
Qed.

Lemma encode_list_inv env c rec info v o bare bz : encode_list env c rec info v o bare = EOk bz ->
  exists e einfo l buf, elem_type env (ti_type info) = Some e /\ is_uint8 env e = false /\
    get_type_info env c e = EOk einfo /\ list_elems v = Some l /\ bz = finish bare buf /\
    (exists z, type_to_typ3 env (ti_type einfo) o = EOk z) /\
    (forall z, type_to_typ3 env (ti_type einfo) o = EOk z ->
     (if z =? Typ3ByteLength then encode_unpacked env rec e einfo l o else encode_packed env rec e einfo l o) = EOk buf).
Proof.
  unfold encode_list, elem_type. intros H.
  assert (G : forall ert, (if is_uint8 env ert then EPanic "should not happen"%string
        else
          ebind (get_type_info env c ert) (fun einfo =>
          ebind (type_to_typ3 env (ti_type einfo) o) (fun typ3 =>
          match list_elems v with
          | None => EPanic "reflect: call on wrong kind"%string
          | Some l =>
              ebind (if negb (typ3 =? Typ3ByteLength)
                           then encode_packed env rec ert einfo l o
                           else encode_unpacked env rec ert einfo l o) (fun buf =>
              EOk (finish bare buf))
          end))) = EOk bz -> exists e einfo l buf, Some ert = Some e /\ is_uint8 env e = false /\
    get_type_info env c e = EOk einfo /\ list_elems v = Some l /\ bz = finish bare buf /\
    (exists z, type_to_typ3 env (ti_type einfo) o = EOk z) /\
    (forall z, type_to_typ3 env (ti_type einfo) o = EOk z ->
     (if z =? Typ3ByteLength then encode_unpacked env rec e einfo l o else encode_packed env rec e einfo l o) = EOk buf)).
  { clear H. intros e H. destruct (is_uint8 env e) eqn:Eu; [discriminate|]. einv H. einv H.
    destruct (list_elems v) as [l|] eqn:El; [|discriminate]. einv H.
    apply EOk_inj in H. exists e, a, l, a1. splits; try assumption; try reflexivity; try (symmetry; assumption).
    - exists a0. assumption.
    - intros z Hz. rewrite E0 in Hz. apply EOk_inj in Hz. subst z. destruct (a0 =? Typ3ByteLength); exact E1. }
  destruct (resolve env (ti_type info)); try discriminate; apply G; exact H.
Qed.

Lemma encode_reflect_inv k env c info v o bare bz : encode_reflect (S k) env c info v o bare = EOk bz ->
  match info with
  | TIConc ci =>
      match ci_marshal ci with
      | Some r => exists w rinfo, to_repr env (ci_type ci) v = EOk w /\ get_type_info env c r = EOk rinfo /\
                                  encode_reflect k env c rinfo w o bare = EOk bz
      | None => encode_switch env c (encode_reflect k env c) (S k) info v o bare = EOk bz
      end
  | TIFace _ => encode_switch env c (encode_reflect k env c) (S k) info v o bare = EOk bz
  end.
Proof.
  intros H. cbn [encode_reflect] in H.
  destruct v; try discriminate; (destruct info as [[t fs [r|] u rg]|ii]; cbn [ci_marshal ci_type]; [| |]; try exact H;
    einv H; einv H; eexists _, _; splits; eassumption).
Qed.

(** How a method of [t] shows in its type information. *)
Lemma minfo_method env ci t : ci_type ci = t -> info_ok env ci ->
  match ci_marshal ci with
  | Some r => exists id f, t = TNamed id /\ te_marshal env id = Some (MOk r f) /\ deref_type r = r
  | None => forall id, t = TNamed id -> te_marshal env id = None
  end.
Proof.
  intros Ht Hi. destruct (info_ok_parts _ _ Hi) as (_ & _ & H & _). rewrite Ht in H. unfold marshal_repr in H.
  destruct t; try (apply EOk_inj in H; rewrite <- H; intros; discriminate).
  destruct (te_marshal env id) as [[p|r f]|] eqn:E.
  - discriminate.
  - assert (R : ci_marshal ci = Some r /\ is_ptr r = false) by (destruct r; try discriminate; apply EOk_inj in H; rewrite <- H; split; reflexivity).
    destruct R as [-> Hr]. exists id, f. splits; [reflexivity|exact E|apply deref_nonptr; assumption].
  - apply EOk_inj in H. rewrite <- H. intros id' X. inversion X; subst. exact E.
Qed.
Lemma minfo_unmethod env ci t : ci_type ci = t -> info_ok env ci ->
  match ci_unmarshal ci with
  | Some r => exists id g, t = TNamed id /\ te_unmarshal env id = Some (UOk r g) /\ deref_type r = r
  | None => forall id, t = TNamed id -> te_unmarshal env id = None
  end.
Proof.
  intros Ht Hi. destruct (info_ok_parts _ _ Hi) as (_ & _ & _ & H). rewrite Ht in H. unfold unmarshal_repr in H.
  destruct t; try (apply EOk_inj in H; rewrite <- H; intros; discriminate).
  destruct (te_unmarshal env id) as [[p|r f]|] eqn:E.
  - discriminate.
  - assert (R : ci_unmarshal ci = Some r /\ is_ptr r = false) by (destruct r; try discriminate; apply EOk_inj in H; rewrite <- H; split; reflexivity).
    destruct R as [-> Hr]. exists id, f. splits; [reflexivity|exact E|apply deref_nonptr; assumption].
  - apply EOk_inj in H. rewrite <- H. intros id' X. inversion X; subst. exact E.
Qed.

(** Prefix bytes: four, the first not zero. *)
Lemma strip_zeros_nz b : nz (strip_zeros b).
Proof. induction b as [|x b IH]; cbn [strip_zeros]; [exact I|]. destruct x; [exact IH| |]; apply nz_cons; discriminate. Qed.
Lemma disfix_shape env n d p : name_to_disfix env n = EOk (d, p) -> length d = 3%nat /\ length p = 4%nat /\ nz p.
Proof.
  unfold name_to_disfix. cbv zeta. set (h := strip_zeros (te_hash env n)).
  destruct (Nat.ltb_spec (length h) 3); [discriminate|]. set (h' := strip_zeros (skipn 3 h)).
  destruct (Nat.ltb_spec (length h') 4); [discriminate|]. intros X. apply EOk_inj in X.
  assert (D : d = firstn 3 h) by (symmetry; exact (f_equal fst X)). assert (P : p = firstn 4 h') by (symmetry; exact (f_equal snd X)).
  clear X. rewrite D, P. clear D P.
  splits; [rewrite firstn_length; lia|rewrite firstn_length; lia|].
  pose proof (strip_zeros_nz (skipn 3 h)). fold h' in H1. clearbody h'. clear h H.
  destruct h' as [|x h']; [exact I|]. cbn [firstn]. destruct x; [contradiction| |]; apply nz_cons; discriminate.
Qed.
Lemma reg_shape env ci r : info_ok env ci -> ci_reg ci = Some r ->
  length (ri_disamb r) = 3%nat /\ length (ri_prefix r) = 4%nat /\ nz (ri_prefix r).
Proof. intros [_ H] Hr. unfold reg_ok in H. rewrite Hr in H. eapply disfix_shape. exact H. Qed.

(** ** Field options *)

Lemma set_num_set a b o : set_num a (set_num b o) = set_num a o.
Proof. reflexivity. Qed.
Lemma set_num_id o : set_num (fo_num o) o = o.
Proof. destruct o; reflexivity. Qed.

Lemma blank_num env : forall k t a o v, blank k env t (set_num a o) v = blank k env t o v.
Proof.
  induction k as [|k IH]; intros t a o v; [reflexivity|]. cbn [blank].
  destruct t; try reflexivity. destruct (te_marshal env id) as [[|r f]|]; try reflexivity.
  destruct (f v); try reflexivity. apply IH.
Qed.

Lemma parse_step env f fs i num infos : parse_fields env (f :: fs) i num = EOk infos ->
  match field_opts (Z.of_nat num + 1) f with
  | None => parse_fields env fs (S i) num = EOk infos
  | Some o => exists fi rest, infos = fi :: rest /\ fi_index fi = i /\ fi_type fi = sf_type f /\
      fi_unpacked fi = entries env (sf_type f) /\ fi_opts fi = set_num (u32 (Z.of_nat num + 1)) o /\
      check_unsafe env (sf_type f) o = EOk tt /\ parse_fields env fs (S i) (S num) = EOk rest
  end.
Proof.
  cbn [parse_fields]. unfold field_opts. destruct (sf_exported f); cbn [negb]; [|tauto].
  destruct (parse_field_options f) as [o|]; cbn [option_map]; [|tauto]. intros H. einv H. cbv zeta in H. einv H. einv H.
  apply EOk_inj in H. eexists _, _. split; [symmetry; exact H|]. cbn [fi_index fi_type fi_unpacked fi_opts].
  splits; try reflexivity; try assumption; [eapply unpacked_entries; eassumption|]. destruct a0. exact E0.
Qed.

Lemma u32_range z : 0 <= u32 z < 2 ^ 32.
Proof. unfold u32, uwrap. apply Z.mod_pos_bound. reflexivity. Qed.

(** ** Which values are written as a single zero byte *)

Section Lead.
  Variable env : tenv.
  Hypothesis We : wf_env env.
  Variable c : codec.
  Hypothesis Hs : sane_codec env c.
  Hypothesis Hm : marshal_typed env.

  Section Step.
  Variable rec : tinfo -> value -> fopts -> bool -> eres bytes.
  Variable bl : gotype -> fopts -> value -> bool.
  Variable fw : gotype -> fopts -> bool.
  Variable nm : gotype -> fopts -> value -> option value.
  Definition lead_ok : Prop := forall info t v o bz, minfo env c info t -> deref_type t = t -> has_type env t v = true ->
    0 <= fo_num o -> rec info v o false = EOk bz -> zlen bz < 2 ^ 63 ->
    (bl t o v = true -> bz = [0]) /\
    (bl t o v = false -> nm t o v <> None -> bz <> [] /\ bz <> [0] /\ (fw t o = false -> nz bz)).
  Hypothesis Hrec : lead_ok.
  Hypothesis Hbl : forall t a o v, bl t (set_num a o) v = bl t o v.

  Lemma unpacked_lead e einfo l o buf : 0 <= fo_num o -> encode_unpacked env rec e einfo l o = EOk buf -> (buf = [] <-> l = []).
  Proof.
    clear. intros Hn H. destruct l as [|v l]; cbn [encode_unpacked] in H.
    - apply EOk_inj in H. subst. tauto.
    - einv H. destruct (is_default_value v) as [erv isdef]. einv H. einv H. apply EOk_inj in H. subst buf.
      apply key_ok_inv in E; [|assumption|unfold Typ3ByteLength; lia]. destruct E as [Hn2 ->].
      pose proof (key_nonnil (fo_num o) Typ3ByteLength ltac:(lia) ltac:(unfold Typ3ByteLength; lia)) as K.
      split; [|discriminate]. intros X. apply app_eq_nil in X. destruct X as [X _]. rewrite X in K. cbn in K. lia.
  Qed.

  Lemma packed_typed e v : has_type env e v = true ->
    has_type env (deref_type e) (match under v with Some w => w | None => zero env (deref_type e) end) = true.
  Proof.
    intros Hv. destruct (under v) eqn:E; [eapply under_typed; eassumption|apply has_type_zero; assumption].
  Qed.

  Lemma packed_lead e einfo l o : forall buf, 0 <= fo_num o -> minfo env c einfo e -> forallb (has_type env e) l = true ->
    opt_map (norm_packed env nm e o) l <> None -> encode_packed env rec e einfo l o = EOk buf -> zlen buf < 2 ^ 63 ->
    (buf = [] <-> l = []).
  Proof.
    intros buf Hnum Hi Hl Hn H Hz. destruct l as [|v l]; cbn [encode_packed] in H.
    - apply EOk_inj in H. subst. tauto.
    - einv H. einv H. apply EOk_inj in H. subst buf. split; [|discriminate]. intros X. exfalso.
      rewrite deref_zero_under in E. cbn [forallb] in Hl. apply andb_true_iff in Hl. destruct Hl as [Hv Hl].
      apply packed_typed in Hv. rewrite zlen_app in Hz. pose proof (zlen_nonneg a0).
      destruct (Hrec _ _ _ _ _ (minfo_deref _ _ _ _ Hi) (deref_idem e) Hv Hnum E ltac:(lia)) as [H1 H2].
      apply app_eq_nil in X. destruct X as [-> _]. cbn [opt_map] in Hn. unfold norm_packed in Hn at 1.
      destruct (bl _ _ _); [discriminate (H1 eq_refl)|]. destruct H2 as [H2 _]; [reflexivity| |exact (H2 eq_refl)].
      destruct (nm _ _ _); [discriminate|congruence].
  Qed.

  Lemma typ3_elem einfo e o z : minfo env c einfo e -> type_to_typ3 env (ti_type einfo) o = EOk z ->
    (z =? Typ3ByteLength) = delimited env e.
  Proof. intros H. rewrite (minfo_type _ _ _ _ H). apply typ3_delimited. Qed.

  (** The body of a list is empty exactly when the list is. *)
  Lemma list_lead info t v o buf : minfo env c info t -> deref_type t = t -> has_type env t v = true -> 0 <= fo_num o ->
    encode_list env c rec info v o true = EOk buf -> zlen buf < 2 ^ 63 ->
    match elem_type env t, list_elems v with
    | Some e, Some l => (delimited env e = true \/ l = [] \/ norm_list env c bl fw nm t o v <> None -> (buf = [] <-> l = []))
    | _, _ => False
    end.
  Proof.
    intros Hi Hd Ht Hn H Hz. apply encode_list_inv in H. destruct H as (e & einfo & l & buf' & He & Hu & Hg & Hl & -> & [z Hz3] & H).
    pose proof (minfo_type _ _ _ _ Hi) as Ety. rewrite Hd in Ety. rewrite Ety in He. rewrite He, Hl.
    specialize (H z Hz3). pose proof (gti_minfo _ _ _ _ Hs Hg) as Hei. rewrite (typ3_elem _ _ _ _ Hei Hz3) in H.
    cbn [finish] in Hz |- *. intros Hnl.
    destruct (delimited env e) eqn:Ed; [eapply unpacked_lead; eassumption|].
    pose proof (elem_typed _ _ _ _ _ He Ht Hl) as Hte.
    destruct Hnl as [Hnl|[->|Hnl]]; [discriminate|cbn [encode_packed] in H; apply EOk_inj in H; subst; tauto|].
    eapply packed_lead; try eassumption. intros X. apply Hnl. unfold norm_list. unfold elem_type in He.
    destruct (resolve env t); try discriminate; apply (f_equal (fun x => match x with Some y => y | None => e end)) in He; rewrite He in *;
      destruct v as [| | | | | |l0|[l0|]| | | | | | |]; try reflexivity; cbn [list_elems] in Hl; inversion Hl; subst l0 || subst l;
      try discriminate X; unfold norm_elems; rewrite Ed, X; [reflexivity|]. destruct (known env c e); reflexivity.
  Qed.

  Lemma entries_elem t : entries env t = true -> exists e, elem_type env t = Some e /\ delimited env e = true /\ is_uint8 env e = false.
  Proof.
    clear. unfold entries, elem_type. destruct (resolve env t); try discriminate; intros H; apply andb_true_iff in H; destruct H as [H1 H2];
      exists e; destruct (is_uint8 env e); try discriminate; auto.
  Qed.
  Lemma elem_nonptr t e : elem_type env t = Some e -> is_ptr t = false.
  Proof. clear. destruct t; try reflexivity. discriminate. Qed.

  Lemma field_lead f v b : has_type env (fi_type f) v = true -> fi_unpacked f = entries env (fi_type f) ->
    0 <= fo_num (fi_opts f) -> encode_field env c rec f v = EOk b -> zlen b < 2 ^ 63 ->
    (blank_field env bl (fi_type f) (fi_opts f) v = true -> b = []) /\
    (blank_field env bl (fi_type f) (fi_opts f) v = false -> norm_field env c bl fw nm (fi_type f) (fi_opts f) v <> None -> b <> []).
  Proof.
    intros Ht Hup Hnum H Hz. unfold encode_field in H. einv H. rewrite default_pair in H. unfold blank_field, norm_field.
    rewrite Hup in H. pose proof (gti_minfo _ _ _ _ Hs E) as Hi.
    destruct (defaultv v && negb (fo_write_empty (fi_opts f))) eqn:Edef.
    { apply EOk_inj in H. subst b. split; [reflexivity|discriminate]. }
    destruct (entries env (fi_type f)) eqn:Een.
    - destruct (entries_elem _ Een) as (e & He & Hd & _). pose proof (elem_nonptr _ _ He) as Hp.
      rewrite (under_nonptr _ _ _ Ht Hp We) in H.
      pose proof (list_lead _ _ _ _ _ Hi (deref_nonptr _ Hp) Ht Hnum H Hz) as L. rewrite He in L.
      destruct (list_elems v) as [l|] eqn:El; [|contradiction]. specialize (L (or_introl Hd)).
      destruct v as [| | | | | |[|x l0]|[[|x l0]|]| | | | | | |]; cbn [list_elems] in El; try discriminate;
        inversion El; subst l; (split; [|intros Hb]; try discriminate; intros _; try (apply L; reflexivity); intros X; apply L in X; discriminate).
    - unfold write_field in H. einv H. einv H. einv H. rewrite (minfo_type _ _ _ _ Hi) in E0.
      pose proof (key_ok_inv _ _ _ Hnum (typ3_range _ _ _ _ E0) E1) as [Hn2 ->].
      pose proof (key_nonnil (fo_num (fi_opts f)) a0 ltac:(lia) (typ3_range _ _ _ _ E0)) as K.
      assert (NE : forall x, key_bytes (fo_num (fi_opts f)) a0 ++ x <> []).
      { intros x X. apply app_eq_nil in X. destruct X as [X _]. rewrite X in K. cbn in K. lia. }
      rewrite (val_ptr_typed _ _ _ We Ht) in H.
      destruct (fo_write_empty (fi_opts f)) eqn:Ewe; cbn [orb negb andb] in *.
      { apply EOk_inj in H. subst b. split; [discriminate|]. intros _ _. apply NE. }
      destruct (is_ptr (fi_type f)) eqn:Ep; cbn [orb negb andb] in *.
      { apply EOk_inj in H. subst b. split; [discriminate|]. intros _ _. apply NE. }
      rewrite (under_nonptr _ _ _ Ht Ep We) in *.
      assert (La : zlen a2 < 2 ^ 63).
      { destruct (beqb a2 [0]) eqn:Eb; [apply beqb_eq in Eb; subst a2; reflexivity|].
        apply EOk_inj in H. subst b. rewrite zlen_app in Hz. pose proof (zlen_nonneg (key_bytes (fo_num (fi_opts f)) a0)). lia. }
      pose proof (deref_nonptr _ Ep) as Ed.
      destruct (Hrec _ _ _ _ _ Hi Ed Ht Hnum E2 La) as [L1 L2].
      destruct (bl (fi_type f) (fi_opts f) v) eqn:Ebl.
      + rewrite (L1 eq_refl) in H. cbn [beqb Z.eqb andb] in H. apply EOk_inj in H. subst b. split; [reflexivity|discriminate].
      + split; [discriminate|]. intros _ Hn.
        destruct (beqb a2 [0]) eqn:Eb; [|apply EOk_inj in H; subst b; apply NE].
        exfalso. apply beqb_eq in Eb. rewrite Ed in Hn.
        destruct L2 as (_ & L2 & _); [reflexivity| |exact (L2 Eb)]. destruct (nm (fi_type f) (fi_opts f) v); [discriminate|].
        cbn in Hn. congruence.
  Qed.

  Lemma blank_field_num t a o v : blank_field env bl t (set_num a o) v = blank_field env bl t o v.
  Proof. unfold blank_field. rewrite Hbl. reflexivity. Qed.

  Lemma fields_lead : forall fs i num infos pre l buf, parse_fields env fs i num = EOk infos -> length pre = i ->
    forall2b (fun f w => has_type env (sf_type f) w) fs l = true ->
    encode_fields env c rec infos (pre ++ l) = EOk buf -> zlen buf < 2 ^ 63 ->
    (blank_fields env bl (Z.of_nat num + 1) fs l = true -> buf = []) /\
    (blank_fields env bl (Z.of_nat num + 1) fs l = false ->
     norm_fields env c bl fw nm (Z.of_nat num + 1) fs l <> None -> buf <> []).
  Proof.
    induction fs as [|f fs IH]; intros i num infos pre l buf Hp Hpre Ht H Hz.
    - cbn [parse_fields] in Hp. apply EOk_inj in Hp. subst infos. cbn [encode_fields] in H. apply EOk_inj in H. subst buf.
      cbn [blank_fields]. split; [reflexivity|discriminate].
    - destruct l as [|v l]; [discriminate|]. cbn [forall2b] in Ht. apply andb_true_iff in Ht. destruct Ht as [Hv Hl].
      apply parse_step in Hp. cbn [blank_fields norm_fields].
      assert (A : pre ++ v :: l = (pre ++ [v]) ++ l) by (rewrite <- app_assoc; reflexivity).
      assert (Lp : length (pre ++ [v]) = S i) by (rewrite app_length; cbn; lia).
      destruct (field_opts (Z.of_nat num + 1) f) as [o|] eqn:Eo.
      + destruct Hp as (fi & rest & -> & Hix & Hty & Hup & Hop & _ & Hrest). cbn [encode_fields] in H. einv H. einv H.
        apply EOk_inj in H. subst buf. rewrite Hix, app_nth2, <- Hpre, Nat.sub_diag in E by lia. cbn [nth] in E.
        rewrite A in E0. rewrite zlen_app in Hz. pose proof (zlen_nonneg a). pose proof (zlen_nonneg a0).
        rewrite <- Hty in Hv, Hup. destruct (field_lead fi v a Hv Hup) as [F1 F2]; try assumption; try lia.
        { rewrite Hop. cbn [fo_num set_num]. apply u32_range. }
        replace (Z.of_nat num + 1 + 1) with (Z.of_nat (S num) + 1) by lia.
        destruct (IH _ _ _ (pre ++ [v]) l a0 Hrest Lp Hl E0 ltac:(lia)) as [I1 I2].
        rewrite Hop, Hty, blank_field_num in F1, F2.
        destruct (blank_field env bl (sf_type f) o v) eqn:Eb; cbn [andb].
        * rewrite (F1 eq_refl). cbn [app]. split; [exact I1|]. intros Hb Hn. apply I2; [exact Hb|]. intros X. apply Hn.
          rewrite X. destruct (2 ^ 29 <=? _); [reflexivity|]. destruct (norm_field env c bl fw nm (sf_type f) o v); reflexivity.
        * split; [discriminate|]. intros _ Hn X. apply app_eq_nil in X. destruct X as [X _]. revert X. apply F2; [reflexivity|].
          intros X. apply Hn.
          unfold field_opts in Eo. destruct (sf_exported f); [|discriminate]. destruct (parse_field_options f) as [o0|]; [|discriminate].
          cbn [option_map] in Eo. inversion Eo; subst o. rewrite set_num_set in X.
          destruct (Z.leb_spec (2 ^ 29) (Z.of_nat num + 1)); [reflexivity|].
          rewrite u32_small in X by lia. rewrite X. reflexivity.
      + rewrite A in H. destruct (IH _ _ _ (pre ++ [v]) l buf Hp Lp Hl H Hz) as [I1 I2]. split; [exact I1|].
        intros Hb Hn. apply I2; [exact Hb|]. intros X. apply Hn. rewrite X. reflexivity.
  Qed.
  End Step.

  Lemma finish_lead buf : zlen (finish false buf) < 2 ^ 63 -> (buf = [] -> finish false buf = [0]) /\
    (buf <> [] -> finish false buf <> [] /\ finish false buf <> [0] /\ nz (finish false buf)).
  Proof.
    cbn [finish]. intros H. split; [intros ->; reflexivity|]. intros Hb. pose proof (zlen_byte_slice buf).
    destruct (byte_slice_nz buf Hb ltac:(lia)). splits; try assumption. apply byte_slice_nonnil.
  Qed.

  Lemma encode_list_finish rec info v o bz : encode_list env c rec info v o false = EOk bz ->
    exists buf, encode_list env c rec info v o true = EOk buf /\ bz = finish false buf.
  Proof.
    clear. unfold encode_list. destruct (resolve env (ti_type info)); try discriminate;
    (destruct (is_uint8 env e); [discriminate|]; intros H; einv H; einv H; rewrite E; cbn [ebind]; rewrite E0; cbn [ebind];
     destruct (list_elems v); [|discriminate]; einv H; rewrite E1; cbn [ebind]; apply EOk_inj in H; eexists; split; [reflexivity|]; symmetry; exact H).
  Qed.

  Theorem encode_lead : forall k, lead_ok (encode_reflect k env c) (blank k env) (fixed_width k env) (norm k env c).
  Proof.
    induction k as [|k IH]; intros info t v o bz Hi Hd Ht Hnum H Hz; [discriminate|].
    pose proof (minfo_type _ _ _ _ Hi) as Ety. rewrite Hd in Ety.
    apply encode_reflect_inv in H.
    assert (SW : encode_switch env c (encode_reflect k env c) (S k) info v o false = EOk bz ->
      let bl := match resolve env t, v with
        | RPrim p, _ => blank_prim p o v
        | RTime, VTime s ns => (s =? 0) && (ns =? 0)
        | RArray _ e, VArr [] | RSlice e, VSlice (None | Some []) => negb (is_list env e)
        | RStruct fs, VStruct l => blank_fields env (blank k env) 1 fs l
        | RIface _, VIface None => true
        | _, _ => false
        end in
      let fw := match resolve env t with
        | RPrim PFloat32 | RPrim PFloat64 => true
        | RPrim PInt64 | RPrim PUint64 => fo_fixed64 o
        | RPrim PInt32 | RPrim PUint32 => fo_fixed32 o
        | _ => false
        end in
      let nm :=
        match resolve env t, v with
        | RPrim PFloat32, VFloat b => Some (VFloat (quiet32 b))
        | RPrim _, _ | RTime, _ => Some v
        | RArray _ e, VArr l =>
            if is_uint8 env e then (if gotype_eqb e (TPrim PUint8) then Some v else None)
            else if is_list env e then None
            else norm_list env c (blank k env) (fixed_width k env) (norm k env c) t o v
        | RSlice e, VSlice ol =>
            if is_uint8 env e then
              match ol with
              | None | Some [] => Some (VSlice None)
              | _ => if gotype_eqb e (TPrim PUint8) then Some v else None
              end
            else if is_list env e then None
            else norm_list env c (blank k env) (fixed_width k env) (norm k env c) t o v
        | RStruct fs, VStruct l =>
            option_map VStruct (norm_fields env c (blank k env) (fixed_width k env) (norm k env c) 1 fs l)
        | RIface i, VIface (Some (ct, cv)) => norm_iface env c (norm k env c) i o ct cv
        | _, _ => None
        end in
      (bl = true -> bz = [0]) /\ (bl = false -> nm <> None -> bz <> [] /\ bz <> [0] /\ (fw = false -> nz bz))).
    { clear H. intros H. cbv zeta. unfold encode_switch in H. rewrite Ety in H.
      assert (LST : forall e, elem_type env t = Some e -> is_uint8 env e = false -> is_list_kind env e = false ->
        encode_list env c (encode_reflect k env c) info v o false = EOk bz ->
        match list_elems v with
        | Some [] => bz = [0]
        | Some _ => norm_list env c (blank k env) (fixed_width k env) (norm k env c) t o v <> None -> bz <> [] /\ bz <> [0] /\ nz bz
        | None => False
        end).
      { intros e He Hu Hlk HL. apply encode_list_finish in HL. destruct HL as (buf & HL & ->).
        pose proof (zlen_byte_slice buf) as ZB. cbn [finish] in Hz.
        pose proof (list_lead _ _ _ _ IH (blank_num env k) _ _ _ _ _ Hi Hd Ht Hnum HL ltac:(lia)) as L. rewrite He in L.
        destruct (list_elems v) as [[|x l]|]; [|intros Hn|contradiction].
        - replace buf with (@nil Z) by (symmetry; apply L; auto). reflexivity.
        - apply finish_lead; [exact Hz|]. intros X. apply L in X; [discriminate|auto]. }
      assert (BYT : forall l, EOk (encode_byte_slice (val_bytes l)) = EOk bz ->
         match l with [] => bz = [0] | _ => bz <> [] /\ bz <> [0] /\ nz bz end).
      { intros l X. apply EOk_inj in X. subst bz. destruct l as [|x l]; [reflexivity|].
        apply (finish_lead (val_bytes (x :: l))); [exact Hz|discriminate]. }
      destruct (resolve env t) as [p| |n e|e|e|kt e| | |i|fs|] eqn:Er; try discriminate.
      - assert (Hp : prim_has p v = true) by (rewrite <- (has_type_prim _ _ _ _ Er); exact Ht).
        destruct (prim_lead p o v bz Hp Hz H) as [P1 P2].
        replace (match p with PFloat32 | PFloat64 => true | PInt64 | PUint64 => fo_fixed64 o | PInt32 | PUint32 => fo_fixed32 o | _ => false end)
          with (fixed_prim p o) by (destruct p; reflexivity).
        destruct (blank_prim p o v); split; try discriminate; tauto.
      - destruct info as [ci|]; [|discriminate]. cbn [ti_type] in Ety. unfold encode_struct in H. rewrite Ety, Er in H.
        destruct v; try discriminate. einv H. destruct a as [buf [err|]]; [discriminate|]. apply EOk_inj in H. subst bz.
        cbn [has_type] in Ht. rewrite Er in Ht.
        assert (TK : time_ok s ns).
        { unfold time_ok. destruct (Z_lt_le_dec s min_seconds); [rewrite encode_time_bad_seconds in E by lia; discriminate|].
          destruct (Z_lt_le_dec s max_seconds); [|rewrite encode_time_bad_seconds in E by lia; discriminate].
          unfold max_nanos. lia. }
        rewrite encode_time_ok in E by assumption. apply EOk_inj in E. apply (f_equal fst) in E. cbn [fst] in E.
        destruct (finish_lead buf Hz) as [F1 F2]. split.
        + intros X. apply F1. rewrite <- E. apply andb_true_iff in X. destruct X as [-> ->]. reflexivity.
        + intros X _. destruct F2 as (G1 & G2 & G3); [|splits; auto]. rewrite <- E. intros Y. apply app_eq_nil in Y.
          pose proof (key_nonnil 1 0 ltac:(lia) ltac:(lia)) as K1. pose proof (key_nonnil 2 0 ltac:(lia) ltac:(lia)) as K2.
          destruct Y as [Y1 Y2]. destruct (s =? 0); [|apply app_eq_nil in Y1; destruct Y1 as [Y1 _]; rewrite Y1 in K1; cbn in K1; lia].
          destruct (ns =? 0); [discriminate|]. apply app_eq_nil in Y2; destruct Y2 as [Y2 _]; rewrite Y2 in K2; cbn in K2; lia.
      - assert (He : elem_type env t = Some e) by (unfold elem_type; rewrite Er; reflexivity).
        change (is_list_kind env e) with (is_list env e) in H. specialize (LST e He).
        change (is_list_kind env e) with (is_list env e) in LST.
        destruct (is_uint8 env e) eqn:Eu.
        + assert (El : is_list env e = false) by (unfold is_uint8 in Eu; unfold is_list; destruct (resolve env e); try discriminate; reflexivity).
          destruct v; try discriminate. specialize (BYT _ H). rewrite El.
          destruct l; split; try discriminate; auto. intros _ _. tauto.
        + destruct (is_list env e) eqn:El.
          * destruct (multidim_bytes _ _ _) as [[|]|]; try discriminate. apply EOk_inj in H. subst bz.
            destruct v as [| | | | | |[|x l]| | | | | | | |]; split; try discriminate; intros _ N; exfalso; apply N; reflexivity.
          * specialize (LST eq_refl eq_refl H).
            destruct v as [| | | | | |[|x l]|[[|x l]|]| | | | | | |]; cbn [list_elems] in LST; try contradiction;
              split; try discriminate; auto; intros _ N; try (exfalso; apply N; reflexivity); apply LST in N; tauto.
      - assert (He : elem_type env t = Some e) by (unfold elem_type; rewrite Er; reflexivity).
        change (is_list_kind env e) with (is_list env e) in H. specialize (LST e He).
        change (is_list_kind env e) with (is_list env e) in LST.
        destruct (is_uint8 env e) eqn:Eu.
        + assert (El : is_list env e = false) by (unfold is_uint8 in Eu; unfold is_list; destruct (resolve env e); try discriminate; reflexivity).
          destruct v as [| | | | | | |[l|]| | | | | | |]; try discriminate; rewrite El.
          * specialize (BYT _ H). destruct l; split; try discriminate; auto. intros _ _. tauto.
          * apply EOk_inj in H. subst bz. split; [reflexivity|discriminate].
        + destruct (is_list env e) eqn:El.
          * destruct (multidim_bytes _ _ _) as [[|]|]; try discriminate. apply EOk_inj in H. subst bz.
            destruct v as [| | | | | |[|x l]|[[|x l]|]| | | | | | |]; split; try discriminate; intros _ N; exfalso; apply N; reflexivity.
          * specialize (LST eq_refl eq_refl H).
            destruct v as [| | | | | |[|x l]|[[|x l]|]| | | | | | |]; cbn [list_elems] in LST; try contradiction;
              split; try discriminate; auto; intros _ N; try (exfalso; apply N; reflexivity); apply LST in N; tauto.
      - destruct info as [|ii]; [discriminate|]. unfold encode_interface in H.
        destruct v as [| | | | | | | | | |[[ct cv]|]| | | |]; try discriminate.
        + split; [discriminate|]. intros _ _.
          assert (X : exists buf, buf <> [] /\ bz = finish false buf).
          { destruct (deref_pointers cv) as [crv [|]]; [discriminate|].
            assert (H' : ebind (get_type_info env c (deref_type ct)) (fun info0 =>
                match info0 with
                | TIConc ci =>
                    match ci_reg ci with
                    | None => EErr "cannot encode unregistered concrete type"%string
                    | Some r =>
                        let need := ii_always ii ||
                          (1 <? length match assoc beqb (ri_prefix r) (ii_impls ii) with
                                       | Some l => l | None => [] end)%nat in
                        ebind (encode_reflect k env c info0 crv o true) (fun body =>
                        EOk (finish false ((if need then 0 :: ri_disamb r else []) ++ ri_prefix r ++ body)))
                    end
                | TIFace _ => EErr "cannot encode unregistered concrete type"%string
                end) = EOk bz) by (destruct crv; try discriminate; exact H).
            einv H'. destruct a as [ci|]; [|discriminate]. destruct (ci_reg ci) as [r|] eqn:Erg; [|discriminate]. cbv zeta in H'.
            einv H'. apply EOk_inj in H'. eexists. split; [|symmetry; exact H'].
            apply get_type_info_sane in E; [|assumption]. destruct (reg_shape _ _ _ (proj2 E) Erg) as (_ & L4 & _).
            intros X. apply app_eq_nil in X. destruct X as [_ X]. apply app_eq_nil in X. destruct X as [X _]. rewrite X in L4. discriminate. }
          destruct X as (buf & Hb & ->). destruct (finish_lead buf Hz) as [_ F]. destruct (F Hb) as (G1 & G2 & G3). auto.
        + apply EOk_inj in H. subst bz. split; [reflexivity|discriminate].
      - destruct info as [ci|]; [|discriminate]. cbn [ti_type] in Ety. unfold encode_struct in H. rewrite Ety, Er in H.
        destruct v; try discriminate. einv H. apply EOk_inj in H. subst bz.
        cbn [has_type] in Ht. rewrite Er in Ht.
        destruct Hi as [_ Hi]. destruct (info_ok_parts _ _ Hi) as (_ & Hpf & _). unfold parse_struct_info in Hpf. rewrite Ety, Er in Hpf.
        pose proof (zlen_byte_slice a) as ZB. pose proof Hz as Hz'. cbn [finish] in Hz'.
        destruct (fields_lead _ _ _ _ IH (blank_num env k) fs 0 0 _ [] l a Hpf eq_refl Ht E ltac:(lia)) as [L1 L2].
        change (Z.of_nat 0 + 1) with 1 in L1, L2. destruct (finish_lead a Hz) as [F1 F2].
        split; [auto|]. intros Hb Hn. destruct F2 as (G1 & G2 & G3); [|auto]. apply L2; [exact Hb|].
        intros X. apply Hn. rewrite X. reflexivity. }
    destruct info as [ci|ii].
    - destruct Hi as [Hi1 Hi2]. rewrite Hd in Hi1. pose proof (minfo_method _ _ _ Hi1 Hi2) as M.
      pose proof (minfo_unmethod _ _ _ Hi1 Hi2) as U.
      destruct (ci_marshal ci) as [r|].
      + destruct H as (w & rinfo & Hw & Hr & H). destruct M as (id & f & -> & Hmm & Hdr).
        rewrite Hi1 in Hw. unfold to_repr in Hw. rewrite Hmm in Hw.
        cbn [blank fixed_width norm]. rewrite Hmm, Hw.
        destruct (IH _ _ _ _ _ (gti_minfo _ _ _ _ Hs Hr) Hdr (Hm _ _ _ _ _ Hmm Ht Hw) Hnum H Hz) as [I1 I2].
        split; [exact I1|]. intros Hb Hn. apply I2; [exact Hb|]. intros X. apply Hn. rewrite X.
        destruct (te_unmarshal env id) as [[|r' g]|]; try reflexivity. destruct (gotype_eqb r r'); reflexivity.
      + specialize (SW H). cbv zeta in SW.
        destruct t; cbn [blank fixed_width norm]; try exact SW. rewrite (M id eq_refl).
        destruct SW as [S1 S2]. split; [exact S1|]. intros Hb Hn. apply S2; [exact Hb|]. intros X. apply Hn.
        destruct (te_unmarshal env id) as [[|r g]|]; try reflexivity. exact X.
    - specialize (SW H). cbv zeta in SW. destruct Hi as [_ Hi]. rewrite Hd in Hi. rewrite Hi in *. cbn [blank fixed_width norm]. exact SW.
  Qed.
End Lead.
