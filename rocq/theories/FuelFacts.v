(** More fuel never changes a result other than "out of fuel", and codecs that
    give the same type information give the same results. *)
From Coq Require Import ZArith String List Bool Lia.
From Verif Require Import Base Prims Types Codec BinEnc BinDec Amino.
Import ListNotations.
Local Open Scope Z_scope.

(** ** Encoder *)

Definition ele {A} (r r' : eres A) : Prop := r = EFuel \/ r = r'.

Lemma ele_refl {A} (r : eres A) : ele r r.
Proof. right; reflexivity. Qed.
Lemma ele_bind {A B} (r r' : eres A) (k k' : A -> eres B) :
  ele r r' -> (forall a, ele (k a) (k' a)) -> ele (ebind r k) (ebind r' k').
Proof.
  intros [-> | ->] H; [left; reflexivity|]. destruct r'; cbn; try (right; reflexivity). apply H.
Qed.

(** Type information that the encoder and decoder cannot tell apart: the order
    of an interface's implementers and its priority list do not matter. *)
Record isim (ii ii' : iinfo) : Prop := {
  is_id : ii_id ii = ii_id ii';
  is_always : ii_always ii = ii_always ii';
  is_len : forall p, length match assoc beqb p (ii_impls ii) with Some l => l | None => [] end =
                     length match assoc beqb p (ii_impls ii') with Some l => l | None => [] end;
  is_prefix : forall p, type_info_from_prefix ii p = type_info_from_prefix ii' p
}.
Definition tsim (i i' : tinfo) : Prop :=
  match i, i' with
  | TIConc a, TIConc b => a = b
  | TIFace a, TIFace b => isim a b
  | _, _ => False
  end.
Definition rsim (r r' : eres tinfo) : Prop :=
  match r, r' with
  | EOk i, EOk i' => tsim i i'
  | EErr e, EErr e' => e = e'
  | EPanic p, EPanic p' => p = p'
  | EFuel, EFuel => True
  | _, _ => False
  end.
Lemma isim_refl i : isim i i.
Proof. split; reflexivity. Qed.
Lemma tsim_refl i : tsim i i.
Proof. destruct i; cbn; [reflexivity | apply isim_refl]. Qed.
Lemma rsim_refl r : rsim r r.
Proof. destruct r; cbn; try reflexivity. apply tsim_refl. Qed.
Lemma isim_sym i i' : isim i i' -> isim i' i.
Proof. intros [? ? ? ?]; split; auto. Qed.
Lemma tsim_sym i i' : tsim i i' -> tsim i' i.
Proof. destruct i, i'; cbn; auto. apply isim_sym. Qed.
Lemma rsim_sym i i' : rsim i i' -> rsim i' i.
Proof. destruct i, i'; cbn; auto. apply tsim_sym. Qed.
Lemma tsim_type i i' : tsim i i' -> ti_type i = ti_type i'.
Proof. destruct i, i'; cbn; try contradiction; [intros ->; reflexivity | intros []; congruence]. Qed.

(** Two codecs that answer every lookup of the encoder and decoder alike. *)
Record codec_equiv (env : tenv) (c c' : codec) : Prop := {
  ce_info : forall t, rsim (get_type_info env c t) (get_type_info env c' t);
  ce_disfix : forall d, type_info_from_disfix c d = type_info_from_disfix c' d;
  ce_names : forall n, type_info_from_name c n = type_info_from_name c' n
}.
Lemma codec_equiv_refl env c : codec_equiv env c c.
Proof. split; try reflexivity. intros; apply rsim_refl. Qed.
Lemma codec_equiv_sym env c c' : codec_equiv env c c' -> codec_equiv env c' c.
Proof. intros []; split; auto. intros; apply rsim_sym; auto. Qed.

Lemma ele_info {B} r r' (k k' : tinfo -> eres B) : rsim r r' ->
  (forall i i', tsim i i' -> ele (k i) (k' i')) -> ele (ebind r k) (ebind r' k').
Proof.
  intros Hr H. destruct r, r'; cbn in *; try contradiction; subst; try (right; reflexivity). apply H, Hr.
Qed.

Definition erec := tinfo -> value -> fopts -> bool -> eres bytes.

Section Enc.
  Variable env : tenv.
  Variables c c' : codec.
  Hypothesis Hc : codec_equiv env c c'.
  Variables rec rec' : erec.
  Hypothesis Hrec : forall i i' v o b, tsim i i' -> ele (rec i v o b) (rec' i' v o b).

  Lemma ele_interface ii ii' v o bare : isim ii ii' ->
    ele (encode_interface env c rec ii v o bare) (encode_interface env c' rec' ii' v o bare).
  Proof.
    intros Hs. unfold encode_interface. destruct v; try apply ele_refl. destruct o0 as [[ct cv]|]; [|apply ele_refl].
    destruct (deref_pointers cv) as [crv [|]]; [apply ele_refl|].
    destruct crv; try apply ele_refl;
      (apply ele_info; [apply (ce_info _ _ _ Hc)|]; intros [ci|] [ci'|] Hi; cbn in Hi; try contradiction; [|apply ele_refl];
       subst ci'; destruct (ci_reg ci); [|apply ele_refl]; cbv zeta; apply ele_bind; [apply Hrec, tsim_refl|intros];
       rewrite (is_always _ _ Hs), (is_len _ _ Hs); apply ele_refl).
  Qed.

  Lemma ele_packed ert einfo einfo' o : tsim einfo einfo' -> forall l,
    ele (encode_packed env rec ert einfo l o) (encode_packed env rec' ert einfo' l o).
  Proof.
    intros Hs. induction l as [|v l IH]; cbn [encode_packed]; [apply ele_refl|].
    apply ele_bind; [apply Hrec, Hs|]. intros b. apply ele_bind; [apply IH|]. intros; apply ele_refl.
  Qed.

  Lemma ele_unpacked ert einfo einfo' o : tsim einfo einfo' -> forall l,
    ele (encode_unpacked env rec ert einfo l o) (encode_unpacked env rec' ert einfo' l o).
  Proof.
    intros Hs. induction l as [|v l IH]; cbn [encode_unpacked]; [apply ele_refl|].
    apply ele_bind; [apply ele_refl|]. intros key. destruct (is_default_value v) as [erv isdef].
    apply ele_bind; [destruct isdef; [rewrite (tsim_type _ _ Hs); apply ele_refl|apply Hrec, Hs]|].
    intros b. apply ele_bind; [apply IH|]. intros; apply ele_refl.
  Qed.

  Lemma ele_list info info' v o bare : tsim info info' ->
    ele (encode_list env c rec info v o bare) (encode_list env c' rec' info' v o bare).
  Proof.
    intros Hs. unfold encode_list. rewrite (tsim_type _ _ Hs). destruct (resolve env (ti_type info')); try apply ele_refl;
    (destruct (is_uint8 env _); [apply ele_refl|]; apply ele_info; [apply (ce_info _ _ _ Hc)|]; intros einfo einfo' He;
     rewrite (tsim_type _ _ He); apply ele_bind; [apply ele_refl|]; intros typ3; destruct (list_elems v); [|apply ele_refl];
     apply ele_bind; [destruct (negb _); [apply ele_packed|apply ele_unpacked]; exact He|]; intros; apply ele_refl).
  Qed.

  Lemma ele_write_field num info info' o v we bare : tsim info info' ->
    ele (write_field env rec num info o v we bare) (write_field env rec' num info' o v we bare).
  Proof.
    intros Hs. unfold write_field. rewrite (tsim_type _ _ Hs). apply ele_bind; [apply ele_refl|]. intros t3. apply ele_bind; [apply ele_refl|].
    intros key. apply ele_bind; [apply Hrec, Hs|]. intros; apply ele_refl.
  Qed.

  Lemma ele_field f v : ele (encode_field env c rec f v) (encode_field env c' rec' f v).
  Proof.
    unfold encode_field. apply ele_info; [apply (ce_info _ _ _ Hc)|]. intros info info' Hi.
    destruct (is_default_value v) as [dv isdef]. destruct (isdef && _); [apply ele_refl|].
    destruct (fi_unpacked f); [apply ele_list | apply ele_write_field]; exact Hi.
  Qed.

  Lemma ele_fields l : forall fs, ele (encode_fields env c rec fs l) (encode_fields env c' rec' fs l).
  Proof.
    induction fs as [|f fs IH]; cbn [encode_fields]; [apply ele_refl|].
    apply ele_bind; [apply ele_field|]. intros b. apply ele_bind; [apply IH|]. intros; apply ele_refl.
  Qed.

  Lemma ele_struct ci v bare : ele (encode_struct env c rec ci v bare) (encode_struct env c' rec' ci v bare).
  Proof.
    unfold encode_struct. destruct (resolve env (ci_type ci)); try apply ele_refl.
    destruct v; try apply ele_refl. apply ele_bind; [apply ele_fields|intros; apply ele_refl].
  Qed.

  Lemma multidim_mono k : forall k' t b, (k <= k')%nat -> multidim_bytes k env t = Some b -> multidim_bytes k' env t = Some b.
  Proof.
    induction k as [|k IH]; intros k' t b Hk H; cbn [multidim_bytes] in H; [discriminate|].
    destruct k' as [|k']; [lia|]. cbn [multidim_bytes].
    destruct (resolve env t); try assumption; apply IH; try assumption; lia.
  Qed.

  Lemma ele_switch f f' info info' v o bare : (f <= f')%nat -> tsim info info' ->
    ele (encode_switch env c rec f info v o bare) (encode_switch env c' rec' f' info' v o bare).
  Proof.
    intros Hf Hs. unfold encode_switch. rewrite (tsim_type _ _ Hs).
    destruct (resolve env (ti_type info')); try apply ele_refl.
    - destruct info, info'; cbn in Hs; try contradiction; [subst; apply ele_struct|apply ele_refl].
    - destruct (is_uint8 env e); [apply ele_refl|]. destruct (is_list_kind env e); [|apply ele_list, Hs].
      destruct (multidim_bytes f env e) eqn:E; [|left; reflexivity].
      rewrite (multidim_mono f f' e b Hf E). apply ele_refl.
    - destruct (is_uint8 env e); [apply ele_refl|]. destruct (is_list_kind env e); [|apply ele_list, Hs].
      destruct (multidim_bytes f env e) eqn:E; [|left; reflexivity].
      rewrite (multidim_mono f f' e b Hf E). apply ele_refl.
    - destruct info, info'; cbn in Hs; try contradiction; [apply ele_refl|apply ele_interface, Hs].
    - destruct info, info'; cbn in Hs; try contradiction; [subst; apply ele_struct|apply ele_refl].
  Qed.
End Enc.

Theorem encode_mono env c c' : codec_equiv env c c' -> forall f f' info info' v o bare, (f <= f')%nat -> tsim info info' ->
  ele (encode_reflect f env c info v o bare) (encode_reflect f' env c' info' v o bare).
Proof.
  intros Hc. induction f as [|f IH]; intros f' info info' v o bare Hf Hs; [left; reflexivity|].
  destruct f' as [|f']; [lia|]. cbn [encode_reflect].
  assert (SW : ele (encode_switch env c (encode_reflect f env c) (S f) info v o bare)
                  (encode_switch env c' (encode_reflect f' env c') (S f') info' v o bare)).
  { apply ele_switch; try assumption. intros; apply IH; [lia|assumption]. }
  assert (G : ele (match info with
          | TIConc {| ci_type := t; ci_marshal := Some r |} =>
              ebind (to_repr env t v) (fun rv => ebind (get_type_info env c r) (fun rinfo =>
              encode_reflect f env c rinfo rv o bare))
          | _ => encode_switch env c (encode_reflect f env c) (S f) info v o bare
          end)
          (match info' with
          | TIConc {| ci_type := t; ci_marshal := Some r |} =>
              ebind (to_repr env t v) (fun rv => ebind (get_type_info env c' r) (fun rinfo =>
              encode_reflect f' env c' rinfo rv o bare))
          | _ => encode_switch env c' (encode_reflect f' env c') (S f') info' v o bare
          end)).
  { destruct info as [ci|ii], info' as [ci'|ii']; cbn in Hs; try contradiction; try exact SW. subst ci'.
    destruct ci as [ct fs [r|] u rg]; try exact SW.
    apply ele_bind; [apply ele_refl|]. intros rv. apply ele_info; [apply (ce_info _ _ _ Hc)|]. intros rinfo rinfo' Hr.
    apply IH; [lia|assumption]. }
  destruct v; try exact G; apply ele_refl.
Qed.

Theorem encode_fuel_mono env c : forall f f' info v o bare, (f <= f')%nat ->
  ele (encode_reflect f env c info v o bare) (encode_reflect f' env c info v o bare).
Proof. intros. apply encode_mono; [apply codec_equiv_refl | assumption | apply tsim_refl]. Qed.

Lemma encode_codec_equiv env c c' f info info' v o bare : codec_equiv env c c' -> tsim info info' ->
  encode_reflect f env c info v o bare = encode_reflect f env c' info' v o bare.
Proof.
  intros Hc Hs. pose proof (codec_equiv_sym _ _ _ Hc) as Hc'.
  destruct (encode_mono env c c' Hc f f info info' v o bare (le_n f) Hs) as [H|H]; [|exact H].
  destruct (encode_mono env c' c Hc' f f info' info v o bare (le_n f) (tsim_sym _ _ Hs)) as [H'|H']; congruence.
Qed.

Lemma encode_fuel_ok env c f f' info v o bare r : (f <= f')%nat ->
  encode_reflect f env c info v o bare = r -> r <> EFuel -> encode_reflect f' env c info v o bare = r.
Proof. intros Hf H Hr. destruct (encode_fuel_mono env c f f' info v o bare Hf); congruence. Qed.

(** ** Decoder *)

Definition dle {A} (r r' : dres A) : Prop := r = DFuel \/ r = r'.

Lemma dle_refl {A} (r : dres A) : dle r r.
Proof. right; reflexivity. Qed.
Lemma dle_bind {A B} (r r' : dres A) (k k' : A -> nat -> option error -> dres B) :
  dle r r' -> (forall a n e, dle (k a n e) (k' a n e)) -> dle (dbind r k) (dbind r' k').
Proof. intros [-> | ->] H; [left; reflexivity|]. destruct r'; cbn; try (right; reflexivity). apply H. Qed.
Lemma dle_slide {A} bz n (k k' : bytes -> dres A) :
  (forall b, dle (k b) (k' b)) -> dle (slide bz n k) (slide bz n k').
Proof. intros H. unfold slide. destruct (_ <? _)%nat; [apply dle_refl|apply H]. Qed.
Lemma dle_eget {A B} (r : eres A) kerr (k k' : A -> dres B) :
  (forall a, dle (k a) (k' a)) -> dle (eget r kerr k) (eget r kerr k').
Proof. intros H. destruct r; cbn; try apply dle_refl. apply H. Qed.
Lemma dle_eget_eq {A B} (r r' : eres A) kerr (k k' : A -> dres B) :
  r = r' -> (forall a, dle (k a) (k' a)) -> dle (eget r kerr k) (eget r' kerr k').
Proof. intros -> H. apply dle_eget, H. Qed.
Lemma dle_enter {A} (v0 : A) bare bz k k' :
  (forall b n, dle (k b n) (k' b n)) -> dle (enter v0 bare bz k) (enter v0 bare bz k').
Proof.
  intros H. unfold enter. destruct bare; [apply H|]. apply dle_bind; [apply dle_refl|]. intros b n e.
  apply dle_slide. intros b'. destruct e; [apply dle_refl|apply H].
Qed.

(** The decoder does not look at the registration of the type it decodes. *)
Definition usim (i i' : tinfo) : Prop :=
  match i, i' with
  | TIConc a, TIConc b =>
      ci_type a = ci_type b /\ ci_fields a = ci_fields b /\ ci_unmarshal a = ci_unmarshal b
  | TIFace a, TIFace b => isim a b
  | _, _ => False
  end.
Definition ursim (r r' : eres tinfo) : Prop :=
  match r, r' with
  | EOk i, EOk i' => usim i i'
  | EErr e, EErr e' => e = e'
  | EPanic p, EPanic p' => p = p'
  | EFuel, EFuel => True
  | _, _ => False
  end.
Lemma tsim_usim i i' : tsim i i' -> usim i i'.
Proof. destruct i, i'; cbn; auto. intros ->. auto. Qed.
Lemma rsim_ursim i i' : rsim i i' -> ursim i i'.
Proof. destruct i, i'; cbn; auto. apply tsim_usim. Qed.
Lemma usim_refl i : usim i i.
Proof. apply tsim_usim, tsim_refl. Qed.
Lemma usim_sym i i' : usim i i' -> usim i' i.
Proof. destruct i, i'; cbn; auto; [intuition|apply isim_sym]. Qed.
Lemma ursim_sym i i' : ursim i i' -> ursim i' i.
Proof. destruct i, i'; cbn; auto. apply usim_sym. Qed.
Lemma usim_type i i' : usim i i' -> ti_type i = ti_type i'.
Proof. destruct i, i'; cbn; try contradiction; [intuition | intros []; congruence]. Qed.
Record dec_equiv (env : tenv) (c c' : codec) : Prop := {
  de_info : forall t, ursim (get_type_info env c t) (get_type_info env c' t);
  de_disfix : forall d, type_info_from_disfix c d = type_info_from_disfix c' d
}.
Lemma codec_dec_equiv env c c' : codec_equiv env c c' -> dec_equiv env c c'.
Proof. intros [H1 H2 _]. split; [|exact H2]. intros t. apply rsim_ursim, H1. Qed.
Lemma dec_equiv_refl env c : dec_equiv env c c.
Proof. apply codec_dec_equiv, codec_equiv_refl. Qed.
Lemma dec_equiv_sym env c c' : dec_equiv env c c' -> dec_equiv env c' c.
Proof. intros []; split; auto. intros; apply ursim_sym; auto. Qed.

Lemma dle_info {B} r r' kerr (k k' : tinfo -> dres B) : ursim r r' ->
  (forall i i', usim i i' -> dle (k i) (k' i')) -> dle (eget r kerr k) (eget r' kerr k').
Proof.
  intros Hr H. destruct r, r'; cbn in *; try contradiction; subst; try apply dle_refl. apply H, Hr.
Qed.

Section Dec.
  Variable env : tenv.
  Variables c c' : codec.
  Hypothesis Hc : dec_equiv env c c'.
  Variables rec rec' : bytes -> tinfo -> gotype -> value -> fopts -> bool -> dres value.
  Hypothesis Hrec : forall bz i i' t v o b, usim i i' -> dle (rec bz i t v o b) (rec' bz i' t v o b).

  Lemma dle_set_iface ii ii' ci v k k' : isim ii ii' -> (forall r, dle (k r) (k' r)) ->
    dle (set_iface env ii ci v k) (set_iface env ii' ci v k').
  Proof.
    intros Hs H. unfold set_iface. destruct (if match ci_reg ci with Some r => ri_ptr r | None => false end then _ else _).
    rewrite (is_id _ _ Hs). destruct (te_impl _ _ _); [apply H|apply dle_refl].
  Qed.
  Lemma dle_interface bz ii ii' v0 o bare : isim ii ii' ->
    dle (decode_interface env c rec bz ii v0 o bare) (decode_interface env c' rec' bz ii' v0 o bare).
  Proof.
    intros Hs. unfold decode_interface. destruct v0; try apply dle_refl. destruct o0; [apply dle_refl|].
    apply dle_enter. intros b n0. apply dle_bind; [apply dle_refl|]. intros dp n1 e.
    apply dle_slide. intros b1. destruct e; [apply dle_refl|]. apply dle_eget_eq; [|intros ci].
    { destruct (fst dp); [apply (de_disfix _ _ _ Hc)|apply (is_prefix _ _ Hs)]. }
    assert (K : forall bz2 n2 v n3 e, dle (slide bz2 n3 (fun bz3 =>
              let n3 := (n2 + n3)%nat in
              match e with
              | Some e => set_iface env ii ci v (fun r => DRet r n3 (Some e))
              | None =>
                  match bz3 with
                  | _ :: _ => DRet (VIface None) n3 (Some "bytes left over after reading interface contents"%string)
                  | [] => set_iface env ii ci v (fun r => DRet r n3 None)
                  end
              end)) (slide bz2 n3 (fun bz3 =>
              let n3 := (n2 + n3)%nat in
              match e with
              | Some e => set_iface env ii' ci v (fun r => DRet r n3 (Some e))
              | None =>
                  match bz3 with
                  | _ :: _ => DRet (VIface None) n3 (Some "bytes left over after reading interface contents"%string)
                  | [] => set_iface env ii' ci v (fun r => DRet r n3 None)
                  end
              end))).
    { intros. apply dle_slide. intros b3. cbv zeta. destruct e; [apply dle_set_iface; [assumption|intros; apply dle_refl]|].
      destruct b3; [apply dle_set_iface; [assumption|intros; apply dle_refl]|apply dle_refl]. }
    cbv zeta. destruct (wants_key env ci b1 o).
    - apply dle_bind; [apply dle_refl|]. intros kt nk e. destruct e; [apply dle_refl|].
      destruct (negb _); [apply dle_refl|]. apply dle_eget. intros tw. destruct (negb _); [apply dle_refl|].
      apply dle_slide. intros b2. apply dle_bind; [apply Hrec, usim_refl|]. intros; apply K.
    - apply dle_bind; [apply Hrec, usim_refl|]. intros; apply K.
  Qed.

  Lemma dle_array_packed einfo einfo' ert o : usim einfo einfo' -> forall todo bz n done,
    dle (decode_array_packed env rec bz n einfo ert o done todo) (decode_array_packed env rec' bz n einfo' ert o done todo).
  Proof.
    intros Hs.
    induction todo as [|w todo IH]; intros; cbn [decode_array_packed]; [apply dle_refl|].
    apply dle_bind; [apply Hrec, Hs|]. intros w' k e. apply dle_slide. intros b. destruct e; [apply dle_refl|apply IH].
  Qed.
  Lemma dle_array_unpacked einfo einfo' ert o : usim einfo einfo' -> forall todo bz n done,
    dle (decode_array_unpacked env rec bz n einfo ert o done todo) (decode_array_unpacked env rec' bz n einfo' ert o done todo).
  Proof.
    intros Hs.
    induction todo as [|w todo IH]; intros; cbn [decode_array_unpacked]; [apply dle_refl|].
    apply dle_bind; [apply dle_refl|]. intros kt k e. destruct (negb _); [apply dle_refl|].
    destruct (negb _); [apply dle_refl|]. apply dle_slide. intros b. cbv zeta. destruct e; [apply dle_refl|].
    replace (skip_empty env einfo ert o b) with (skip_empty env einfo' ert o b) by (unfold skip_empty; rewrite (usim_type _ _ Hs); reflexivity).
    destruct (skip_empty _ _ _ _ _); [apply IH|]. apply dle_bind; [apply Hrec, Hs|].
    intros w' k2 e. apply dle_slide. intros b2. destruct e; [apply dle_refl|apply IH].
  Qed.
  Lemma dle_array bz ert v0 o bare : dle (decode_array env c rec bz ert v0 o bare) (decode_array env c' rec' bz ert v0 o bare).
  Proof.
    unfold decode_array. destruct (is_uint8 env ert); [apply dle_refl|]. destruct v0; try apply dle_refl.
    apply dle_info; [apply (de_info _ _ _ Hc)|]. intros einfo einfo' Hi. rewrite (usim_type _ _ Hi). apply dle_enter. intros b n0. apply dle_eget. intros t3.
    destruct (negb _); (apply dle_bind; [first [apply dle_array_packed, Hi|apply dle_array_unpacked, Hi]|intros; apply dle_refl]).
  Qed.
  Lemma dle_slice_packed einfo einfo' ert o : usim einfo einfo' -> forall k k' bz n done, (k <= k')%nat ->
    dle (decode_slice_packed env rec k bz n einfo ert o done) (decode_slice_packed env rec' k' bz n einfo' ert o done).
  Proof.
    intros Hs.
    induction k as [|k IH]; intros k' bz n done Hk; destruct bz, k'; try lia; cbn [decode_slice_packed]; try apply dle_refl;
      try (left; reflexivity).
    apply dle_bind; [apply Hrec, Hs|]. intros w m e. apply dle_slide. intros b. destruct e; [apply dle_refl|apply IH; lia].
  Qed.
  Lemma dle_slice_unpacked einfo einfo' ert o : usim einfo einfo' -> forall k k' bz n done, (k <= k')%nat ->
    dle (decode_slice_unpacked env rec k bz n einfo ert o done) (decode_slice_unpacked env rec' k' bz n einfo' ert o done).
  Proof.
    intros Hs.
    induction k as [|k IH]; intros k' bz n done Hk; destruct bz, k'; try lia; cbn [decode_slice_unpacked]; try apply dle_refl;
      try (left; reflexivity).
    apply dle_bind; [apply dle_refl|]. intros kt m e. destruct (_ <? _); [apply dle_refl|].
    destruct (_ <? _); [apply dle_refl|]. destruct (negb _); [apply dle_refl|]. apply dle_slide. intros b1. cbv zeta.
    destruct e; [apply dle_refl|]. replace (skip_empty env einfo ert o b1) with (skip_empty env einfo' ert o b1) by (unfold skip_empty; rewrite (usim_type _ _ Hs); reflexivity).
    destruct (skip_empty _ _ _ _ _); [apply IH; lia|].
    apply dle_bind; [apply Hrec, Hs|]. intros w m2 e. apply dle_slide. intros b2. destruct e; [apply dle_refl|apply IH; lia].
  Qed.
  Lemma dle_slice bz ert v0 o bare : dle (decode_slice env c rec bz ert v0 o bare) (decode_slice env c' rec' bz ert v0 o bare).
  Proof.
    unfold decode_slice. destruct (is_uint8 env ert); [apply dle_refl|]. apply dle_info; [apply (de_info _ _ _ Hc)|]. intros einfo einfo' Hi. rewrite (usim_type _ _ Hi).
    apply dle_enter. intros b n0. apply dle_eget. intros t3. apply dle_bind; [|intros; apply dle_refl].
    destruct (negb _); [apply dle_slice_packed|apply dle_slice_unpacked]; try exact Hi; apply le_n.
  Qed.
  Lemma dle_field f l bz last n : dle (decode_field env c rec f l bz last n) (decode_field env c' rec' f l bz last n).
  Proof.
    unfold decode_field. cbv zeta. apply dle_info; [apply (de_info _ _ _ Hc)|]. intros info info' Hi. destruct bz as [|b0 bz]; [apply dle_refl|].
    destruct (fi_unpacked f).
    - apply dle_bind; [apply Hrec, Hi|]. intros; apply dle_refl.
    - apply dle_bind; [apply dle_refl|]. intros [fnum typ] m e. destruct (_ <? _); [apply dle_refl|].
      destruct (_ <=? _); [apply dle_refl|]. apply dle_slide. intros b1. cbv zeta. destruct e; [apply dle_refl|].
      destruct (negb _); [apply dle_refl|]. rewrite (usim_type _ _ Hi). apply dle_eget. intros tw. destruct (negb _); [apply dle_refl|].
      apply dle_bind; [apply Hrec, Hi|]. intros; apply dle_refl.
  Qed.
  Lemma dle_fields : forall fs l bz last n, dle (decode_fields env c rec fs l bz last n) (decode_fields env c' rec' fs l bz last n).
  Proof.
    induction fs as [|f fs IH]; intros; cbn [decode_fields]; [apply dle_refl|].
    apply dle_bind; [apply dle_field|]. intros [[l' b'] last'] n' e. destruct e; [apply dle_refl|apply IH].
  Qed.
  Lemma dle_struct bz ci ci' v0 bare : usim (TIConc ci) (TIConc ci') ->
    dle (decode_struct env c rec bz ci v0 bare) (decode_struct env c' rec' bz ci' v0 bare).
  Proof.
    intros (E1 & E2 & _). unfold decode_struct. rewrite E1, E2. apply dle_enter. intros b n0. destruct (resolve env (ci_type ci')); try apply dle_refl.
    destruct v0; try apply dle_refl. apply dle_bind; [apply dle_fields|]. intros; apply dle_refl.
  Qed.
  Lemma dle_switch bz info info' v0 o bare : usim info info' ->
    dle (decode_switch env c rec bz info v0 o bare) (decode_switch env c' rec' bz info' v0 o bare).
  Proof.
    intros Hs. unfold decode_switch. rewrite (usim_type _ _ Hs). destruct (resolve env (ti_type info')); try apply dle_refl.
    - destruct info, info'; cbn in Hs; try contradiction; [apply dle_struct, Hs|apply dle_refl].
    - destruct (is_uint8 env e); [apply dle_refl|apply dle_array].
    - destruct (is_uint8 env e); [apply dle_refl|apply dle_slice].
    - destruct info, info'; cbn in Hs; try contradiction; [apply dle_refl|apply dle_interface, Hs].
    - destruct info, info'; cbn in Hs; try contradiction; [apply dle_struct, Hs|apply dle_refl].
  Qed.
End Dec.

Theorem decode_mono env c c' : dec_equiv env c c' -> forall f f' bz info info' t v0 o bare, (f <= f')%nat -> usim info info' ->
  dle (decode_reflect f env c bz info t v0 o bare) (decode_reflect f' env c' bz info' t v0 o bare).
Proof.
  intros Hc. induction f as [|f IH]; intros f' bz info info' t v0 o bare Hf Hs; [left; reflexivity|].
  destruct f' as [|f']; [lia|]. cbn [decode_reflect].
  assert (G : forall w0, dle
            (match info with
             | TIConc {| ci_type := ct; ci_unmarshal := Some r |} =>
                 eget (get_type_info env c r) (fun e => DRet w0 0 (Some e)) (fun rinfo =>
                 dbind (decode_reflect f env c bz rinfo r (zero env r) o bare) (fun rv n e =>
                 slide bz n (fun _ =>
                 match e with
                 | Some e => DRet w0 n (Some e)
                 | None => eget (from_repr env ct w0 rv) (fun e => DRet w0 n (Some e))
                                (fun r => DRet (fst r) n (snd r))
                 end)))
             | _ => decode_switch env c (decode_reflect f env c) bz info w0 o bare
             end)
            (match info' with
             | TIConc {| ci_type := ct; ci_unmarshal := Some r |} =>
                 eget (get_type_info env c' r) (fun e => DRet w0 0 (Some e)) (fun rinfo =>
                 dbind (decode_reflect f' env c' bz rinfo r (zero env r) o bare) (fun rv n e =>
                 slide bz n (fun _ =>
                 match e with
                 | Some e => DRet w0 n (Some e)
                 | None => eget (from_repr env ct w0 rv) (fun e => DRet w0 n (Some e))
                                (fun r => DRet (fst r) n (snd r))
                 end)))
             | _ => decode_switch env c' (decode_reflect f' env c') bz info' w0 o bare
             end)).
  { intros w0.
    assert (SW : dle (decode_switch env c (decode_reflect f env c) bz info w0 o bare)
                    (decode_switch env c' (decode_reflect f' env c') bz info' w0 o bare)).
    { apply dle_switch; try assumption. intros; apply IH; [lia|assumption]. }
    destruct info as [ci|ii], info' as [ci'|ii']; cbn in Hs; try contradiction; try exact SW.
    destruct ci as [ct fs m u rg], ci' as [ct' fs' m' u' rg']; cbn in Hs; destruct Hs as (-> & -> & ->). destruct u' as [r|]; try exact SW.
    apply dle_info; [apply (de_info _ _ _ Hc)|]. intros rinfo rinfo' Hr. apply dle_bind; [apply IH; [lia|assumption]|]. intros; apply dle_refl. }
  unfold dmap. cbv zeta. specialize (G (base_of env t v0)).
  destruct info as [ci|ii], info' as [ci'|ii']; try contradiction; [apply dle_bind; [exact G|intros; apply dle_refl]|].
  destruct t; first [right; reflexivity | apply dle_bind; [exact G|intros; apply dle_refl]].
Qed.

Theorem decode_fuel_mono env c : forall f f' bz info t v0 o bare, (f <= f')%nat ->
  dle (decode_reflect f env c bz info t v0 o bare) (decode_reflect f' env c bz info t v0 o bare).
Proof. intros. apply decode_mono; [apply dec_equiv_refl | assumption | apply usim_refl]. Qed.

Lemma decode_usim env c c' f bz info info' t v0 o bare : dec_equiv env c c' -> usim info info' ->
  decode_reflect f env c bz info t v0 o bare = decode_reflect f env c' bz info' t v0 o bare.
Proof.
  intros Hc Hs. pose proof (dec_equiv_sym _ _ _ Hc) as Hc'.
  destruct (decode_mono env c c' Hc f f bz info info' t v0 o bare (le_n f) Hs) as [H|H]; [|exact H].
  destruct (decode_mono env c' c Hc' f f bz info' info t v0 o bare (le_n f) (usim_sym _ _ Hs)) as [H'|H']; congruence.
Qed.

Lemma decode_fuel_ok env c f f' bz info t v0 o bare r : (f <= f')%nat ->
  decode_reflect f env c bz info t v0 o bare = r -> r <> DFuel -> decode_reflect f' env c bz info t v0 o bare = r.
Proof. intros Hf H Hr. destruct (decode_fuel_mono env c f f' bz info t v0 o bare Hf); congruence. Qed.

Lemma decode_codec_equiv env c c' f bz info info' t v0 o bare : codec_equiv env c c' -> tsim info info' ->
  decode_reflect f env c bz info t v0 o bare = decode_reflect f env c' bz info' t v0 o bare.
Proof. intros Hc Hs. apply decode_usim; [apply codec_dec_equiv, Hc|apply tsim_usim, Hs]. Qed.

(** ** The entry points *)

Lemma marshal_codec_equiv env c c' f t v : codec_equiv env c c' ->
  marshal_bare f env c t v = marshal_bare f env c' t v.
Proof.
  intros Hc. unfold marshal_bare. destruct (deref_pointers v) as [rv [|]]; [reflexivity|].
  pose proof (ce_info _ _ _ Hc (deref_type t)) as Hi.
  destruct (get_type_info env c (deref_type t)) as [i| | |], (get_type_info env c' (deref_type t)) as [i'| | |];
    cbn in Hi; try contradiction; subst; try reflexivity. cbn [ebind]. rewrite (tsim_type _ _ Hi).
  match goal with |- ebind ?a _ = ebind ?b _ => replace a with b end.
  - destruct i as [ci|ii], i' as [ci'|ii']; cbn in Hi; try contradiction; subst; reflexivity.
  - unfold write_field. rewrite (tsim_type _ _ Hi). destruct (negb _); [|symmetry; apply encode_codec_equiv; assumption].
    destruct (type_to_typ3 env (ti_type i') no_opts); try reflexivity. cbn [ebind].
    destruct (encode_field_key 1 a); try reflexivity. cbn [ebind].
    rewrite (encode_codec_equiv env c c' f i i') by assumption. reflexivity.
Qed.

Lemma marshal_length_codec_equiv env c c' f t v : codec_equiv env c c' ->
  marshal_length_prefixed f env c t v = marshal_length_prefixed f env c' t v.
Proof. intros Hc. unfold marshal_length_prefixed. rewrite (marshal_codec_equiv _ _ _ _ _ _ Hc). reflexivity. Qed.

(** [unmarshal_bare] after the type lookup and the prefix check; [dec] is the
    call of decodeReflectBinary. *)
Definition um_finish (b : bytes) (r : dres value) : ures :=
  match r with
  | DRet v1 n (Some _) => URet v1 (Some "unmarshal failed"%string)
  | DRet v1 n None => if negb (n =? length b)%nat
                      then URet v1 (Some "unmarshal didn't read all bytes"%string) else URet v1 None
  | DPanic p => UPanic p
  | DFuel => UFuel
  end.
Definition um_body (env : tenv) (dec : bytes -> bool -> dres value) (ty t : gotype) (v : value) (b : bytes) : ures :=
  match (if is_struct_or_repeated_struct env ty then EOk true else is_pointer_to_struct env v t) with
  | EOk is_st =>
      if negb is_st && ((0 <? length b)%nat && match t with TIface _ => false | _ => true end &&
                        match resolve env ty with RMap _ _ | RFunc => false | _ => true end)
      then match decode_field_key b with
           | DRet (fnum, typ) nk None =>
               if negb (fnum =? 1) then URet v (Some "expected field number: 1"%string)
               else match type_to_typ3 env ty no_opts with
                    | EOk tw =>
                        if negb (typ =? tw) then URet v (Some "expected field type"%string)
                        else if (length b <? nk)%nat then UPanic "impossible slide"%string
                        else um_finish (skipn nk b) (dec (skipn nk b) (negb (tw =? Typ3ByteLength)))
                    | EErr e => URet v (Some e)
                    | EPanic p => UPanic p
                    | EFuel => UFuel
                    end
           | DRet _ _ (Some _) => URet v (Some "could not decode field number and type"%string)
           | DPanic p => UPanic p
           | DFuel => UFuel
           end
      else um_finish b (dec b true)
  | EErr e => URet v (Some e)
  | EPanic p => UPanic p
  | EFuel => UFuel
  end.

Lemma unmarshal_bare_eq f env c bz t v : unmarshal_bare f env c bz t v =
  match get_type_info env c t with
  | EErr e => URet v (Some e)
  | EPanic p => UPanic p
  | EFuel => UFuel
  | EOk info =>
      let dec b bare := decode_reflect f env c b info t v (set_num 1 no_opts) bare in
      match info with
      | TIConc {| ci_reg := Some r |} =>
          if (length bz <? 4)%nat then URet v (Some "expected to read prefix bytes"%string)
          else if negb (beqb (firstn 4 bz) (ri_prefix r)) then URet v (Some "expected to read prefix bytes"%string)
          else um_body env dec (ti_type info) t v (skipn 4 bz)
      | _ => um_body env dec (ti_type info) t v bz
      end
  end.
Proof. reflexivity. Qed.

Lemma um_body_ext env dec dec' ty t v b : (forall b bare, dec b bare = dec' b bare) ->
  um_body env dec ty t v b = um_body env dec' ty t v b.
Proof.
  intros D. unfold um_body.
  destruct (if is_struct_or_repeated_struct env ty then EOk true else is_pointer_to_struct env v t); try reflexivity.
  destruct (negb a && _).
  - destruct (decode_field_key b) as [[fn typ] nk [e|]| |]; try reflexivity. destruct (negb _); [reflexivity|].
    destruct (type_to_typ3 env ty no_opts); try reflexivity. destruct (negb (typ =? a0)); [reflexivity|].
    destruct (length b <? nk)%nat; [reflexivity|]. rewrite D. reflexivity.
  - rewrite D. reflexivity.
Qed.

Lemma unmarshal_codec_equiv env c c' f bz t v : codec_equiv env c c' ->
  unmarshal_bare f env c bz t v = unmarshal_bare f env c' bz t v.
Proof.
  intros Hc. rewrite !unmarshal_bare_eq.
  pose proof (ce_info _ _ _ Hc t) as Hi.
  destruct (get_type_info env c t) as [i| | |], (get_type_info env c' t) as [i'| | |];
    cbn in Hi; try contradiction; subst; try reflexivity.
  cbv zeta. rewrite (tsim_type _ _ Hi).
  assert (D : forall b bare, decode_reflect f env c b i t v (set_num 1 no_opts) bare =
                             decode_reflect f env c' b i' t v (set_num 1 no_opts) bare)
    by (intros; apply decode_codec_equiv; assumption).
  pose proof (fun b => um_body_ext env _ _ (ti_type i') t v b D) as B.
  destruct i as [ci|ii], i' as [ci'|ii']; cbn in Hi; try contradiction; [subst ci'|apply B].
  destruct ci as [ct fs m u [r|]]; [|apply B]. destruct (length bz <? 4)%nat; [reflexivity|].
  destruct (negb (beqb (firstn 4 bz) (ri_prefix r))); [reflexivity|apply B].
Qed.

Lemma unmarshal_length_codec_equiv env c c' f bz t v : codec_equiv env c c' ->
  unmarshal_length_prefixed f env c bz t v = unmarshal_length_prefixed f env c' bz t v.
Proof.
  intros Hc. unfold unmarshal_length_prefixed. destruct bz; [reflexivity|]. destruct (uvarint _).
  rewrite (unmarshal_codec_equiv _ _ _ _ _ _ _ Hc). reflexivity.
Qed.
