(** Facts for C95: arrays are written as slices of their elements. *)
From Coq Require Import ZArith String List Bool Lia.
From Coq Require Import ZifyBool ZifyNat.
From Verif Require Import Base Prims PrimFacts Types Codec BinEnc BinDec Amino ValueInd Typing Registry SpecRegistry RegistryFacts Sane DecSafe SpecNorm EncFacts
  SpecStruct SkipFacts RoundTrip TopFacts ConcatFacts JsonText Json SpecArray.
Import ListNotations.
Local Open Scope Z_scope.
Local Open Scope amino_scope.

(** Both succeed with the same result, or neither does. *)
Definition okeq {A} (x y : eres A) : Prop := forall b, x = EOk b <-> y = EOk b.
Lemma okeq_refl {A} (x : eres A) : okeq x x.
Proof. intros b. tauto. Qed.
Lemma okeq_fail {A} (x y : eres A) : (forall b, x <> EOk b) -> (forall b, y <> EOk b) -> okeq x y.
Proof. intros H H' b. split; intros E; [destruct (H _ E)|destruct (H' _ E)]. Qed.
Lemma okeq_bind {A B} (x y : eres A) (f g : A -> eres B) : okeq x y -> (forall a, okeq (f a) (g a)) -> okeq (ebind x f) (ebind y g).
Proof.
  intros H F b. split; intros E.
  - destruct x as [a| | |]; try discriminate E. rewrite (proj1 (H a) eq_refl). apply F, E.
  - destruct y as [a| | |]; try discriminate E. rewrite (proj2 (H a) eq_refl). apply F, E.
Qed.

Section Arrays.
  Variable env : tenv.
  Variable c : codec.
  Hypothesis Hs : sane_codec env c.
  Notation Enc k := (encode_reflect k env c).

  (** Type information of types without methods. *)
  Lemma plain_info t fs : deref_type t = t -> is_iface t = false -> has_method env t = false -> parse_struct_info env t = EOk fs ->
    exists ci, get_type_info env c t = EOk (TIConc ci) /\ ci_type ci = t /\ ci_marshal ci = None /\ ci_fields ci = fs.
  Proof.
    intros D I M P. assert (X : exists ci, get_type_info env c t = EOk (TIConc ci)).
    { unfold get_type_info. rewrite D. assert (N : exists ci, new_type_info env t = EOk ci).
      { unfold new_type_info. rewrite P. cbn [ebind]. unfold marshal_repr, unmarshal_repr. unfold has_method in M.
        assert (Q : forall u, match deref_type u with TPtr _ => False | _ => True end) by (induction u; cbn; auto). specialize (Q t). rewrite D in Q.
        destruct t; try discriminate I; try contradiction; try (eexists; reflexivity).
        destruct (te_marshal env id); [discriminate M|]. destruct (te_unmarshal env id); [discriminate M|]. eexists. reflexivity. }
      destruct N as [ci N]. rewrite N. destruct t; try discriminate I; (destruct (assoc gotype_eqb _ (cd_types c)); eexists; reflexivity). }
    destruct X as [ci X]. exists ci. split; [exact X|]. pose proof (gti_minfo _ _ _ _ Hs X) as [T Ok]. rewrite D in T.
    pose proof (minfo_method _ _ _ T Ok) as Mm. destruct (info_ok_parts _ _ Ok) as (_ & Hp & _). rewrite T, P in Hp. injection Hp as Hp. splits; auto.
    destruct (ci_marshal ci); [|reflexivity]. destruct Mm as (id & f & -> & Y & _). unfold has_method in M. rewrite Y in M. discriminate M.
  Qed.
  Lemma list_info t : is_list_kind env t = true -> has_method env t = false -> exists ci, get_type_info env c t = EOk (TIConc ci) /\ ci_type ci = t /\ ci_marshal ci = None.
  Proof.
    intros L M. unfold is_list_kind in L. destruct (plain_info t []) as (ci & A & B & C & _); [| | |eauto|eauto].
    - destruct t; try reflexivity. discriminate L.
    - destruct t; try reflexivity. discriminate L.
    - exact M.
    - unfold parse_struct_info. destruct (resolve env t); try discriminate L; reflexivity.
  Qed.
  Lemma array_kinds t t' : array_slice env t t' -> is_list_kind env t = true /\ is_list_kind env t' = true.
  Proof. intros (n & e & A & B & _). unfold is_list_kind. rewrite A, B. auto. Qed.

  Lemma array_encode k t t' ci ci' l o b : array_slice env t t' -> ci_type ci = t -> ci_marshal ci = None -> ci_type ci' = t' -> ci_marshal ci' = None ->
    okeq (Enc k (TIConc ci) (VArr l) o b) (Enc k (TIConc ci') (VSlice (Some l)) o b).
  Proof.
    intros (n & e & A & B & _) T M T' M'. destruct k as [|k]; [apply okeq_refl|]. cbn [encode_reflect].
    destruct ci as [ty fs m u r], ci' as [ty' fs' m' u' r']; cbn in T, M, T', M'. subst. unfold encode_switch. cbn [ti_type ci_type]. rewrite A, B.
    destruct (is_uint8 env e) eqn:U; [apply okeq_refl|]. destruct (is_list_kind env e).
    - destruct (multidim_bytes (S k) env e) as [[]|]; try apply okeq_refl. apply okeq_fail; discriminate.
    - unfold encode_list. cbn [ti_type ci_type]. rewrite A, B. apply okeq_refl.
  Qed.

  (** ** Fields *)
  Definition field_like (L L' : list value) (f f' : finfo) : Prop :=
    fi_index f' = fi_index f /\ fi_unpacked f' = fi_unpacked f /\ fi_opts f' = fi_opts f /\
    let v := nth (fi_index f) L VInvalid in let v' := nth (fi_index f) L' VInvalid in
    (fi_type f' = fi_type f /\ v' = v \/
     array_slice env (fi_type f) (fi_type f') /\ exists x xs, v = VArr (x :: xs) /\ v' = VSlice (Some (x :: xs))).
  Lemma field_swapped k L L' f f' : field_like L L' f f' ->
    okeq (encode_field env c (Enc k) f (nth (fi_index f) L VInvalid)) (encode_field env c (Enc k) f' (nth (fi_index f') L' VInvalid)).
  Proof.
    intros (I & U & O & [[T V]|[A (x & xs & V & V')]]); unfold encode_field; rewrite I, U, O.
    - rewrite T, V. apply okeq_refl.
    - rewrite V, V'. destruct (array_kinds _ _ A) as [K K']. pose proof A as (n & e & R & R' & M & M').
      destruct (list_info _ K M) as (ci & G & Tc & Mc). destruct (list_info _ K' M') as (ci' & G' & Tc' & Mc'). rewrite G, G'. cbn [ebind is_default_value deref_pointers andb val_is_ptr].
      destruct (fi_unpacked f).
      + unfold encode_list. cbn [ti_type]. rewrite Tc, Tc', R, R'. apply okeq_refl.
      + unfold write_field. cbn [ti_type]. rewrite Tc, Tc'. unfold type_to_typ3. rewrite R, R'. cbn [ebind].
        apply okeq_bind; [apply okeq_refl|]. intros key. apply okeq_bind; [apply (array_encode k _ _ _ _ _ _ _ A); assumption|]. intros z. apply okeq_refl.
  Qed.
  Lemma fields_swapped k L L' fs fs' : Forall2 (field_like L L') fs fs' -> okeq (encode_fields env c (Enc k) fs L) (encode_fields env c (Enc k) fs' L').
  Proof.
    induction 1 as [|f f' fs fs' H1 H IH]; cbn [encode_fields]; [apply okeq_refl|]. apply okeq_bind; [apply field_swapped, H1|]. intros a.
    apply okeq_bind; [exact IH|]. intros z. apply okeq_refl.
  Qed.
  Lemma skipn_cons {A} i (L l : list A) v d : skipn i L = v :: l -> nth i L d = v /\ skipn (S i) L = l.
  Proof.
    revert L. induction i as [|i IH]; intros L H; destruct L as [|x L]; cbn in *; try discriminate H.
    - injection H as -> ->. auto.
    - apply IH, H.
  Qed.
  Lemma hidden_none f : visible f = false -> forall X (a : X) (g : fopts -> X), (if negb (sf_exported f) then a else match parse_field_options f with None => a | Some o => g o end) = a.
  Proof.
    intros V X a g. unfold visible in V. destruct (sf_exported f); cbn [negb andb] in *; [|reflexivity].
    unfold parse_field_options. destruct (beqb (sf_json f) (bs "-")); [reflexivity|discriminate V].
  Qed.
  Lemma parse_swapped L L' fs l fs' l' : swapped env fs l fs' l' -> forall i n, skipn i L = l -> skipn i L' = l' ->
    match parse_fields env fs i n, parse_fields env fs' i n with EOk r, EOk r' => Forall2 (field_like L L') r r' | EOk _, _ | _, EOk _ => False | _, _ => True end.
  Proof.
    intros S. induction S as [|f f' v fs l fs' l' T X J B A N S IH|f f' x xs fs l fs' l' Y X J B A N S IH|f f' v v' fs l fs' l' V V' S IH]; intros i n E E'; cbn [parse_fields].
    - constructor.
    - destruct (skipn_cons _ _ _ _ VInvalid E) as [N1 N2]. destruct (skipn_cons _ _ _ _ VInvalid E') as [N1' N2']. rewrite X, T.
      assert (parse_field_options f' = parse_field_options f) as -> by (unfold parse_field_options; rewrite J, B, A, N; reflexivity).
      destruct (negb (sf_exported f)); [apply IH; assumption|]. destruct (parse_field_options f) as [o|]; [|apply IH; assumption].
      destruct (unpacked_list env (sf_type f) o); cbn [ebind]; try exact I. cbv zeta. destruct (check_unsafe _ _ _); cbn [ebind]; try exact I.
      specialize (IH (Datatypes.S i) (Datatypes.S n) N2 N2'). destruct (parse_fields env fs _ _), (parse_fields env fs' _ _); cbn [ebind]; try contradiction; try exact I.
      constructor; [|exact IH]. unfold field_like. cbn. splits; try reflexivity. left. split; [reflexivity|]. congruence.
    - destruct (skipn_cons _ _ _ _ VInvalid E) as [N1 N2]. destruct (skipn_cons _ _ _ _ VInvalid E') as [N1' N2']. rewrite X.
      assert (parse_field_options f' = parse_field_options f) as -> by (unfold parse_field_options; rewrite J, B, A, N; reflexivity).
      destruct (negb (sf_exported f)); [apply IH; assumption|]. destruct (parse_field_options f) as [o|]; [|apply IH; assumption]. pose proof Y as (m & e & R & R' & _).
      assert (unpacked_list env (sf_type f') o = unpacked_list env (sf_type f) o) as -> by (unfold unpacked_list; rewrite R, R'; reflexivity).
      destruct (unpacked_list env (sf_type f) o); cbn [ebind]; try exact I. cbv zeta. unfold check_unsafe. rewrite R, R'.
      destruct (if fo_unsafe _ then _ else _); cbn [ebind]; try exact I.
      specialize (IH (Datatypes.S i) (Datatypes.S n) N2 N2'). destruct (parse_fields env fs _ _), (parse_fields env fs' _ _); cbn [ebind]; try contradiction; try exact I.
      constructor; [|exact IH]. unfold field_like. cbn. splits; try reflexivity. right. split; [exact Y|]. exists x, xs. auto.
    - destruct (skipn_cons _ _ _ _ VInvalid E) as [N1 N2]. destruct (skipn_cons _ _ _ _ VInvalid E') as [N1' N2'].
      rewrite (hidden_none f V), (hidden_none f' V'). apply IH; assumption.
  Qed.

  (** ** Messages *)
  Theorem struct_swapped k t t' fs fs' l l' : wf_codec env c -> resolve env t = RStruct fs -> resolve env t' = RStruct fs' ->
    has_method env t = false -> has_method env t' = false -> registered c t = None -> registered c t' = None -> swapped env fs l fs' l' ->
    okeq (marshal_bare k env c t (VStruct l)) (marshal_bare k env c t' (VStruct l')).
  Proof.
    intros Wc R R' M M' U U' Sw. assert (D : deref_type t = t) by (destruct t; try reflexivity; discriminate R). assert (D' : deref_type t' = t') by (destruct t'; try reflexivity; discriminate R').
    assert (If : is_iface t = false) by (destruct t; try reflexivity; discriminate R). assert (If' : is_iface t' = false) by (destruct t'; try reflexivity; discriminate R').
    assert (Hb : is_struct_or_repeated_struct env t = true) by (unfold is_struct_or_repeated_struct, is_struct; rewrite R; reflexivity).
    assert (Hb' : is_struct_or_repeated_struct env t' = true) by (unfold is_struct_or_repeated_struct, is_struct; rewrite R'; reflexivity).
    destruct k as [|k].
    { assert (F : forall t l z, deref_type t = t -> is_struct_or_repeated_struct env t = true -> marshal_bare 0 env c t (VStruct l) <> EOk z).
      { intros ty l0 z Dt Ht X. unfold marshal_bare in X. cbn [deref_pointers] in X. einv X. rewrite Dt in E. rewrite (minfo_type _ _ _ _ (gti_minfo _ _ _ _ Hs E)), Dt, Ht in X.
        cbn [negb encode_reflect ebind] in X. discriminate X. }
      apply okeq_fail; intros z; apply F; assumption. }
    rewrite (marshal_plain env c Hs k t), (marshal_plain env c Hs k t') by (try assumption; exact I).
    pose proof (parse_swapped l l' _ _ _ _ Sw 0%nat 0%nat eq_refl eq_refl) as P.
    assert (F : forall t fs l, resolve env t = RStruct fs -> deref_type t = t -> (forall r, parse_fields env fs 0 0 <> EOk r) ->
      forall z, (elet info := get_type_info env c t in encode_switch env c (Enc k) (S k) info (VStruct l) (set_num 1 no_opts) true) <> EOk z).
    { intros ty fs0 l0 Rt Dt Np z X. einv X. pose proof (gti_minfo _ _ _ _ Hs E) as Hi. unfold encode_switch in X. rewrite (minfo_type _ _ _ _ Hi), Dt, Rt in X.
      destruct a as [ci|ii]; [|discriminate X]. destruct Hi as [Hct Hok]. destruct (info_ok_parts _ _ Hok) as (_ & Hp & _). rewrite Hct, Dt in Hp. unfold parse_struct_info in Hp. rewrite Rt in Hp.
      exact (Np _ Hp). }
    destruct (parse_fields env fs 0 0) as [r| | |] eqn:Ep, (parse_fields env fs' 0 0) as [r'| | |] eqn:Ep'; try contradiction;
      try (apply okeq_fail; intros z; [eapply F; eauto|eapply F; eauto]; intros q; congruence).
    destruct (plain_info t r D If M) as (ci & G & Tc & Mc & Fc); [unfold parse_struct_info; rewrite R; exact Ep|].
    destruct (plain_info t' r' D' If' M') as (ci' & G' & Tc' & Mc' & Fc'); [unfold parse_struct_info; rewrite R'; exact Ep'|].
    rewrite G, G'. cbn [ebind]. unfold encode_switch. cbn [ti_type]. rewrite Tc, Tc', R, R'. unfold encode_struct. rewrite Tc, Tc', R, R', Fc, Fc'.
    apply okeq_bind; [apply fields_swapped, P|]. intros z. apply okeq_refl.
  Qed.
  Theorem list_swapped k t t' l : wf_codec env c -> array_slice env t t' -> registered c t = None -> registered c t' = None ->
    okeq (marshal_bare k env c t (VArr l)) (marshal_bare k env c t' (VSlice (Some l))).
  Proof.
    intros Wc A U U'. destruct (array_kinds _ _ A) as [K K']. pose proof A as (n & e & R & R' & M & M').
    assert (D : deref_type t = t) by (destruct t; try reflexivity; discriminate R). assert (D' : deref_type t' = t') by (destruct t'; try reflexivity; discriminate R').
    destruct (list_info _ K M) as (ci & G & Tc & Mc). destruct (list_info _ K' M') as (ci' & G' & Tc' & Mc').
    pose proof (unregistered env c Hs t _ Wc G D U) as Rg. pose proof (unregistered env c Hs t' _ Wc G' D' U') as Rg'. cbn in Rg, Rg'.
    unfold marshal_bare. cbn [deref_pointers]. rewrite D, D', G, G'. cbn [ebind ti_type]. rewrite Tc, Tc'.
    assert (is_struct_or_repeated_struct env t' = is_struct_or_repeated_struct env t) as -> by (unfold is_struct_or_repeated_struct, is_struct; rewrite R, R'; reflexivity).
    unfold type_to_typ3. rewrite R, R'. cbn [ebind].
    assert (Q : forall o b, okeq (Enc k (TIConc ci) (VArr l) o b) (Enc k (TIConc ci') (VSlice (Some l)) o b)) by (intros o b; apply (array_encode k _ _ _ _ _ _ _ A); assumption).
    apply okeq_bind.
    - destruct (negb _); [|apply Q]. unfold write_field. cbn [ti_type]. rewrite Tc, Tc'. unfold type_to_typ3. rewrite R, R'. cbn [ebind].
      apply okeq_bind; [apply okeq_refl|]. intros key. apply okeq_bind; [apply Q|]. intros z. apply okeq_refl.
    - intros z. destruct ci as [? ? ? ? rg], ci' as [? ? ? ? rg']; cbn in Rg, Rg'. subst. apply okeq_refl.
  Qed.

  (** ** JSON *)
  Theorem list_json je k t t' l : wf_codec env c -> array_slice env t t' -> registered c t = None -> registered c t' = None ->
    json_plain je t = true -> json_plain je t' = true ->
    marshal_json k env je c (TPtr t) (VPtr (Some (VArr l))) = marshal_json k env je c (TPtr t') (VPtr (Some (VSlice (Some l)))).
  Proof.
    intros Wc A U U' J J'. destruct (array_kinds _ _ A) as [K K']. pose proof A as (n & e & R & R' & M & M').
    assert (D : deref_type t = t) by (destruct t; try reflexivity; discriminate R). assert (D' : deref_type t' = t') by (destruct t'; try reflexivity; discriminate R').
    destruct (list_info _ K M) as (ci & G & Tc & Mc). destruct (list_info _ K' M') as (ci' & G' & Tc' & Mc').
    pose proof (unregistered env c Hs t _ Wc G D U) as Rg. pose proof (unregistered env c Hs t' _ Wc G' D' U') as Rg'. cbn in Rg, Rg'.
    assert (P : forall t, deref_type t = t -> get_type_info env c (TPtr t) = get_type_info env c t) by (intros ty Dt; unfold get_type_info; cbn [deref_type]; rewrite Dt; reflexivity).
    unfold marshal_json. rewrite (P t D), (P t' D'), G, G'. cbn [ebind]. destruct ci as [ty fs m u r], ci' as [ty' fs' m' u' r']; cbn in Tc, Mc, Rg, Tc', Mc', Rg'. subst.
    destruct k as [|k]; [reflexivity|]. cbn [encode_json deref_pointers val_is_ptr orb ti_type ci_type].
    assert (N : forall ty v, json_plain je ty = true -> is_list_kind env ty = true -> marshal_override je ty v true = None).
    { intros ty v Jt Lt. destruct ty; try reflexivity; [discriminate Lt|]. cbn [marshal_override]. cbn in Jt. destruct (je_marshal je id); [discriminate Jt|reflexivity]. }
    rewrite (N _ _ J K), (N _ _ J' K'). unfold json_switch. cbn [ti_type ci_type]. rewrite R, R'. reflexivity.
  Qed.
End Arrays.
