(** From the recursive encoder and decoder to Marshal and Unmarshal. *)
From Coq Require Import ZArith String List Bool Lia.
From Coq Require Import ZifyBool ZifyNat.
From Verif Require Import Base Prims SpecWire PrimFacts PrimProps Types Codec BinEnc BinDec Amino FuelFacts DecFacts
  ValueInd Typing Registry SpecRegistry RegistryFacts Sane DecSafe SpecNorm EncFacts RoundTrip.
Import ListNotations.
Local Open Scope Z_scope.
Local Open Scope amino_scope.

(** The options of a value that stands alone. *)
Definition top_opts : fopts := set_num 1 no_opts.

Definition prefix_of (info : tinfo) : bytes :=
  match info with TIConc ci => match ci_reg ci with Some r => ri_prefix r | None => [] end | TIFace _ => [] end.

Lemma struct_like_eq env t : struct_like env t = is_struct_or_repeated_struct env t.
Proof. reflexivity. Qed.

Lemma gti_deref env c t : get_type_info env c (deref_type t) = get_type_info env c t.
Proof. unfold get_type_info. rewrite deref_idem. reflexivity. Qed.

Lemma marshal_eq k env c t v : marshal_bare k env c t v =
  match under v with
  | None => EPanic "MarshalBinaryBare cannot marshal a nil pointer directly"%string
  | Some w =>
      elet info := get_type_info env c t in
      elet bz :=
        (if negb (struct_like env (ti_type info)) then
           elet typ3 := type_to_typ3 env (ti_type info) no_opts in
           write_field env (encode_reflect k env c) 1 info no_opts w false (negb (typ3 =? Typ3ByteLength))
         else encode_reflect k env c info w top_opts true) in
      EOk (prefix_of info ++ bz)
  end.
Proof.
  unfold marshal_bare. rewrite deref_pointers_under, gti_deref. destruct (under v) as [w|]; [|reflexivity].
  destruct (get_type_info env c t) as [info| | |]; cbn [ebind]; try reflexivity.
  change (negb (is_struct_or_repeated_struct env (ti_type info))) with (negb (struct_like env (ti_type info))).
  fold top_opts. set (X := if negb _ then _ else _). clearbody X. destruct X; cbn [ebind]; try reflexivity.
  destruct info as [[ct cf cm cu [r|]]|]; reflexivity.
Qed.

Lemma unmarshal_eq fd env c bz t v0 : unmarshal_bare fd env c bz t v0 =
  match get_type_info env c t with
  | EOk info =>
      let body := um_body env (fun b bare => decode_reflect fd env c b info t v0 top_opts bare) (ti_type info) t v0 in
      match info with
      | TIConc ci =>
          match ci_reg ci with
          | Some r =>
              if (length bz <? 4)%nat then URet v0 (Some "expected to read prefix bytes"%string)
              else if negb (beqb (firstn 4 bz) (ri_prefix r)) then URet v0 (Some "expected to read prefix bytes"%string)
              else body (skipn 4 bz)
          | None => body bz
          end
      | TIFace _ => body bz
      end
  | EErr e => URet v0 (Some e)
  | EPanic p => UPanic p
  | EFuel => UFuel
  end.
Proof.
  rewrite unmarshal_bare_eq. destruct (get_type_info env c t) as [info| | |]; try reflexivity.
  destruct info as [[ct cf cm cu [r|]]|]; reflexivity.
Qed.

(** Stripping the prefix. *)
Lemma unmarshal_prefixed fd env c bz t v0 info : sane_codec env c -> get_type_info env c t = EOk info ->
  unmarshal_bare fd env c (prefix_of info ++ bz) t v0 =
  um_body env (fun b bare => decode_reflect fd env c b info t v0 top_opts bare) (ti_type info) t v0 bz.
Proof.
  intros Hs Hg. rewrite unmarshal_eq, Hg. cbv zeta. destruct info as [ci|ii]; [|reflexivity].
  cbn [prefix_of]. destruct (ci_reg ci) as [r|] eqn:Er; [|reflexivity].
  pose proof (gti_minfo _ _ _ _ Hs Hg) as [_ Hok]. destruct (reg_shape _ _ _ Hok Er) as (_ & L & _).
  rewrite app_length, L. change (4 + length bz <? 4)%nat with false. cbv iota.
  rewrite firstn_app_exact, skipn_app_exact by exact L.
  replace (beqb (ri_prefix r) (ri_prefix r)) with true by (symmetry; apply beqb_eq; reflexivity). reflexivity.
Qed.

Section Top.
  Variable env : tenv.
  Hypothesis We : wf_env env.
  Variable c : codec.
  Hypothesis Hc : wf_codec env c.
  Hypothesis Hs : sane_codec env c.
  Hypothesis Hm : marshal_typed env.

  Lemma struct_like_conc t info : struct_like env (deref_type t) = true -> minfo env c info t -> exists ci, info = TIConc ci.
  Proof.
    clear. intros H Hi. destruct info as [ci|ii]; [eauto|]. destruct Hi as [_ Hi]. rewrite Hi in H. discriminate.
  Qed.

  (** The bytes of a struct [v], of type [t] or of pointers to it, read into a variable of type
      [rt]: the same up to pointers, holding nothing but zeros. *)
  Theorem struct_round_trip k fd t v bz v' rt v0 : (2 * k <= fd)%nat ->
    struct_like env (deref_type t) = true -> has_type env t v = true ->
    marshal_bare k env c t v = EOk bz -> zlen bz < 2 ^ 63 ->
    match under v with Some w => norm k env c (deref_type t) top_opts w | None => None end = Some v' ->
    deref_type rt = deref_type t -> base_of env rt v0 = zero env (deref_type t) ->
    unmarshal_bare fd env c bz rt v0 = URet (ptrs rt v') None.
  Proof.
    intros Hfd Hsl Ht H Hz Hn Hrt Hb. rewrite marshal_eq in H. destruct (under v) as [w|] eqn:Eu; [|discriminate].
    einv H. einv H. apply EOk_inj in H. subst bz. rename a into info, a0 into body.
    pose proof (gti_minfo _ _ _ _ Hs E) as Hi. rewrite (minfo_type _ _ _ _ Hi), Hsl in E0. cbn [negb] in E0.
    assert (E' : get_type_info env c rt = EOk info) by (rewrite <- gti_deref, Hrt, gti_deref; exact E).
    rewrite (unmarshal_prefixed _ _ _ _ _ _ _ Hs E'). unfold um_body. rewrite (minfo_type _ _ _ _ Hi), <- struct_like_eq, Hsl. cbn [negb andb].
    rewrite zlen_app in Hz. pose proof (zlen_nonneg (prefix_of info)).
    assert (D : decode_reflect fd env c (body ++ []) info rt v0 top_opts true = DRet (ptrs rt v') (length body) None).
    { eapply (encode_decode env We c Hc Hs Hm k fd Hfd info (deref_type t) w); try eassumption.
      - apply minfo_deref. exact Hi.
      - apply deref_idem.
      - eapply under_typed; eassumption.
      - vm_compute. discriminate.
      - lia.
      - reflexivity.
      - destruct (struct_like_conc _ _ Hsl Hi) as [ci ->]. destruct Hi as [Hi1 Hi2]. pose proof (conc_nonptr env ci Hi2) as N.
        rewrite <- Hi1. destruct (ci_type ci); try (apply andb_false_r); contradiction. }
    rewrite app_nil_r in D. rewrite D. unfold um_finish. rewrite Nat.eqb_refl. reflexivity.
  Qed.

  (** A registered struct read into an interface variable. *)
  Theorem struct_into_iface k fd t v bz v' i ii : (2 * k <= fd)%nat -> In ii (cd_ifaces c) -> ii_id ii = i ->
    struct_like env (deref_type t) = true -> has_type env t v = true ->
    marshal_bare k env c t v = EOk bz -> zlen bz < 2 ^ 63 ->
    match under v with Some w => norm k env c (deref_type t) top_opts w | None => None end = Some v' ->
    forall ci r, get_type_info env c t = EOk (TIConc ci) -> ci_reg ci = Some r ->
    te_impl env (if ri_ptr r then TPtr (deref_type t) else deref_type t) i = true ->
    (forall ci', In ci' (cd_concretes c) -> implements env ci' ii = true -> ci_prefix ci' = ri_prefix r -> ci' = ci) ->
    unmarshal_bare (S fd) env c bz (TIface i) (VIface None) =
      URet (VIface (Some (if ri_ptr r then (TPtr (deref_type t), VPtr (Some v')) else (deref_type t, v')))) None.
  Proof.
    intros Hfd Hin Hid Hsl Ht H Hz Hn ci r Hg Hreg Himp Huniq.
    rewrite marshal_eq in H. destruct (under v) as [w|] eqn:Eu; [|discriminate].
    rewrite Hg in H. cbn [ebind] in H. einv H. apply EOk_inj in H. subst bz. rename a into body.
    pose proof (gti_minfo _ _ _ _ Hs Hg) as Hi. rewrite (minfo_type _ _ _ _ Hi), Hsl in E. cbn [negb] in E.
    destruct Hi as [Hi1 Hok].
    destruct (reg_shape _ _ _ Hok Hreg) as (Ld & Lp & Np).
    assert (Hcin : In ci (cd_concretes c)).
    { apply (wc_conc _ _ Hc). split; [|congruence]. unfold get_type_info in Hg. rewrite Hi1.
      pose proof (conc_nonptr env ci Hok) as N. rewrite Hi1 in N.
      destruct (deref_type t) eqn:Et; try contradiction;
      try (destruct (assoc gotype_eqb _ (cd_types c)) as [ci'|] eqn:Ea; [inversion Hg; reflexivity|];
        einv Hg; inversion Hg; subst a; apply new_type_info_spec in E0; destruct E0 as (_ & _ & E0); congruence). }
    assert (Hgi : get_type_info env c (TIface i) = EOk (TIFace ii)).
    { unfold get_type_info. cbn [deref_type]. rewrite <- Hid, (find_iface_in _ _ (wc_ifids _ _ Hc) Hin). reflexivity. }
    rewrite unmarshal_eq, Hgi. cbv zeta. unfold um_body. cbn [ti_type]. rewrite Hid.
    change (is_struct_or_repeated_struct env (TIface i)) with false. change (is_pointer_to_struct env (VIface None) (TIface i)) with (EOk false).
    cbv iota. rewrite andb_false_r. cbn [andb negb].
    assert (Zb : zlen body < 2 ^ 63) by (rewrite zlen_app in Hz; pose proof (zlen_nonneg (prefix_of (TIConc ci))); lia).
    cbn [prefix_of]. rewrite Hreg. cbn [decode_reflect dmap dbind base_of]. unfold rebuild. cbn [wrap_ptrs].
    assert (DI : decode_interface env c (decode_reflect fd env c) (ri_prefix r ++ body) ii (VIface None) top_opts true
      = DRet (VIface (Some (if ri_ptr r then (TPtr (deref_type t), VPtr (Some v')) else (deref_type t, v')))) (4 + length body) None).
    { cbn [decode_interface enter].
      assert (I1 : type_info_from_prefix ii (ri_prefix r) = EOk ci).
      { assert (I1 : impls_of ii (ri_prefix r) = [ci]).
        { assert (Hf : (fun ci0 => implements env ci0 ii && beqb (ci_prefix ci0) (ri_prefix r)) ci = true).
          { cbv beta. rewrite (conc_implements env We ci ii r Hok Hreg).
            - unfold ci_prefix. rewrite Hreg. apply beqb_eq. reflexivity.
            - unfold reg_form. rewrite Hreg, Hi1, Hid. exact Himp. }
          rewrite (wc_impls _ _ Hc) by assumption.
          assert (Hall : forall x, In x (filter (fun ci0 => implements env ci0 ii && beqb (ci_prefix ci0) (ri_prefix r)) (cd_concretes c)) -> x = ci).
          { intros x Hx. apply filter_In in Hx. destruct Hx as [Hx1 Hx2]. apply andb_true_iff in Hx2. destruct Hx2 as [Hx2 Hx3].
            apply beqb_eq in Hx3. apply Huniq; assumption. }
          assert (ND : NoDup (filter (fun ci0 => implements env ci0 ii && beqb (ci_prefix ci0) (ri_prefix r)) (cd_concretes c))).
          { apply NoDup_filter. eapply NoDup_map_inv. apply (wc_nodup _ _ Hc). }
          apply filter_single; [assumption|exact Hf|].
          destruct (filter _ _) as [|x [|y q]]; [cbn; lia|cbn; lia|]. exfalso.
          assert (x = ci) by (apply Hall; left; reflexivity). assert (y = ci) by (apply Hall; right; left; reflexivity). subst x y.
          inversion ND as [|? ? N1 N2]; subst. apply N1. left. reflexivity. }
        unfold impls_of in I1. unfold type_info_from_prefix. destruct (assoc beqb (ri_prefix r) (ii_impls ii)) as [li|]; [|discriminate]. rewrite I1. reflexivity. }
      assert (DP : decode_disamb_prefix (ri_prefix r ++ body) = DRet (None, ri_prefix r) 4 None).
      { unfold decode_disamb_prefix. rewrite app_length, Lp. change (4 + length body <? 4)%nat with false. cbv iota.
        rewrite firstn_app_exact by exact Lp.
        destruct (ri_prefix r) as [|x q]; [discriminate Lp|]. cbn [app]. cbn in Np. destruct x; [contradiction| |]; reflexivity. }
      rewrite DP. cbn [dbind]. rewrite slide_le by (rewrite app_length; lia). rewrite skipn_app_exact by exact Lp. cbn [fst snd].
      rewrite I1. cbn [eget].
      assert (WK : wants_key env ci body top_opts = false).
      { unfold wants_key. rewrite Hi1, <- struct_like_eq, Hsl. reflexivity. }
      rewrite WK.
      assert (DD : decode_reflect fd env c body (TIConc ci) (ci_type ci) (zero env (ci_type ci)) top_opts true = DRet v' (length body) None).
      { rewrite <- (app_nil_r body) at 1.
        replace v' with (ptrs (ci_type ci) v') by (apply ptrs_nonptr; rewrite Hi1; apply deref_idem).
        eapply (encode_decode env We c Hc Hs Hm k fd Hfd (TIConc ci) (deref_type t) w); try eassumption.
        - cbn. rewrite deref_idem. auto.
        - apply deref_idem.
        - eapply under_typed; eassumption.
        - vm_compute. discriminate.
        - reflexivity.
        - rewrite Hi1. apply deref_idem.
        - rewrite Hi1. rewrite deref_is_ptr. reflexivity.
        - rewrite base_zero, Hi1, deref_idem. reflexivity. }
      rewrite DD. cbn [dbind]. rewrite slide_le by lia. rewrite skipn_all. unfold set_iface. rewrite Hreg, Hi1, Hid.
      destruct (ri_ptr r); rewrite Himp; reflexivity. }
    unfold decode_switch. cbn [ti_type resolve]. rewrite DI. unfold dmap. cbn [dbind]. unfold um_finish. rewrite app_length, Lp, Nat.eqb_refl. reflexivity.
  Qed.
End Top.
