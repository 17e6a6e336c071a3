(** What is read back from a JSON text is written as the same text. *)
From Coq Require Import ZArith String List Bool Lia.
From Coq Require Import ZifyBool ZifyNat.
From Verif Require Import Base Prims SpecWire PrimFacts PrimProps Types Codec BinEnc BinDec Amino DecFacts
  ValueInd Typing Registry SpecRegistry RegistryFacts RegistryProps Sane DecSafe SpecNorm EncFacts RoundTrip SupportedFacts
  TopFacts TopProps FrameFacts JsonText Json SpecJson JsonTextFacts JsonFacts JsonProps ReencodeFacts SpecJsonAgain.
Import ListNotations.
Local Open Scope Z_scope.

Lemma ptrs_typed env t x : has_type env (deref_type t) x = true -> has_type env t (ptrs t x) = true.
Proof. intros H. induction t; cbn [ptrs deref_type] in *; try exact H. cbn [has_type resolve]. apply IHt, H. Qed.

Section Again.
  Variable env : tenv.
  Variable je : jenv.
  Variable c : codec.
  Hypothesis We : wf_env env.
  Hypothesis Wc : wf_codec env c.
  Hypothesis Hs : sane_codec env c.
  Hypothesis Hm : marshal_typed env.
  Hypothesis Hj : jenv_ok je.

  Lemma zero_like_resolve t t' v : resolve env t = resolve env t' -> zero_like env t v = zero_like env t' v.
  Proof. intros E. destruct v as [| | | | | | |[|]|[|]| |[|]|[|]| | |]; cbn [zero_like]; rewrite ?E; reflexivity. Qed.
  Lemma zero_like_zero t : zero_like env t (zero env t) = true.
  Proof.
    apply (zero_ind env (fun t v => zero_like env t v = true)); try assumption; try reflexivity.
    - intros p. destruct p; reflexivity.
    - intros n e IH. cbn [zero_like resolve]. destruct n as [|n]; [reflexivity|]. apply forallb_forall. intros x Hx. apply repeat_spec in Hx. subst x.
      apply (IH _ eq_refl). lia.
    - intros id fs Ed IH. cbn [zero_like resolve]. rewrite Ed. clear Ed. induction fs as [|f fs IHf]; [reflexivity|]. cbn [map forall2b].
      rewrite (IH f (or_introl eq_refl)). cbn [andb]. apply IHf. intros g Hg. apply IH. right. exact Hg.
    - intros id u Ed Nn H. rewrite <- H. apply zero_like_resolve. pose proof (we_def _ We id) as Nb. cbn [resolve] in Nb |- *. rewrite Ed in Nb |- *. destruct u; try reflexivity; congruence.
  Qed.
  Lemma zero_omitted t : omitted env t (zero env t) = true.
  Proof.
    unfold omitted. destruct (under (zero env t)) as [w|] eqn:U; [|reflexivity]. destruct (is_ptr t) eqn:P.
    - destruct t; discriminate.
    - pose proof (under_nonptr _ _ _ (has_type_zero env t We) P We) as U'. rewrite U' in U. injection U as <-. rewrite zero_like_zero. reflexivity.
  Qed.
  Definition same (k : nat) (t : gotype) (v w : value) (info : tinfo) : Prop := has_type env t w = true /\
    forall m, (k <= m)%nat -> forall ad ad' o o', encode_json m env je c info w ad o = encode_json m env je c info v ad' o'.
  Definition again (k : nat) : Prop := forall t v n w info, jform k env je c t v = Some (n, w) -> has_type env t v = true ->
    get_type_info env c t = EOk info -> jlasting k env je c t v -> same k t v w info.

  Section Step.
    Variable k : nat.
    Hypothesis IH : again k.
    Notation go := (go env je c k).
    Lemma again_value t v w info : go t v = Some w -> has_type env t v = true -> get_type_info env c t = EOk info ->
      jlasting k env je c t v -> same k t v w info.
    Proof.
      unfold JsonFacts.go. destruct (jform k env je c t v) as [[n w']|] eqn:E; [|discriminate]. intros H Ht Hi Hl. injection H as <-.
      exact (IH t v n w' info E Ht Hi Hl).
    Qed.
    Lemma again_elems e einfo : get_type_info env c e = EOk einfo -> forall l l', opt_map (go e) l = Some l' -> forallb (has_type env e) l = true ->
      Forall (jlasting k env je c e) l -> length l' = length l /\ forallb (has_type env e) l' = true /\ forall m, (k <= m)%nat -> forall ad ad' o o',
        json_elems (encode_json m env je c) einfo l' ad o = json_elems (encode_json m env je c) einfo l ad' o'.
    Proof.
      intros Hi. induction l as [|v l IHl]; intros l' H Ht Hl.
      - cbn [opt_map] in H. injection H as <-. repeat split.
      - cbn [opt_map] in H. destruct (go e v) as [w|] eqn:G; [|discriminate]. destruct (opt_map (go e) l) as [r|] eqn:R; [|discriminate].
        injection H as <-. cbn [forallb] in Ht. apply andb_true_iff in Ht. destruct Ht as [Hv Ht]. inversion Hl as [|? ? L1 L2]; subst.
        destruct (again_value e v w einfo G Hv Hi L1) as [T1 E1]. destruct (IHl r eq_refl Ht L2) as (N & T2 & E2).
        split; [cbn [length]; congruence|]. split; [cbn [forallb]; rewrite T1, T2; reflexivity|].
        intros m Hm' ad ad' o o'. cbn [json_elems]. rewrite (E1 m Hm' ad ad' o o'), (E2 m Hm' ad ad' o o'). reflexivity.
    Qed.
    Lemma again_fields : forall fs i num fis l l', parse_fields env fs i num = EOk fis ->
      forall2b (fun f w => has_type env (sf_type f) w) fs l = true -> jnorm_fields env c go fs l = Some l' ->
      jlasting_fields env go (jlasting k env je c) fs l ->
      forall2b (fun f w => has_type env (sf_type f) w) fs l' = true /\
      forall m, (k <= m)%nat -> forall lp lp' ad ad', length lp = i -> length lp' = i ->
      json_fields env c (encode_json m env je c) fis (lp' ++ l') ad = json_fields env c (encode_json m env je c) fis (lp ++ l) ad'.
    Proof.
      induction fs as [|f fs IHf]; intros i num fis l l' Hp Ht Hn Hl.
      - cbn [parse_fields] in Hp. apply EOk_inj in Hp. subst fis. destruct l; [|discriminate]. cbn [jnorm_fields] in Hn. injection Hn as <-. split; reflexivity.
      - destruct l as [|v l]; [discriminate|]. cbn [forall2b] in Ht. apply andb_true_iff in Ht. destruct Ht as [Hv Ht].
        cbn [jnorm_fields] in Hn. destruct (jnorm_field env c go f v) as [w|] eqn:Ef; [|discriminate].
        destruct (jnorm_fields env c go fs l) as [r|] eqn:Er; [|discriminate]. injection Hn as <-. cbn [jlasting_fields] in Hl. destruct Hl as [L1 L2].
        apply parse_step in Hp. unfold jnorm_field in Ef. unfold jlasting_field in L1. pose proof (field_opts_json (Z.of_nat num + 1) f) as Fo.
        assert (A1 : forall lp, lp ++ v :: l = (lp ++ [v]) ++ l) by (intros; rewrite <- app_assoc; reflexivity).
        assert (A2 : forall lp, lp ++ w :: r = (lp ++ [w]) ++ r) by (intros; rewrite <- app_assoc; reflexivity).
        assert (S1 : forall (lp : list value) x, length lp = i -> length (lp ++ [x]) = S i) by (intros lp x E; rewrite app_length; cbn [length]; lia).
        cbn [forall2b]. destruct (json_opts f) as [jo|] eqn:Ejo; rewrite Fo in Hp.
        + destruct Hp as (fi & rest & -> & Hix & Hty & _ & Hopt & _ & Hp).
          assert (Hna : fo_json_name (fi_opts fi) = fo_json_name jo) by (rewrite Hopt; reflexivity).
          assert (Hoe : fo_omitempty (fi_opts fi) = fo_omitempty jo) by (rewrite Hopt; reflexivity).
          destruct (negb (known env c (sf_type f))) eqn:Ek; [discriminate|]. apply negb_false_iff in Ek. destruct (known_info _ _ _ Ek) as [info Ei].
          destruct (IHf (S i) (S num) rest l r Hp Ht Er L2) as [T2 E2]. rewrite T2.
          assert (OM : forall t x, is_empty env t x = omitted env t x).
          { intros t x. unfold is_empty, omitted. rewrite deref_pointers_under. destruct (under x) as [y|]; [|reflexivity].
            rewrite deep_zero_like. destruct y as [b|z|z|bits|s|sec ns|la|[[|]|]|ov|ls|ov|ol|b| |]; try reflexivity; destruct s || destruct la; reflexivity. }
          destruct (fo_omitempty jo && omitted env (sf_type f) v) eqn:Eo.
          * injection Ef as <-. apply andb_true_iff in Eo. destruct Eo as [Eo1 Eo]. split; [rewrite has_type_zero by exact We; reflexivity|].
            intros m Hm' lp lp' ad ad' Llp Llp'. cbn [json_fields]. rewrite Hix, Hty, Ei, Hoe, Hna. cbn [ebind].
            assert (N1 : nth i (lp ++ v :: l) VInvalid = v) by (rewrite <- Llp; apply nth_mid).
            assert (N2 : nth i (lp' ++ zero env (sf_type f) :: r) VInvalid = zero env (sf_type f)) by (rewrite <- Llp'; apply nth_mid).
            rewrite N1, N2, !OM, zero_omitted, Eo1, Eo. cbn [andb].
            rewrite A1, A2. apply E2; auto.
          * destruct L1 as [L1 L3]. assert (Ew : fo_omitempty jo && omitted env (sf_type f) w = false).
            { destruct (fo_omitempty jo); [|reflexivity]. apply L3; [reflexivity|exact Ef]. }
            destruct (again_value _ v w info Ef Hv Ei L1) as [T1 E1]. split; [rewrite T1; reflexivity|].
            intros m Hm' lp lp' ad ad' Llp Llp'. cbn [json_fields]. rewrite Hix, Hty, Ei, Hoe, Hna. cbn [ebind].
            assert (N1 : nth i (lp ++ v :: l) VInvalid = v) by (rewrite <- Llp; apply nth_mid).
            assert (N2 : nth i (lp' ++ w :: r) VInvalid = w) by (rewrite <- Llp'; apply nth_mid).
            rewrite N1, N2, !OM, Eo, Ew, (E1 m Hm' ad ad' (fi_opts fi) (fi_opts fi)), A1, A2.
            rewrite (E2 m Hm' _ _ ad ad' (S1 _ v Llp) (S1 _ w Llp')). reflexivity.
        + injection Ef as <-. destruct (IHf (S i) num fis l r Hp Ht Er L2) as [T2 E2]. split; [rewrite has_type_zero, T2 by exact We; reflexivity|].
          intros m Hm' lp lp' ad ad' Llp Llp'. rewrite A1, A2. apply E2; auto.
    Qed.
    (** A member is written like the value itself. *)
    Lemma member_value vt vinfo v m o : get_type_info env c vt = EOk vinfo -> has_type env vt v = true ->
      (match deref_pointers v with
       | (_, true) => EOk null
       | (w, false) => ebind (get_type_info env c (deref_type vt)) (fun info => encode_json (S m) env je c info w (val_is_ptr v) o)
       end) = encode_json (S m) env je c vinfo v false o.
    Proof.
      intros Hi Hv. rewrite deref_pointers_under. destruct (under v) as [w|] eqn:U.
      - rewrite gti_deref, Hi. cbn [ebind]. apply (enc_deref env je c We vt v w vinfo (S m) false o Hv U).
      - symmetry. apply enc_nil. exact U.
    Qed.
    Lemma again_members vt vinfo : get_type_info env c vt = EOk vinfo -> forall l l', opt_map (gom env je c k vt) l = Some l' ->
      forallb (fun p => has_type env (TPrim PString) (fst p) && has_type env vt (snd p)) l = true ->
      Forall (fun p => jlasting k env je c vt (snd p)) l ->
      forallb (fun p => has_type env (TPrim PString) (fst p) && has_type env vt (snd p)) l' = true /\ forall m, (k <= m)%nat -> forall o o',
        json_members env c (encode_json m env je c) vt l' o = json_members env c (encode_json m env je c) vt l o'.
    Proof.
      intros Hi. induction l as [|[x v] l IHl]; intros l' H Ht Hl.
      - cbn [opt_map] in H. injection H as <-. split; reflexivity.
      - cbn [opt_map] in H. unfold gom at 1 in H. cbn [fst snd] in H. destruct (go vt v) as [w|] eqn:G; [|discriminate].
        destruct (opt_map (gom env je c k vt) l) as [r|] eqn:R; [|discriminate]. injection H as <-.
        cbn [forallb fst snd] in Ht |- *. apply andb_true_iff in Ht. destruct Ht as [Hv Ht]. apply andb_true_iff in Hv. destruct Hv as [Hx Hv].
        inversion Hl as [|? ? L1 L2]; subst. cbn [snd] in L1. destruct (again_value vt v w vinfo G Hv Hi L1) as [Tw Ew].
        destruct (IHl r eq_refl Ht L2) as [T2 E2]. split; [rewrite Hx, Tw, T2; reflexivity|]. intros m Hm' o o'.
        destruct m as [|m]; [replace k with O in G by lia; discriminate|].
        cbn [json_members]. destruct x; try reflexivity.
        rewrite (member_value vt vinfo w m o Hi Tw), (member_value vt vinfo v m o' Hi Hv), (Ew (S m) Hm' false false o o'), (E2 (S m) Hm' o o'). reflexivity.
    Qed.
    Lemma not_iface t v : has_type env t v = true -> is_iface t = false -> match v with VIface _ => False | _ => True end.
    Proof.
      intros Ht Hn. destruct v; try exact I. cbn [has_type] in Ht. destruct (resolve env t) as [[]| | | | | | | | |i|] eqn:Er; try discriminate.
      apply resolve_iface in Er; [|exact We]. subst t. discriminate.
    Qed.
    Lemma again_iface i ct cv w' : has_type env ct cv = true -> jnorm_iface env c go i ct cv = Some w' ->
      match under cv with Some w => jlasting k env je c (deref_type ct) w | None => True end ->
      has_type env (TIface i) w' = true /\ forall m, (k <= m)%nat -> forall o o',
        json_interface env c (encode_json m env je c) w' o = json_interface env c (encode_json m env je c) (VIface (Some (ct, cv))) o'.
    Proof.
      intros Ht H Hl. unfold jnorm_iface in H. destruct (registration c (deref_type ct)) as [[name ptr]|] eqn:R; [|discriminate].
      destruct (under cv) as [w|] eqn:U; [|discriminate].
      destruct (te_impl env (if ptr then TPtr (deref_type ct) else deref_type ct) i && unescaped name && negb (beqb name [])) eqn:C; [|discriminate].
      apply andb_true_iff in C. destruct C as [C _]. apply andb_true_iff in C. destruct C as [Ci _].
      destruct (go (deref_type ct) w) as [x|] eqn:G; [|discriminate]. injection H as <-.
      destruct (registration_info env c Wc _ _ _ R) as (ci & r & Hin & Hct & Hr & Hnm & Hptr & Hg & Hn & Hd).
      pose proof (under_typed env We _ _ _ Ht U) as Htw. destruct (again_value _ w x _ G Htw Hg Hl) as [Tx Ex].
      pose proof (deref_is_ptr ct) as Hnp. pose proof (under_nonptr _ _ _ Tx Hnp We) as Ux.
      assert (Hni : is_iface (deref_type ct) = false).
      { destruct (proj1 (wc_conc _ _ Wc ci) Hin) as [Ha _]. destruct (wc_types _ _ Wc _ _ Ha) as [_ Hok]. destruct (info_ok_parts _ _ Hok) as (Hc & _).
        rewrite Hct in Hc. destruct (deref_type ct); try reflexivity; discriminate. }
      split.
      - cbn [has_type resolve]. rewrite Ci. cbn [andb]. destruct ptr; [cbn [has_type resolve]; exact Tx|]. destruct (deref_type ct); try exact Tx; discriminate.
      - intros m Hm' o o'. unfold json_interface. rewrite !deref_pointers_under, U.
        assert (E1 : under (if ptr then VPtr (Some x) else x) = Some x) by (destruct ptr; exact Ux).
        assert (E2 : deref_type (if ptr then TPtr (deref_type ct) else deref_type ct) = deref_type ct) by (destruct ptr; exact Hd).
        rewrite E1, E2, Hg. cbn [ebind]. rewrite Hr. rewrite (Ex m Hm' _ (val_is_ptr cv) o o').
        pose proof (not_iface _ _ Tx Hni) as N1. pose proof (not_iface _ _ Htw Hni) as N2.
        destruct x; try contradiction; destruct w; try contradiction; reflexivity.
    Qed.

    Lemma again_plain b w w' info : deref_type b = b -> minfo env c info b -> has_type env b w = true -> jnorm_plain env c go b w = Some w' ->
      jlasting_plain env go (jlasting k env je c) b w ->
      w' = w \/ has_type env b w' = true /\ forall m, (k <= m)%nat -> forall ad ad' o o',
        json_switch env je c (encode_json m env je c) info w' ad o = json_switch env je c (encode_json m env je c) info w ad' o'.
    Proof.
      intros Hb Hi Ht H Hl. pose proof (minfo_type _ _ _ _ Hi) as Hty. rewrite Hb in Hty. unfold json_switch. rewrite Hty.
      unfold jlasting_plain in Hl. unfold jnorm_plain in H. destruct (resolve env b) as [p| |n e|e|e|kt vt| | |i|fs|] eqn:Er; try discriminate.
      - left. destruct p; try discriminate; try (injection H as <-; reflexivity). destruct w; try discriminate; try (injection H as <-; reflexivity).
        destruct (valid_utf8 _); [|discriminate]. injection H as <-. reflexivity.
      - destruct w as [| | | | | |l| | | | | | | |]; cbn [has_type] in Ht; rewrite Er in Ht; try discriminate.
        apply andb_true_iff in Ht. destruct Ht as [Hlen Ht]. destruct (is_uint8 env e) eqn:U8.
        { left. destruct (gotype_eqb e (TPrim PUint8)); [|discriminate]. injection H as <-. reflexivity. }
        right. destruct (known env c e) eqn:Ke; [|discriminate]. destruct (known_info _ _ e Ke) as [einfo Ei].
        destruct (opt_map (go e) l) as [r|] eqn:Eo; [|discriminate]. cbn [option_map] in H. injection H as <-.
        destruct (again_elems e einfo Ei l r Eo Ht Hl) as (N & T & E). split; [cbn [has_type]; rewrite Er, N, Hlen, T; reflexivity|].
        intros m Hm' ad ad' o o'. cbn [json_list]. rewrite U8, Ei. cbn [ebind]. rewrite (E m Hm' ad ad' o o'). reflexivity.
      - destruct w as [| | | | | | |[l|]| | | | | | |]; cbn [has_type] in Ht; rewrite Er in Ht; try discriminate. destruct Hl as [Hne Hl].
        destruct (is_uint8 env e) eqn:U8.
        { left. destruct (gotype_eqb e (TPrim PUint8)); [|discriminate]. injection H as <-. destruct l; [congruence|reflexivity]. }
        right. destruct (known env c e) eqn:Ke; [|discriminate]. destruct (known_info _ _ e Ke) as [einfo Ei].
        destruct (opt_map (go e) l) as [r|] eqn:Eo; [|discriminate]. cbn [option_map] in H. injection H as <-.
        destruct (again_elems e einfo Ei l r Eo Ht Hl) as (N & T & E). destruct r as [|y r]; [destruct l; [congruence|discriminate]|]. cbn [slice_of].
        split; [cbn [has_type]; rewrite Er; exact T|].
        intros m Hm' ad ad' o o'. cbn [json_list]. rewrite U8, Ei. cbn [ebind]. rewrite (E m Hm' true true o o'). reflexivity.
      - destruct w as [| | | | | | | | | | |[l|]| | |]; cbn [has_type] in Ht; rewrite Er in Ht; try discriminate.
        + destruct (gotype_eqb kt (TPrim PString)) eqn:Gk; [|discriminate]. apply gotype_eqb_eq in Gk. subst kt.
          destruct (known env c vt) eqn:Kv; [|discriminate]. cbn [andb] in H. destruct (distinct (map_keys l) && forallb valid_utf8 (map_keys l)); [|discriminate].
          destruct (known_info _ _ vt Kv) as [vinfo Ei]. change (option_map (fun r => VMap (Some r)) (opt_map (gom env je c k vt) l) = Some w') in H.
          destruct (opt_map (gom env je c k vt) l) as [r|] eqn:Eo; [|discriminate]. cbn [option_map] in H. injection H as <-.
          destruct (again_members vt vinfo Ei l r Eo Ht Hl) as [T E]. right. split; [cbn [has_type]; rewrite Er; exact T|].
          intros m Hm' ad ad' o o'. unfold json_map. cbn [resolve]. rewrite (E m Hm' o o'). reflexivity.
        + destruct (gotype_eqb kt (TPrim PString)) eqn:Gk; [|discriminate]. apply gotype_eqb_eq in Gk. subst kt.
          destruct (known env c vt); [|discriminate]. injection H as <-. right. split; [cbn [has_type]; rewrite Er; reflexivity|]. reflexivity.
      - apply resolve_iface in Er; [|exact We]. subst b. destruct w as [| | | | | | | | | |[[ct cv]|]| | | |]; try discriminate.
        assert (Htc : has_type env ct cv = true).
        { cbn [has_type resolve] in Ht. apply andb_true_iff in Ht. destruct Ht as [_ Ht]. destruct ct; try exact Ht; discriminate. }
        destruct (again_iface i ct cv w' Htc H Hl) as [T E]. right. split; [exact T|]. intros. apply E. assumption.
      - destruct w as [| | | | | | | | |l| | | | |]; cbn [has_type] in Ht; rewrite Er in Ht; try discriminate.
        destruct (distinct (json_names fs) && forallb valid_utf8 (json_names fs)); [|discriminate].
        destruct (jnorm_fields env c go fs l) as [l'|] eqn:En; [|discriminate]. cbn [option_map] in H. injection H as <-.
        destruct info as [ci|ii]; [|destruct Hi as [_ Hi]; rewrite Hb in Hi; subst b; discriminate].
        destruct Hi as [Hct Hok]. destruct (info_ok_parts _ _ Hok) as (_ & Hpf & _). rewrite Hct, Hb in Hpf. unfold parse_struct_info in Hpf. rewrite Er in Hpf.
        destruct (again_fields fs 0%nat 0%nat (ci_fields ci) l l' Hpf Ht En Hl) as [T E]. right. split; [cbn [has_type]; rewrite Er; exact T|].
        intros m Hm' ad ad' o o'. cbn [json_struct]. pose proof (E m Hm' [] [] ad ad' eq_refl eq_refl) as E'. cbn [app] in E'. rewrite E'. reflexivity.
    Qed.

    Lemma typed_ptrs t : forall v x, has_type env t v = true -> under v = Some x -> v = ptrs t x.
    Proof.
      induction t; intros v x Ht U; cbn [ptrs];
        try (rewrite (under_nonptr env v _ Ht eq_refl We) in U; injection U as <-; reflexivity).
      destruct v as [| | | | | | | |[v|]| | | | | |]; cbn [has_type resolve] in Ht; try discriminate. cbn [under] in U.
      rewrite <- (IHt v x Ht U). reflexivity.
    Qed.
    Lemma ptrs_id t x : is_ptr t = false -> ptrs t x = x.
    Proof. clear. destruct t; try reflexivity. discriminate. Qed.
    Lemma known_deref t : known env c (deref_type t) = known env c t.
    Proof. clear. unfold known. rewrite gti_deref. reflexivity. Qed.
    Lemma jform_base t v x n w : under v = Some x -> jform (S k) env je c t v = Some (n, w) ->
      exists y, jform (S k) env je c (deref_type t) x = Some (n, y) /\ (n = false -> w = ptrs t y).
    Proof.
      clear. intros U H. cbn [jform] in H |- *. rewrite deref_is_ptr, deref_idem, known_deref, (under_idem _ _ U). cbn [andb orb].
      destruct (is_ptr t && is_iface (deref_type t)); [discriminate|]. cbn [orb] in H. destruct (negb (known env c t)); [discriminate|]. rewrite U in H.
      assert (PL : match x with
        | VSlice None | VIface None => Some (true, zero env t)
        | _ => match jnorm_plain env c go (deref_type t) x with Some w' => Some (false, ptrs t w') | None => None end
        end = Some (n, w) -> exists y, match x with
        | VSlice None | VIface None => Some (true, zero env (deref_type t))
        | _ => match jnorm_plain env c go (deref_type t) x with Some w' => Some (false, ptrs (deref_type t) w') | None => None end
        end = Some (n, y) /\ (n = false -> w = ptrs t y)).
      { assert (TX : forall o : option value, match o with Some w' => Some (false, ptrs t w') | None => None end = Some (n, w) ->
          exists y, match o with Some w' => Some (false, ptrs (deref_type t) w') | None => None end = Some (n, y) /\ (n = false -> w = ptrs t y)).
        { intros [y|] E; [|discriminate]. injection E as <- <-. exists y. rewrite (ptrs_id (deref_type t)) by apply deref_is_ptr. auto. }
        destruct x as [| | | | | | |[|]| | |[|]| | | |]; try exact (TX _); intros E; injection E as <- <-; eexists; (split; [reflexivity|discriminate]). }
      destruct (deref_type t) as [p| |an ae|se|pe|mk me| | |ifc|id] eqn:D; try (exact (PL H)).
      - destruct x; try discriminate. destruct (je_time je s ns); try discriminate. injection H as <- <-. eexists. split; [reflexivity|]. reflexivity.
      - destruct (je_marshal je id) as [[[] f]|]; [| discriminate|].
        + destruct (je_unmarshal je id) as [g|]; [|discriminate]. destruct (f x) as [bz| | |]; try discriminate.
          destruct (beqb bz (bs "null")); [injection H as <- <-; eexists; split; [reflexivity|discriminate]|].
          destruct (g bz (zero env (TNamed id))); try discriminate. injection H as <- <-. eexists. split; reflexivity.
        + destruct (je_unmarshal je id) as [g|]; [discriminate|]. destruct (te_marshal env id) as [[|r f]|]; [discriminate| |].
          * destruct (te_unmarshal env id) as [[|r' g]|]; try discriminate. destruct (f x) as [y| | |]; try discriminate.
            destruct (gotype_eqb r r'); [|discriminate]. destruct (jform k env je c r y) as [[[] y']|]; [|destruct (g (zero env (TNamed id)) y') as [[x' [e|]]| | |]; try discriminate|discriminate];
              injection H as <- <-; eexists; (split; [reflexivity|]); try discriminate; reflexivity.
          * destruct (te_unmarshal env id); [discriminate|]. exact (PL H).
    Qed.
    Lemma again_step : again (S k).
    Proof.
      intros t v n w info H Ht Hg Hl.
      destruct (round_all env je c We Wc Hs Hm Hj (S k) t v n w info H Ht Hg) as (bz & _ & _ & Hbz & Hnull & HE).
      assert (SELF : w = v -> same (S k) t v w info).
      { intros ->. split; [exact Ht|]. intros m Hm' ad ad' o o'. destruct (HE m Hm') as [HE1 _]. rewrite !HE1. reflexivity. }
      pose proof (gti_minfo _ _ _ _ Hs Hg) as Hi. pose proof (minfo_type _ _ _ _ Hi) as Hty.
      destruct (under v) as [x|] eqn:U.
      2:{ assert (n = true /\ w = zero env t) as [-> ->].
          { cbn [jform] in H. rewrite U in H. destruct (_ || _); [discriminate|]. injection H as <- <-. split; reflexivity. }
          split; [apply has_type_zero; exact We|]. intros [|m] Hm' ad ad' o o'; [lia|]. destruct (HE (S m) Hm') as [HE1 _]. rewrite HE1.
          rewrite (proj2 Hbz eq_refl). apply enc_nil. destruct v; try discriminate. cbn [has_type] in Ht. destruct t; cbn [resolve] in Ht; try discriminate; try reflexivity.
          - destruct p; discriminate.
          - destruct (te_def env id) as [|[[]| | | | | | | | |]]; discriminate. }
      pose proof (under_typed env We _ _ _ Ht U) as Htx. pose proof (typed_ptrs _ _ _ Ht U) as Ev.
      destruct (jform_base t v x n w U H) as (y & Hy & Hw).
      cbn [jlasting] in Hl. rewrite U in Hl.
      (* methods, and null *)
      assert (M : (n = true -> is_ptr t = false -> y = x) -> (n = false -> y = x) -> same (S k) t v w info).
      { intros M1 M2. destruct n.
        - specialize (Hnull eq_refl). destruct (is_ptr t) eqn:P.
          + subst w. split; [apply has_type_zero; exact We|]. intros [|m] Hm' ad ad' o o'; [lia|]. destruct (HE (S m) Hm') as [HE1 _]. rewrite HE1.
            rewrite (proj2 Hbz eq_refl). apply enc_nil. destruct t; try discriminate. reflexivity.
          + apply SELF. rewrite Ev, (ptrs_id t x P). rewrite <- (M1 eq_refl eq_refl).
            rewrite (deref_nonptr t P) in Hy. assert (v = x) by (rewrite Ev; apply ptrs_id; exact P). subst v. congruence.
        - apply SELF. rewrite (Hw eq_refl), (M2 eq_refl). symmetry. exact Ev. }
      assert (MM : jnorm (S k) env je c (deref_type t) x = Some x -> same (S k) t v w info).
      { unfold jnorm. rewrite Hy. cbn [option_map snd]. intros E. injection E as ->. apply M; reflexivity. }
      assert (PL : match deref_type t with TTime => False | TNamed id => je_marshal je id = None /\ je_unmarshal je id = None /\ te_marshal env id = None /\ te_unmarshal env id = None | _ => True end ->
        jlasting_plain env go (jlasting k env je c) (deref_type t) x -> same (S k) t v w info).
      { intros Hid Hlp. clear MM.
        assert (HP : match x with
          | VSlice None | VIface None => Some (true, zero env (deref_type t))
          | _ => match jnorm_plain env c go (deref_type t) x with Some w' => Some (false, w') | None => None end
          end = Some (n, y)).
        { cbn [jform] in Hy. rewrite deref_is_ptr, deref_idem, (under_idem _ _ U) in Hy. cbn [andb orb] in Hy. destruct (negb _); [discriminate|].
          assert (PN : forall w, ptrs (deref_type t) w = w) by (intros; apply ptrs_id, deref_is_ptr).
          rewrite <- Hy. destruct (deref_type t) as [p| |an ae|se|pe|mk me| | |ifc|id]; try contradiction; try destruct Hid as (-> & -> & -> & ->);
            destruct x as [| | | | | | |[|]| | |[|]| | | |]; try reflexivity; unfold JsonFacts.go; destruct (jnorm_plain _ _ _ _ _); rewrite ?PN; reflexivity. }
        destruct (match x with VSlice None | VIface None => true | _ => false end) eqn:N.
        - assert (E : Some (true, zero env (deref_type t)) = Some (n, y)) by (rewrite <- HP; destruct x as [| | | | | | |[|]| | |[|]| | | |]; try discriminate; reflexivity).
          injection E as <- <-. apply M; [|discriminate]. intros _ _.
          destruct x as [| | | | | | |[|]| | |[|]| | | |]; try discriminate; cbn [has_type] in Htx;
            destruct (resolve env (deref_type t)) as [[]| | | | | | | | | |] eqn:Er; try discriminate; [eapply zero_slice; eassumption|].
          apply resolve_iface in Er; [|exact We]. rewrite Er. reflexivity.
        - assert (E : match jnorm_plain env c go (deref_type t) x with Some w' => Some (false, w') | None => None end = Some (n, y))
            by (rewrite <- HP; destruct x as [| | | | | | |[|]| | |[|]| | | |]; try discriminate; reflexivity).
          destruct (jnorm_plain env c go (deref_type t) x) as [x'|] eqn:J; [|discriminate]. injection E as <- <-.
          destruct (again_plain (deref_type t) x x' info (deref_idem t) (minfo_deref _ _ _ _ Hi) Htx J Hlp) as [->|[T E]]; [apply M; [discriminate|reflexivity]|].
          rewrite (Hw eq_refl). pose proof (ptrs_typed env t x' T) as Tw. split; [exact Tw|]. intros [|m] Hm' ad ad' o o'; [lia|].
          assert (Uw : under (ptrs t x') = Some x') by (apply under_ptrs; eapply under_nonptr; [exact T|apply deref_is_ptr|exact We]).
          rewrite (enc_step env je c m info _ x' ad o (typed_valid env _ _ Tw) Uw), (enc_step env je c m info v x ad' o' (typed_valid env _ _ Ht) U).
          assert (MO : forall z ad, marshal_override je (ti_type info) z ad = None).
          { intros z ad0. rewrite Hty. unfold marshal_override. destruct (deref_type t); try reflexivity; [contradiction|]. destruct Hid as (-> & _). reflexivity. }
          assert (CM : match info with TIConc ci => ci_marshal ci = None | TIFace _ => True end).
          { destruct info as [ci|]; [|exact I]. destruct Hi as [Hct Hok]. pose proof (minfo_method _ _ _ Hct Hok) as M1.
            destruct (ci_marshal ci); [|reflexivity]. destruct M1 as (id & f & E1 & M1 & _). rewrite E1 in Hid. destruct Hid as (_ & _ & Y & _). congruence. }
          unfold enc_base. rewrite !MO. specialize (E m ltac:(lia) (ad || val_is_ptr (ptrs t x')) (ad' || val_is_ptr v) o o').
          destruct info as [[ct cf cm cu cr]|]; [cbn in CM; rewrite CM|]; exact E. }
      destruct (deref_type t) as [p| |an ae|se|pe|mk me| | |ifc|id] eqn:D; try (apply PL; [exact I|exact Hl]).
      - apply MM. unfold jnorm. rewrite Hy. cbn [jform] in Hy. cbn [is_ptr andb orb deref_type] in Hy. rewrite (under_idem _ _ U) in Hy. destruct (negb _); [discriminate|].
        destruct x; try discriminate. destruct (je_time je s ns); try discriminate. injection Hy as <- <-. reflexivity.
      - destruct (je_marshal je id) as [jm|] eqn:Jm; [apply MM; exact Hl|]. destruct (te_marshal env id) as [tm|] eqn:Tm; [apply MM; exact Hl|].
        apply PL; [|exact Hl]. cbn [jform] in Hy. cbn [is_ptr andb orb deref_type] in Hy. rewrite (under_idem _ _ U) in Hy. destruct (negb _); [discriminate|].
        rewrite Jm, Tm in Hy. destruct (je_unmarshal je id) eqn:Ju; [discriminate|]. destruct (te_unmarshal env id) eqn:Tu; [discriminate|]. auto.
    Qed.
  End Step.
  Theorem again_all : forall k, again k.
  Proof. induction k as [|k IH]; [intros t v n w info H; discriminate|apply again_step, IH]. Qed.

  Theorem top_again k t v w : jnorm k env je c t v = Some w -> has_type env t v = true -> jlasting k env je c t v ->
    forall m, (k <= m)%nat -> marshal_json m env je c t w = marshal_json m env je c t v.
  Proof.
    unfold jnorm. destruct (jform k env je c t v) as [[n w']|] eqn:E; [|discriminate]. cbn [option_map snd]. intros H Ht Hl m Hm'. injection H as <-.
    unfold marshal_json. destruct (get_type_info env c t) as [info| | |] eqn:Hg; try reflexivity. cbn [ebind].
    rewrite (proj2 (again_all k t v n w' info E Ht Hg Hl) m Hm' false false no_opts no_opts). reflexivity.
  Qed.
End Again.

(** ** Types whose values last *)
Ltac pif H := match type of H with (if ?b then _ else _) = _ => destruct b; [|discriminate] end.
Section Steady.
  Variable env : tenv.
  Variable je : jenv.
  Variable c : codec.
  Variable mem : gotype -> bool.
  Hypothesis We : wf_env env.
  Hypothesis Wc : wf_codec env c.
  Hypothesis Hsup : jsupported env je c mem.
  Hypothesis Hst : jsteady env je c mem.

  Lemma full_under : forall v w, full v = true -> under v = Some w -> full w = true.
  Proof.
    clear. induction v using value_ind'; intros y Hj Hu; cbn [under] in Hu; try (injection Hu as <-; exact Hj); try discriminate.
    cbn [full] in Hj. eauto.
  Qed.
  Definition lasts (k : nat) : Prop := forall t v, jpart_ok mem t = true -> has_type env t v = true -> full v = true ->
    jform k env je c t v <> None -> jlasting k env je c t v.

  Section Step.
    Variable k : nat.
    Hypothesis IH : lasts k.
    Notation go := (go env je c k).
    Lemma lasts_go t v w : go t v = Some w -> jpart_ok mem t = true -> has_type env t v = true -> full v = true -> jlasting k env je c t v.
    Proof. intros G Hp Ht Hf. apply IH; try assumption. unfold JsonFacts.go in G. destruct (jform k env je c t v); [discriminate|discriminate G]. Qed.
    Lemma lasts_elems e : jpart_ok mem e = true -> forall l l', opt_map (go e) l = Some l' -> forallb (has_type env e) l = true -> forallb full l = true ->
      Forall (jlasting k env je c e) l.
    Proof.
      intros He. induction l as [|v l IHl]; intros l' H Ht Hf; [constructor|]. cbn [forallb] in Ht, Hf. apply andb_true_iff in Ht, Hf. destruct Ht, Hf.
      cbn [opt_map] in H. destruct (go e v) as [w|] eqn:G; [|discriminate]. destruct (opt_map (go e) l) as [r|] eqn:R; [|discriminate].
      constructor; [eapply lasts_go; eassumption|eapply IHl; [reflexivity| |]; assumption].
    Qed.
    Lemma lasts_members vt : jpart_ok mem vt = true -> forall l l', opt_map (gom env je c k vt) l = Some l' ->
      forallb (fun p => has_type env (TPrim PString) (fst p) && has_type env vt (snd p)) l = true -> forallb (fun p => full (snd p)) l = true ->
      Forall (fun p => jlasting k env je c vt (snd p)) l.
    Proof.
      intros He. induction l as [|[x v] l IHl]; intros l' H Ht Hf; [constructor|]. cbn [forallb fst snd] in Ht, Hf. rewrite !andb_true_iff in Ht. apply andb_true_iff in Hf.
      destruct Ht as [[? ?] ?], Hf. cbn [opt_map] in H. unfold gom at 1 in H. cbn [fst snd] in H. destruct (go vt v) as [w|] eqn:G; [|discriminate].
      destruct (opt_map (gom env je c k vt) l) as [r|] eqn:R; [|discriminate].
      constructor; [cbn [snd]; eapply lasts_go; eassumption|eapply IHl; [reflexivity| |]; assumption].
    Qed.
    Lemma opt_map_nil {A B} (f : A -> option B) l l' : opt_map f l = Some l' -> (l' = [] <-> l = []).
    Proof. clear. destruct l; cbn [opt_map]; [intros H; injection H as <-; tauto|]. destruct (f a); [|discriminate]. destruct (opt_map f l); [|discriminate]. intros H. injection H as <-. split; discriminate. Qed.
    (** What is written because it is not empty is still not empty. *)
    Lemma still_there t v w : has_type env t v = true -> methods env je (deref_type t) = false ->
      is_ptr t || match resolve env t with RStruct _ | RArray _ _ => false | _ => true end = true ->
      go t v = Some w -> omitted env t v = false -> omitted env t w = false.
    Proof.
      intros Ht Hme Hk G Ho. unfold omitted in Ho. destruct (under v) as [x|] eqn:U; [|discriminate]. apply orb_false_iff in Ho. destruct Ho as [Oz Oe].
      pose proof (under_typed env We _ _ _ Ht U) as Htx.
      unfold JsonFacts.go in G. destruct k as [|k']; [discriminate|]. destruct (jform (S k') env je c t v) as [[n w0]|] eqn:J; [|discriminate]. cbn [option_map snd] in G. injection G as ->.
      destruct (jform_base env je c k' t v x n w U J) as (y & Hy & Hw).
      assert (Ef : (is_ptr t && is_iface (deref_type t)) = false). { cbn [jform] in J. destruct (is_ptr t && is_iface (deref_type t)); [discriminate|reflexivity]. }
      cbn [jform] in Hy. rewrite deref_is_ptr, deref_idem, (under_idem _ _ U) in Hy. cbn [andb orb] in Hy. destruct (negb (known _ _ _)); [discriminate|].
      assert (PN : forall w, ptrs (deref_type t) w = w) by (intros; apply ptrs_id, deref_is_ptr).
      assert (SAME : y = x -> n = false -> omitted env t w = false).
      { intros -> ->. rewrite (Hw eq_refl). unfold omitted. rewrite under_ptrs by (eapply under_idem; exact U). rewrite Oz, Oe. reflexivity. }
      assert (PL : match x with
          | VSlice None | VIface None => Some (true, zero env (deref_type t))
          | _ => match jnorm_plain env c (JsonFacts.go env je c k') (deref_type t) x with Some w' => Some (false, w') | None => None end
          end = Some (n, y) -> omitted env t w = false).
      { clear Hy. intros HP.
        assert (Nn : match x with VSlice None | VIface None => False | _ => True end).
        { destruct x as [| | | | | | |[|]| | |[|]| | | |]; try exact I; [discriminate Oe|]. cbn [has_type] in Htx.
          destruct (resolve env (deref_type t)) as [[]| | | | | | | |i| |] eqn:Er; try discriminate. apply resolve_iface in Er; [|exact We].
          rewrite Er in Ef. cbn [is_iface andb] in Ef. rewrite andb_true_r in Ef. rewrite Ef in Oz. discriminate. }
        assert (E : match jnorm_plain env c (JsonFacts.go env je c k') (deref_type t) x with Some w' => Some (false, w') | None => None end = Some (n, y))
          by (rewrite <- HP; destruct x as [| | | | | | |[|]| | |[|]| | | |]; try contradiction; reflexivity). clear HP.
        destruct (jnorm_plain env c (JsonFacts.go env je c k') (deref_type t) x) as [x'|] eqn:P; [|discriminate]. injection E as <- <-. rewrite (Hw eq_refl).
        assert (R : is_ptr t = false -> deref_type t = t) by apply deref_nonptr.
        assert (Ux : under x' = Some x' -> (negb (is_ptr t) && zero_like env t x') || match x' with VSlice (None | Some []) | VArr [] | VStr [] => true | _ => false end = false -> omitted env t (ptrs t x') = false).
        { intros U1 U2. unfold omitted. rewrite (under_ptrs _ _ U1). exact U2. }
        unfold jnorm_plain in P. destruct (resolve env (deref_type t)) as [p| |an e|e|e|kt vt| | |i|fs|] eqn:Er; try discriminate.
        - rewrite <- (Hw eq_refl). apply SAME; [|reflexivity]. destruct p; try discriminate; try (injection P as <-; reflexivity). destruct x; try discriminate; try (injection P as <-; reflexivity).
          destruct (valid_utf8 _); [|discriminate]. injection P as <-. reflexivity.
        - destruct (is_ptr t) eqn:Pt; [|rewrite (R eq_refl), Er in *; discriminate].
          destruct x as [| | | | | |l| | | | | | | |]; cbn [has_type] in Htx; rewrite Er in Htx; try discriminate.
          destruct (is_uint8 env e).
          { destruct (gotype_eqb e (TPrim PUint8)); [|discriminate]. injection P as <-. apply Ux; [reflexivity|]. exact Oe. }
          destruct (known env c e); [|discriminate]. destruct (opt_map _ l) as [r|] eqn:Eo; [|discriminate]. injection P as <-. apply Ux; [reflexivity|].
          apply opt_map_nil in Eo. destruct r; [|reflexivity]. rewrite (proj1 Eo eq_refl) in Oe. discriminate.
        - destruct x as [| | | | | | |[l|]| | | | | | |]; cbn [has_type] in Htx; rewrite Er in Htx; try discriminate; try contradiction.
          destruct l as [|a l]; [discriminate|]. destruct (is_uint8 env e).
          { destruct (gotype_eqb e (TPrim PUint8)); [|discriminate]. injection P as <-. apply Ux; [reflexivity|]. cbn. rewrite andb_false_r. reflexivity. }
          destruct (known env c e); [|discriminate]. destruct (opt_map _ (a :: l)) as [r|] eqn:Eo; [|discriminate]. injection P as <-.
          apply opt_map_nil in Eo. destruct r as [|b r]; [discriminate (proj1 Eo eq_refl)|]. apply Ux; [reflexivity|]. cbn. rewrite andb_false_r. reflexivity.
        - destruct x as [| | | | | | | | | | |[l|]| | |]; cbn [has_type] in Htx; rewrite Er in Htx; try discriminate.
          + pif P. destruct (opt_map _ l) as [r|]; [|discriminate]. injection P as <-. apply Ux; [reflexivity|]. cbn. rewrite andb_false_r. reflexivity.
          + pif P. injection P as <-. apply Ux; [reflexivity|]. cbn. rewrite andb_false_r. reflexivity.
        - destruct x as [| | | | | | | | | |[[ct cv]|]| | | |]; try discriminate. unfold jnorm_iface in P. destruct (registration c (deref_type ct)) as [[name ptr]|]; [|discriminate].
          destruct (under cv); [|discriminate]. pif P. destruct (JsonFacts.go env je c k' (deref_type ct) v0); [|discriminate]. injection P as <-.
          apply Ux; [reflexivity|]. cbn. rewrite andb_false_r. reflexivity.
        - destruct (is_ptr t) eqn:Pt; [|rewrite (R eq_refl), Er in *; discriminate].
          destruct x as [| | | | | | | | |l| | | | |]; cbn [has_type] in Htx; rewrite Er in Htx; try discriminate.
          pif P. destruct (jnorm_fields _ _ _ fs l); [|discriminate]. injection P as <-. apply Ux; [reflexivity|]. reflexivity. }
      unfold methods in Hme. unfold JsonFacts.go in PL. destruct (deref_type t) as [p| |an ae|se|pe|mk me| | |ifc|id] eqn:D;
        try (apply PL; rewrite <- Hy; destruct x as [| | | | | | |[|]| | |[|]| | | |]; try reflexivity; destruct (jnorm_plain _ _ _ _ _); rewrite ?PN; reflexivity).
      - destruct x; try discriminate. destruct (je_time je s ns); try discriminate. injection Hy as <- <-. apply SAME; reflexivity.
      - destruct (je_marshal je id); [discriminate|]. destruct (te_marshal env id); [discriminate|]. destruct (je_unmarshal je id); [discriminate|]. destruct (te_unmarshal env id); [discriminate|].
        apply PL; rewrite <- Hy; destruct x as [| | | | | | |[|]| | |[|]| | | |]; try reflexivity; destruct (jnorm_plain _ _ _ _ _); rewrite ?PN; reflexivity.
    Qed.
    Lemma lasts_fields : forall fs l l', jnorm_fields env c go fs l = Some l' -> forall2b (fun f w => has_type env (sf_type f) w) fs l = true -> forallb full l = true ->
      forallb (jfield_ok mem) fs = true -> forallb (jsteady_field env je) fs = true -> jlasting_fields env go (jlasting k env je c) fs l.
    Proof.
      induction fs as [|f fs IHf]; intros [|v l] l' H Ht Hf Hok Hst'; cbn [jlasting_fields]; auto.
      cbn [forall2b forallb] in Ht, Hf, Hok, Hst'. apply andb_true_iff in Ht, Hf, Hok, Hst'. destruct Ht as [Ht1 Ht2], Hf as [Hf1 Hf2], Hok as [Ho1 Ho2], Hst' as [Hs1 Hs2].
      cbn [jnorm_fields] in H. destruct (jnorm_field env c go f v) as [w|] eqn:E; [|discriminate]. destruct (jnorm_fields env c go fs l) as [r|] eqn:R; [|discriminate].
      split; [|apply (IHf l r R); assumption]. unfold jlasting_field. unfold jnorm_field in E. unfold jfield_ok in Ho1. unfold jsteady_field in Hs1.
      destruct (json_opts f) as [o|]; [|exact I]. destruct (known env c (sf_type f)); [|discriminate]. cbn [negb] in E.
      destruct (fo_omitempty o && omitted env (sf_type f) v) eqn:Eo; [exact I|]. split; [eapply lasts_go; eassumption|].
      intros Oe w' Ew. rewrite Oe in *. cbn [andb negb orb] in *. apply andb_true_iff in Hs1. destruct Hs1 as [Hs1 Hs3]. apply negb_true_iff in Hs1.
      eapply still_there; eassumption.
    Qed.
    Lemma lasts_plain b w w' : methods env je b = false -> mem b = true -> jplain_ok env c mem b = true -> has_type env b w = true -> full w = true ->
      jnorm_plain env c go b w = Some w' -> jlasting_plain env go (jlasting k env je c) b w.
    Proof.
      intros Hme Hmem Hok Ht Hf H. unfold jlasting_plain. unfold jnorm_plain in H. pose proof (Hst b Hmem) as Hso. unfold jsteady_ok in Hso. rewrite Hme in Hso.
      unfold jplain_ok in Hok. destruct (resolve env b) as [p| |n e|e|e|kt vt| | |i|fs|] eqn:Er; try exact I.
      - destruct w as [| | | | | |l| | | | | | | |]; try exact I. cbn [has_type] in Ht. rewrite Er in Ht. apply andb_true_iff in Ht. destruct Ht as [_ Ht]. unfold jlist_ok in Hok.
        destruct (is_uint8 env e); [exact I|]. destruct (known env c e); [|discriminate]. destruct (opt_map (go e) l) as [r|] eqn:Eo; [|discriminate].
        eapply lasts_elems; eassumption.
      - destruct w as [| | | | | | |[l|]| | | | | | |]; try exact I. cbn [has_type] in Ht. rewrite Er in Ht. unfold jlist_ok in Hok.
        assert (Hf' : forallb full l = true) by (destruct l; [reflexivity|exact Hf]). split; [destruct l; discriminate|].
        destruct (is_uint8 env e); [exact I|]. destruct (known env c e); [|discriminate]. destruct (opt_map (go e) l) as [r|] eqn:Eo; [|discriminate].
        eapply lasts_elems; eassumption.
      - destruct w as [| | | | | | | | | | |[l|]| | |]; try exact I. cbn [has_type] in Ht. rewrite Er in Ht. rewrite !andb_true_iff in Hok. destruct Hok as [[Hk Kv] Hp].
        apply gotype_eqb_eq in Hk. subst kt. pif H. change (option_map (fun r => VMap (Some r)) (opt_map (gom env je c k vt) l) = Some w') in H.
        destruct (opt_map (gom env je c k vt) l) as [r|] eqn:Eo; [|discriminate]. eapply lasts_members; eassumption.
      - destruct w as [| | | | | | | | | |[[ct cv]|]| | | |]; try exact I. cbn [has_type] in Ht. rewrite Er in Ht.
        assert (Htc : te_impl env ct i = true /\ has_type env ct cv = true).
        { apply andb_true_iff in Ht. destruct Ht as [T1 T2]. split; [|destruct ct; try exact T2; discriminate]. try (apply andb_true_iff in T1; destruct T1 as [T1 _]); exact T1. }
        destruct Htc as [Him Htc]. destruct (under cv) as [x|] eqn:U; [|exact I]. unfold jnorm_iface in H. rewrite U in H.
        destruct (registration c (deref_type ct)) as [[name ptr]|] eqn:R; [|discriminate]. pif H.
        destruct (go (deref_type ct) x) as [y|] eqn:G; [|discriminate].
        destruct (registration_info env c Wc _ _ _ R) as (ci & r & Hin & Hct & Hr & Hnm & Hptr & Hg & Hn & Hd).
        unfold jiface_ok in Hok. rewrite forallb_forall in Hok. specialize (Hok ci Hin). rewrite Hr, Hct in Hok.
        assert (Hni : is_iface (deref_type ct) = false).
        { destruct (proj1 (wc_conc _ _ Wc ci) Hin) as [Ha _]. destruct (wc_types _ _ Wc _ _ Ha) as [_ Hio]. destruct (info_ok_parts _ _ Hio) as (Hc & _).
          rewrite Hct in Hc. destruct (deref_type ct); try reflexivity; discriminate. }
        rewrite (impl_ptr env We ct i) in Hok; try assumption; [|apply deref_is_ptr]. cbn [negb orb] in Hok. rewrite !andb_true_iff in Hok. destruct Hok as [[[K1 _] _] _].
        eapply lasts_go; [exact G| |exact (under_typed env We _ _ _ Htc U)|apply (full_under cv); [exact Hf|exact U]].
        unfold jpart_ok. rewrite deref_idem, K1, deref_is_ptr. reflexivity.
      - destruct w as [| | | | | | | | |l| | | | |]; try exact I. cbn [has_type] in Ht. rewrite Er in Ht. rewrite !andb_true_iff in Hok. destruct Hok as [[_ _] Hok].
        pif H. destruct (jnorm_fields env c go fs l) as [l'|] eqn:En; [|discriminate]. eapply lasts_fields; eassumption.
    Qed.
    Lemma lasts_step : lasts (S k).
    Proof.
      intros t v Hp Ht Hf J. unfold jpart_ok in Hp. apply andb_true_iff in Hp. destruct Hp as [Hmem _].
      cbn [jlasting]. destruct (under v) as [x|] eqn:U; [|exact I]. pose proof (under_typed env We _ _ _ Ht U) as Htx. pose proof (full_under _ _ Hf U) as Hfx.
      destruct (jform (S k) env je c t v) as [[n w]|] eqn:E; [|congruence]. destruct (jform_base env je c k t v x n w U E) as (y & Hy & _). clear J E.
      pose proof (Hst _ Hmem) as Hso. pose proof (Hsup _ Hmem) as Hty. unfold jsteady_ok in Hso.
      assert (MM : methods env je (deref_type t) = true -> jnorm (S k) env je c (deref_type t) x = Some x).
      { intros M. rewrite M in Hso. unfold jnorm. rewrite Hy. cbn [option_map snd]. f_equal. apply (Hso (S k) x y Htx). unfold jnorm. rewrite Hy. reflexivity. }
      assert (PL : methods env je (deref_type t) = false -> jplain_ok env c mem (deref_type t) = true ->
        match x with VSlice None | VIface None => True | _ => jnorm_plain env c go (deref_type t) x <> None end -> jlasting_plain env go (jlasting k env je c) (deref_type t) x).
      { intros M Hok N. destruct (match x with VSlice None | VIface None => true | _ => false end) eqn:Z.
        - unfold jlasting_plain. destruct x as [| | | | | | |[|]| | |[|]| | | |]; try discriminate; destruct (resolve env (deref_type t)); exact I.
        - destruct (jnorm_plain env c go (deref_type t) x) as [x'|] eqn:P; [eapply lasts_plain; eassumption|].
          destruct x as [| | | | | | |[|]| | |[|]| | | |]; try discriminate; congruence. }
      cbn [jform] in Hy. rewrite deref_is_ptr, deref_idem, (under_idem _ _ U) in Hy. cbn [andb orb] in Hy. destruct (negb _); [discriminate|].
      unfold jtype_ok in Hty. unfold methods in MM, PL. change (fun t v => option_map snd (jform k env je c t v)) with go in Hy. change (jnorm k env je c) with go.
      destruct (deref_type t) as [p| |an ae|se|pe|mk me| | |ifc|id] eqn:D;
        try (apply PL; [reflexivity|exact Hty|]; destruct x as [| | | | | | |[|]| | |[|]| | | |]; try exact I; destruct (jnorm_plain _ _ _ _ _); discriminate).
      - unfold jlasting_plain. cbn [resolve]. exact I.
      - destruct (je_marshal je id) as [jm|]; [apply MM; reflexivity|]. destruct (te_marshal env id) as [tm|]; [apply MM; reflexivity|].
        destruct (je_unmarshal je id); [discriminate|]. destruct (te_unmarshal env id); [discriminate|].
        apply PL; [reflexivity|exact Hty|]; destruct x as [| | | | | | |[|]| | |[|]| | | |]; try exact I; destruct (jnorm_plain _ _ _ _ _); discriminate.
    Qed.
  End Step.
  Theorem lasts_all : forall k, lasts k.
  Proof. induction k as [|k IH]; [intros t v _ _ _ J; cbn in J; congruence|apply lasts_step, IH]. Qed.
End Steady.
