(** What MarshalJSON accepts of supported types can be read back; what it writes is
    JSON; wide integers; interfaces. *)
From Coq Require Import ZArith String List Bool Lia.
From Coq Require Import ZifyBool ZifyNat.
From Verif Require Import Base Prims SpecWire PrimFacts PrimProps Types Codec BinEnc BinDec Amino DecFacts
  ValueInd Typing Registry SpecRegistry RegistryFacts RegistryProps Sane DecSafe SpecNorm EncFacts RoundTrip SupportedFacts
  TopFacts TopProps FrameFacts JsonText Json SpecJson JsonTextFacts JsonFacts.
Import ListNotations.
Local Open Scope Z_scope.

Section Supported.
  Variable env : tenv.
  Variable je : jenv.
  Variable c : codec.
  Hypothesis We : wf_env env.
  Hypothesis Wc : wf_codec env c.
  Hypothesis Hs : sane_codec env c.
  Hypothesis Hm : marshal_typed env.
  Variable mem : gotype -> bool.
  Hypothesis Hsup : jsupported env je c mem.

  Lemma json_under : forall v w, json_value v = true -> under v = Some w -> json_value w = true.
  Proof.
    clear. induction v using value_ind'; intros y Hj Hu; cbn [under] in Hu; try (injection Hu as <-; exact Hj); try discriminate.
    cbn [json_value] in Hj. eauto.
  Qed.

  Definition sup (k : nat) : Prop := forall t v info ad o bz, jpart_ok mem t = true -> has_type env t v = true ->
    json_value v = true -> get_type_info env c t = EOk info -> encode_json k env je c info v ad o = EOk bz -> jform (S k) env je c t v <> None.
  Lemma some_go k t v : jform k env je c t v <> None -> exists w, go env je c k t v = Some w.
  Proof. clear. unfold go. destruct (jform k env je c t v) as [[n w]|]; [intros _; eexists; reflexivity|congruence]. Qed.
  Lemma known_gti t info : get_type_info env c t = EOk info -> known env c t = true.
  Proof. clear. unfold known. intros ->. reflexivity. Qed.

  Lemma jform_nil k t v : jpart_ok mem t = true -> known env c t = true -> under v = None -> jform (S k) env je c t v <> None.
  Proof.
    clear. intros Hp Kn U. unfold jpart_ok in Hp. apply andb_true_iff in Hp. destruct Hp as [_ Hp]. apply negb_true_iff in Hp.
    cbn [jform]. rewrite Hp, Kn, U. discriminate.
  Qed.

  Section Step.
    Variable k : nat.
    Hypothesis IH : sup k.
    Lemma sup_elems e einfo : jpart_ok mem e = true -> get_type_info env c e = EOk einfo -> forall l ad o raws,
      forallb (has_type env e) l = true -> forallb json_value l = true -> json_elems (encode_json k env je c) einfo l ad o = EOk raws ->
      exists l', opt_map (go env je c (S k) e) l = Some l'.
    Proof.
      intros He Hi. induction l as [|v l IHl]; intros ad o raws Ht Hv H; [exists []; reflexivity|].
      cbn [forallb] in Ht, Hv. apply andb_true_iff in Ht, Hv. destruct Ht as [Ht1 Ht2], Hv as [Hv1 Hv2].
      cbn [json_elems] in H. einv H. einv H. destruct (IHl _ _ _ Ht2 Hv2 E0) as [l' El].
      destruct (some_go (S k) e v) as [w Ew]; [eapply IH; eassumption|]. cbn [opt_map]. rewrite Ew, El. eexists. reflexivity.
    Qed.
    Lemma sup_members vt : jpart_ok mem vt = true -> forall l o ms,
      forallb (fun p => has_type env (TPrim PString) (fst p) && has_type env vt (snd p)) l = true ->
      forallb (fun p => json_value (fst p) && json_value (snd p)) l = true ->
      json_members env c (encode_json k env je c) vt l o = EOk ms -> known env c vt = true ->
      exists l', opt_map (gom env je c (S k) vt) l = Some l'.
    Proof.
      intros He. induction l as [|[x v] l IHl]; intros o ms Ht Hv H Kn; [exists []; reflexivity|].
      cbn [forallb fst snd] in Ht, Hv. rewrite !andb_true_iff in Ht, Hv. destruct Ht as [[Hx Ht1] Ht2], Hv as [[_ Hv1] Hv2].
      assert (Ex : exists s, x = VStr s) by (destruct x; try discriminate; eauto). destruct Ex as [s ->].
      cbn [json_members] in H. rewrite deref_pointers_under in H. einv H. einv H. destruct (IHl _ _ Ht2 Hv2 E0 Kn) as [l' El].
      destruct (known_info env c vt Kn) as [vinfo Hi].
      assert (N : jform (S k) env je c vt v <> None).
      { destruct (under v) as [w|] eqn:U.
        - rewrite gti_deref, Hi in E. cbn [ebind] in E. rewrite <- (orb_false_l (val_is_ptr v)) in E. rewrite (enc_deref env je c We vt) in E by assumption.
          eapply IH; eassumption.
        - apply jform_nil; assumption. }
      destruct (some_go (S k) vt v N) as [w Ew]. cbn [opt_map]. unfold gom at 1. cbn [fst snd]. rewrite Ew, El. eexists. reflexivity.
    Qed.
    Lemma sup_fields : forall fs i num fis l lp ad ms, parse_fields env fs i num = EOk fis -> length lp = i ->
      forall2b (fun f w => has_type env (sf_type f) w) fs l = true -> forallb json_value l = true -> forallb (jfield_ok mem) fs = true ->
      json_fields env c (encode_json k env je c) fis (lp ++ l) ad = EOk ms -> exists l', jnorm_fields env c (go env je c (S k)) fs l = Some l'.
    Proof.
      induction fs as [|f fs IHf]; intros i num fis l lp ad ms Hp Hlp Ht Hv Hf H.
      - destruct l; [|discriminate]. exists []. reflexivity.
      - destruct l as [|v l]; [discriminate|]. cbn [forall2b forallb] in Ht, Hv, Hf. apply andb_true_iff in Ht, Hv, Hf.
        destruct Ht as [Ht1 Ht2], Hv as [Hv1 Hv2], Hf as [Hf1 Hf2].
        apply parse_step in Hp. pose proof (field_opts_json (Z.of_nat num + 1) f) as Fo. unfold jfield_ok in Hf1.
        cbn [jnorm_fields]. unfold jnorm_field.
        assert (Llp : length (lp ++ [v]) = S i) by (rewrite app_length; cbn [length]; lia).
        replace (lp ++ v :: l) with ((lp ++ [v]) ++ l) in H by (rewrite <- app_assoc; reflexivity).
        destruct (json_opts f) as [jo|] eqn:Ejo; rewrite Fo in Hp.
        + destruct Hp as (fi & rest & -> & Hix & Hty & _ & Hopt & _ & Hp).
          assert (Hoe : fo_omitempty (fi_opts fi) = fo_omitempty jo) by (rewrite Hopt; reflexivity).
          cbn [json_fields] in H. rewrite Hix, Hty, Hoe in H. rewrite <- app_assoc in H. cbn [app] in H. rewrite <- Hlp, nth_mid in H.
          einv H. rename a into info. rewrite (known_gti _ _ E). cbn [negb].
          rewrite is_empty_omitted in H by exact Ht1. destruct (fo_omitempty jo && omitted env (sf_type f) v).
          * replace (lp ++ v :: l) with ((lp ++ [v]) ++ l) in H by (rewrite <- app_assoc; reflexivity).
            destruct (IHf _ _ _ _ _ _ _ Hp Llp Ht2 Hv2 Hf2 H) as [l' ->]. eexists. reflexivity.
          * einv H. einv H. replace (lp ++ v :: l) with ((lp ++ [v]) ++ l) in E1 by (rewrite <- app_assoc; reflexivity).
            destruct (IHf _ _ _ _ _ _ _ Hp Llp Ht2 Hv2 Hf2 E1) as [l' ->].
            destruct (some_go (S k) (sf_type f) v) as [w ->]; [|eexists; reflexivity]. eapply IH; eassumption.
        + destruct (IHf _ _ _ _ _ _ _ Hp Llp Ht2 Hv2 Hf2 H) as [l' ->]. eexists. reflexivity.
    Qed.

    Lemma impl_ptr ct i : is_ptr (deref_type ct) = false -> is_iface (deref_type ct) = false -> te_impl env ct i = true -> te_impl env (TPtr (deref_type ct)) i = true.
    Proof.
      intros H1 H2 H. destruct (impl_deref env We ct i H) as [E|E]; [|exact E]. rewrite E. apply (we_impl_ptr _ We); [|exact H].
      rewrite E in H1, H2. destruct ct; try exact I; discriminate.
    Qed.
    Lemma sup_iface i ct cv o bz : jiface_ok env c mem i = true -> te_impl env ct i = true -> has_type env ct cv = true -> json_value cv = true ->
      json_interface env c (encode_json k env je c) (VIface (Some (ct, cv))) o = EOk bz ->
      exists w', jnorm_iface env c (go env je c (S k)) i ct cv = Some w'.
    Proof.
      intros Hok Him Ht Hv H. unfold json_interface in H. rewrite deref_pointers_under in H. unfold jnorm_iface.
      destruct (under cv) as [w|] eqn:U; [|discriminate].
      pose proof (under_typed env We _ _ _ Ht U) as Htw. pose proof (json_under _ _ Hv U) as Hvw.
      assert (H' : exists ci r b, get_type_info env c (deref_type ct) = EOk (TIConc ci) /\ ci_reg ci = Some r /\ encode_json k env je c (TIConc ci) w (val_is_ptr cv) o = EOk b).
      { destruct w; try discriminate; einv H; (destruct a as [ci|]; [|discriminate]); (destruct (ci_reg ci) as [r|] eqn:Er; [|discriminate]); einv H; exists ci, r, a; auto. }
      destruct H' as (ci & r & b & Hg & Hr & He). pose proof (gti_minfo _ _ _ _ Hs Hg) as [Hty Hio]. rewrite deref_idem in Hty.
      pose proof (registered_info _ _ _ _ _ Wc Hs Hg Hr) as Hin. destruct (info_ok_parts _ _ Hio) as (Hct & _).
      assert (Hreg : registration c (deref_type ct) = Some (ri_name r, ri_ptr r)).
      { unfold registration. destruct (find _ _) as [ci'|] eqn:Ef.
        - apply find_some in Ef. destruct Ef as [F1 F2]. apply gotype_eqb_eq in F2.
          apply (wc_conc _ _ Wc) in F1. apply (wc_conc _ _ Wc) in Hin. destruct F1 as [F1 _], Hin as [F3 _].
          rewrite F2, <- Hty in F1. rewrite F1 in F3. inversion F3; subst ci'. rewrite Hr. reflexivity.
        - apply (find_none _ _ Ef) in Hin. rewrite Hty in Hin. rewrite (proj2 (gotype_eqb_eq _ _) eq_refl) in Hin. discriminate. }
      rewrite Hreg. unfold jiface_ok in Hok. rewrite forallb_forall in Hok. specialize (Hok ci Hin). rewrite Hr, Hty in Hok.
      rewrite Hty in Hct. rewrite (impl_ptr ct i) in Hok; try assumption; try (destruct (deref_type ct); try reflexivity; discriminate).
      cbn [negb orb] in Hok. rewrite !andb_true_iff in Hok. destruct Hok as [[[K1 K2] K3] K4]. rewrite K2, K3, K4. cbn [andb].
      destruct (some_go (S k) (deref_type ct) w) as [w' ->]; [|eexists; reflexivity].
      apply (IH (deref_type ct) w (TIConc ci) (val_is_ptr cv) o b); try assumption. unfold jpart_ok. rewrite deref_idem, K1.
      replace (is_ptr (deref_type ct)) with false by (destruct (deref_type ct); try reflexivity; discriminate). reflexivity.
    Qed.

    Lemma sup_plain b w info ad o bz : deref_type b = b -> minfo env c info b -> jplain_ok env c mem b = true -> has_type env b w = true -> json_value w = true ->
      match w with VSlice None | VIface None => False | _ => True end ->
      json_switch env je c (encode_json k env je c) info w ad o = EOk bz -> exists w', jnorm_plain env c (go env je c (S k)) b w = Some w'.
    Proof.
      intros Hb Hi Hok Ht Hv Hw H. pose proof (minfo_type _ _ _ _ Hi) as Hty. rewrite Hb in Hty. unfold json_switch in H. rewrite Hty in H.
      unfold jplain_ok in Hok. unfold jnorm_plain. destruct (resolve env b) as [p| |n e|e|e|kt vt| | |i|fs|] eqn:Er; try discriminate.
      - rewrite (has_type_prim _ _ _ _ Er) in Ht. destruct p; try discriminate; try (eexists; reflexivity). destruct w; try discriminate.
        cbn [json_value] in Hv. rewrite Hv. eexists. reflexivity.
      - destruct w as [| | | | | |l| | | | | | | |]; cbn [has_type] in Ht; rewrite Er in Ht; try discriminate.
        apply andb_true_iff in Ht. destruct Ht as [_ Hl]. cbn [json_value] in Hv. unfold jlist_ok in Hok. cbn [json_list] in H.
        destruct (is_uint8 env e) eqn:U8; [rewrite Hok; eexists; reflexivity|]. einv H. einv H. rewrite (known_gti _ _ E).
        destruct (sup_elems _ _ Hok E _ _ _ _ Hl Hv E0) as [l' ->]. eexists. reflexivity.
      - destruct w as [| | | | | | |[l|]| | | | | | |]; cbn [has_type] in Ht; rewrite Er in Ht; try discriminate; try contradiction.
        cbn [json_value] in Hv. unfold jlist_ok in Hok. cbn [json_list] in H.
        destruct (is_uint8 env e) eqn:U8; [rewrite Hok; eexists; reflexivity|]. einv H. einv H. rewrite (known_gti _ _ E).
        destruct (sup_elems _ _ Hok E _ _ _ _ Ht Hv E0) as [l' ->]. eexists. reflexivity.
      - rewrite !andb_true_iff in Hok. destruct Hok as [[Gk Kv] Hok]. rewrite Gk. apply gotype_eqb_eq in Gk. subst kt.
        destruct w as [| | | | | | | | | | |[l|]| | |]; cbn [has_type] in Ht; rewrite Er in Ht; try discriminate.
        + cbn [json_value] in Hv. apply andb_true_iff in Hv. destruct Hv as [Hd Hv]. unfold json_map in H. cbn [resolve] in H. einv H.
          rewrite Kv, Hd.
          assert (Hk : forallb valid_utf8 (map_keys l) = true).
          { clear - Ht Hv. induction l as [|[x v] l IHl]; [reflexivity|]. cbn [forallb fst snd map_keys map] in *. rewrite !andb_true_iff in Ht, Hv.
            destruct Ht as [[Hx _] Ht], Hv as [[Hv _] Hvl]. destruct x; try discriminate. cbn [json_value] in Hv. rewrite Hv. apply IHl; assumption. }
          rewrite Hk. cbn [andb]. destruct (sup_members vt Hok l o a Ht Hv E Kv) as [l' El]. fold (gom env je c (S k) vt).
          rewrite El. eexists. reflexivity.
        + rewrite Kv. eexists. reflexivity.
      - apply resolve_iface in Er; [|exact We]. subst b. destruct w as [| | | | | | | | | |[[ct cv]|]| | | |]; try discriminate; try contradiction.
        cbn [has_type resolve] in Ht. apply andb_true_iff in Ht. destruct Ht as [Ht1 Ht]. assert (Ht' : has_type env ct cv = true) by (destruct ct; try exact Ht; discriminate).
        eapply sup_iface; eassumption.
      - destruct w as [| | | | | | | | |l| | | | |]; cbn [has_type] in Ht; rewrite Er in Ht; try discriminate.
        rewrite !andb_true_iff in Hok. destruct Hok as [[-> ->] Hf]. cbn [andb].
        destruct info as [ci|ii]; [|discriminate]. cbn [json_struct] in H. einv H.
        destruct Hi as [Hct Hok]. destruct (info_ok_parts _ _ Hok) as (_ & Hpf & _). rewrite Hct, Hb in Hpf. unfold parse_struct_info in Hpf. rewrite Er in Hpf.
        destruct (sup_fields fs 0%nat 0%nat (ci_fields ci) l [] ad a Hpf eq_refl Ht Hv Hf E) as [l' ->]. eexists. reflexivity.
    Qed.

    Lemma sup_step : sup (S k).
    Proof.
      intros t v info ad o bz Hp Ht Hv Hg H. pose proof (gti_minfo _ _ _ _ Hs Hg) as Hi. pose proof (minfo_type _ _ _ _ Hi) as Hty.
      unfold jpart_ok in Hp. apply andb_true_iff in Hp. destruct Hp as [Hmem Hp]. apply negb_true_iff in Hp.
      remember (S k) as k1 eqn:Ek1. cbn [jform]. rewrite Hp, (known_gti _ _ Hg). cbn [negb orb]. subst k1. destruct (under v) as [x|] eqn:U; [|discriminate].
      pose proof (under_typed env We _ _ _ Ht U) as Htx. pose proof (typed_valid env _ _ Ht) as Hnv. pose proof (json_under _ _ Hv U) as Hvx.
      rewrite (enc_step _ _ _ _ _ _ _ _ _ Hnv U) in H. pose proof (Hsup _ Hmem) as Hsp.
      assert (PL : forall (Hid : match deref_type t with TTime => False | TNamed id => je_marshal je id = None /\ te_marshal env id = None | _ => True end),
        jplain_ok env c mem (deref_type t) = true -> match x with
        | VSlice None | VIface None => Some (true, zero env t)
        | _ => match jnorm_plain env c (go env je c (S k)) (deref_type t) x with Some w' => Some (false, ptrs t w') | None => None end
        end <> None).
      { intros Hid Hok.
        assert (MO : forall ad, marshal_override je (ti_type info) x ad = None).
        { intros ad'. rewrite Hty. unfold marshal_override. destruct (deref_type t); try reflexivity; [contradiction|]. destruct Hid as (-> & _). reflexivity. }
        assert (CM : match info with TIConc ci => ci_marshal ci = None | TIFace _ => True end).
        { destruct info as [ci|]; [|exact I]. destruct Hi as [Hct Hio]. pose proof (minfo_method _ _ _ Hct Hio) as M1.
          destruct (ci_marshal ci); [|reflexivity]. destruct M1 as (id & f & E & M1 & _). rewrite E in Hid. destruct Hid as (_ & Y). congruence. }
        assert (EB : enc_base env je c k info x (ad || val_is_ptr v) o = json_switch env je c (encode_json k env je c) info x (ad || val_is_ptr v) o).
        { unfold enc_base. rewrite MO. destruct info as [[ct cf cm cu cr]|]; [|reflexivity]. cbn in CM. subst cm. reflexivity. }
        rewrite EB in H.
        destruct (match x with VSlice None | VIface None => true | _ => false end) eqn:N.
        - destruct x as [| | | | | | |[|]| | |[|]| | | |]; discriminate.
        - assert (Nx : match x with VSlice None | VIface None => False | _ => True end)
            by (destruct x as [| | | | | | |[|]| | |[|]| | | |]; try exact I; discriminate).
          destruct (sup_plain (deref_type t) x info _ _ _ (deref_idem t) (minfo_deref _ _ _ _ Hi) Hok Htx Hvx Nx H) as [w' Ew].
          rewrite Ew. destruct x as [| | | | | | |[|]| | |[|]| | | |]; discriminate. }
      unfold jtype_ok in Hsp. unfold enc_base in H. rewrite Hty in H.
      destruct (deref_type t) as [p| |an ae|se|pe|mk me| | |ifc|id] eqn:D; try (apply PL; [exact I|exact Hsp]).
      - cbn [has_type resolve] in Htx. destruct x as [| | | | |s ns| | | | | | | | |]; try discriminate. cbn [marshal_override] in H. rewrite H. discriminate.
      - destruct (je_marshal je id) as [[[] f]|] eqn:Jm; [| contradiction|].
        + destruct (je_unmarshal je id) as [g|] eqn:Ju; [|contradiction]. cbn [marshal_override] in H. rewrite Jm in H. cbn [orb] in H. rewrite H.
          destruct (beqb bz (bs "null")) eqn:Nb; [discriminate|]. destruct (Hsp x bz Htx H) as [v' ->]; [|discriminate].
          intros ->. discriminate.
        + destruct (je_unmarshal je id) as [g|] eqn:Ju; [contradiction|].
          destruct (te_marshal env id) as [[|r f]|] eqn:Tm; [contradiction| |].
          * destruct (te_unmarshal env id) as [[|r' g]|] eqn:Tu; try contradiction. destruct Hsp as (<- & Mr & Fj & Gj).
            destruct info as [[ct cf cm cu cr]|ii]; [|destruct Hi as [_ Hi]; rewrite D in Hi; discriminate].
            destruct Hi as [Hct Hok]. cbn [ci_type] in Hct. rewrite D in Hct. subst ct. cbn [ti_type ci_type marshal_override] in H. rewrite Jm in H.
            pose proof (minfo_method _ _ _ eq_refl Hok) as M1. cbn [ci_type ci_marshal ci_unmarshal] in M1.
            destruct cm as [rm|]; [|specialize (M1 id eq_refl); congruence].
            destruct M1 as (id1 & f1 & E1 & M1 & Dr). injection E1 as <-. rewrite Tm in M1. injection M1 as <- <-.
            cbn [to_repr] in H. rewrite Tm in H. einv H. einv H. rename a into y, a0 into rinfo. rewrite E, (proj2 (gotype_eqb_eq r r) eq_refl).
            pose proof (Hm _ _ _ _ _ Tm Htx E) as Hty'.
            assert (N : jform (S k) env je c r y <> None).
            { eapply IH; try eassumption; [|eapply Fj; eassumption]. unfold jpart_ok. rewrite Dr, Mr.
              replace (is_ptr r) with false by (rewrite <- Dr; symmetry; apply deref_is_ptr). reflexivity. }
            destruct (jform (S k) env je c r y) as [[[] y']|] eqn:Jy; [discriminate| |congruence].
            destruct (Gj _ _ _ _ Htx E Jy) as [v' ->]. discriminate.
          * destruct (te_unmarshal env id) as [|] eqn:Tu; [contradiction|]. apply PL; [auto|exact Hsp].
    Qed.
  End Step.
  Theorem sup_all : forall k, sup k.
  Proof. induction k as [|k IH]; [intros t v info ad o bz _ _ _ _ H; discriminate|apply sup_step, IH]. Qed.
End Supported.

(** ** What is written is JSON *)
Section Valid.
  Variable env : tenv.
  Variable je : jenv.
  Variable c : codec.
  Hypothesis We : wf_env env.
  Hypothesis Wc : wf_codec env c.
  Hypothesis Hs : sane_codec env c.
  Hypothesis Hm : marshal_typed env.
  Hypothesis Hj : jenv_ok je.
  Hypothesis Hcn : unescaped_names c.
  Hypothesis Hbn : byte_names env.

  Lemma info_registration t ci r : get_type_info env c t = EOk (TIConc ci) -> ci_reg ci = Some r ->
    registration c (deref_type t) = Some (ri_name r, ri_ptr r).
  Proof.
    intros Hg Hr. pose proof (gti_minfo _ _ _ _ Hs Hg) as [Hty Hio].
    pose proof (registered_info _ _ _ _ _ Wc Hs Hg Hr) as Hin.
    unfold registration. destruct (find _ _) as [ci'|] eqn:Ef.
    - apply find_some in Ef. destruct Ef as [F1 F2]. apply gotype_eqb_eq in F2.
      apply (wc_conc _ _ Wc) in F1. apply (wc_conc _ _ Wc) in Hin. destruct F1 as [F1 _], Hin as [F3 _].
      rewrite F2, <- Hty in F1. rewrite F1 in F3. inversion F3; subst ci'. rewrite Hr. reflexivity.
    - apply (find_none _ _ Ef) in Hin. rewrite Hty in Hin. rewrite (proj2 (gotype_eqb_eq _ _) eq_refl) in Hin. discriminate.
  Qed.

  Definition isjson (b : bytes) : Prop := jtext b /\ utf8 b.
  Lemma null_json : isjson null.
  Proof. split; [constructor|apply utf8_ascii; repeat constructor; lia]. Qed.
  Lemma prim_valid p v o bz : prim_has p v = true -> json_prim je p v o = EOk bz -> isjson bz.
  Proof.
    intros Ht H. destruct p; destruct v; try discriminate; cbn [json_prim] in H;
      try (apply EOk_inj in H; subst bz; first [apply int_text|apply quoted_text]).
    - apply EOk_inj in H. subst bz. destruct b; (split; [constructor|apply utf8_ascii; repeat constructor; lia]).
    - destruct (fo_unsafe o); [|discriminate]. apply (jo_float je Hj _ _ _ H).
    - destruct (fo_unsafe o); [|discriminate]. apply (jo_float je Hj _ _ _ H).
    - apply EOk_inj in H. subst bz. apply quote_text. apply bytes_nonneg. exact Ht.
  Qed.
  Definition valid (m : nat) : Prop := forall t v info ad o bz, has_type env t v = true -> minfo env c info t ->
    encode_json m env je c info v ad o = EOk bz -> isjson bz.
  Lemma object_json ms : Forall (fun q => forallb byte_ok (fst q) = true /\ isjson (snd q)) ms -> isjson (123 :: join (map member ms) ++ [125]).
  Proof.
    intros H. split.
    - eapply jt_object. apply object_text. eapply Forall_impl; [|exact H]. intros q (X & Y & Z). split; [apply bytes_nonneg; exact X|exact Y].
    - apply object_utf8; eapply Forall_impl; [|exact H]; intros q (X & Y & Z); split; [apply bytes_nonneg; exact X|exact Z].
  Qed.

  Section Step.
    Variable k : nat.
    Hypothesis IH : valid k.
    Lemma valid_elems e einfo : minfo env c einfo e -> forall l ad o raws, forallb (has_type env e) l = true ->
      json_elems (encode_json k env je c) einfo l ad o = EOk raws -> Forall isjson raws.
    Proof.
      intros Hi. induction l as [|v l IHl]; intros ad o raws Ht H; cbn [json_elems] in H.
      - apply EOk_inj in H. subst. constructor.
      - cbn [forallb] in Ht. apply andb_true_iff in Ht. destruct Ht as [Ht1 Ht2]. einv H. einv H. apply EOk_inj in H. subst.
        constructor; [eapply IH; eassumption|eapply IHl; eassumption].
    Qed.
    Lemma valid_members vt : forall l o raws, forallb (fun p => has_type env (TPrim PString) (fst p) && has_type env vt (snd p)) l = true ->
      json_members env c (encode_json k env je c) vt l o = EOk raws ->
      exists ms, raws = map member ms /\ Forall (fun q => forallb byte_ok (fst q) = true /\ isjson (snd q)) ms.
    Proof.
      induction l as [|[x v] l IHl]; intros o raws Ht H; cbn [json_members] in H.
      - apply EOk_inj in H. subst. exists []. split; [reflexivity|constructor].
      - cbn [forallb fst snd] in Ht. rewrite !andb_true_iff in Ht. destruct Ht as [[Hx Ht1] Ht2]. destruct x; try discriminate.
        rewrite deref_pointers_under in H. einv H. einv H. apply EOk_inj in H. destruct (IHl _ _ Ht2 E0) as (ms & -> & F).
        exists ((s, a) :: ms). split; [symmetry; exact H|]. constructor; [|exact F]. cbn [fst snd]. split; [exact Hx|].
        destruct (under v) as [w|] eqn:U; [|apply EOk_inj in E; subst; apply null_json]. einv E.
        eapply (IH (deref_type vt) w); try eassumption; [eapply under_typed; eassumption|]. apply gti_minfo; assumption.
    Qed.
    Lemma valid_fields : forall fs i num fis l lp ad raws, parse_fields env fs i num = EOk fis -> length lp = i ->
      forall2b (fun f w => has_type env (sf_type f) w) fs l = true -> (forall name, In name (json_names fs) -> forallb byte_ok name = true) ->
      json_fields env c (encode_json k env je c) fis (lp ++ l) ad = EOk raws ->
      exists ms, raws = map member ms /\ Forall (fun q => forallb byte_ok (fst q) = true /\ isjson (snd q)) ms.
    Proof.
      induction fs as [|f fs IHf]; intros i num fis l lp ad raws Hp Hlp Ht Hn H.
      - cbn [parse_fields] in Hp. apply EOk_inj in Hp. subst fis. apply EOk_inj in H. subst. exists []. split; [reflexivity|constructor].
      - destruct l as [|v l]; [discriminate|]. cbn [forall2b] in Ht. apply andb_true_iff in Ht. destruct Ht as [Ht1 Ht2].
        apply parse_step in Hp. pose proof (field_opts_json (Z.of_nat num + 1) f) as Fo. rewrite names_cons in Hn.
        assert (Llp : length (lp ++ [v]) = S i) by (rewrite app_length; cbn [length]; lia).
        destruct (json_opts f) as [jo|] eqn:Ejo; rewrite Fo in Hp.
        + destruct Hp as (fi & rest & -> & Hix & Hty & _ & Hopt & _ & Hp).
          assert (Hna : fo_json_name (fi_opts fi) = fo_json_name jo) by (rewrite Hopt; reflexivity).
          cbn [json_fields] in H. rewrite Hix, Hty, Hna in H. rewrite <- Hlp, nth_mid in H.
          einv H. replace (lp ++ v :: l) with ((lp ++ [v]) ++ l) in H by (rewrite <- app_assoc; reflexivity).
          destruct (fo_omitempty (fi_opts fi) && is_empty env (sf_type f) v).
          * eapply (IHf _ _ _ _ _ _ _ Hp Llp Ht2); [|exact H]. intros name Hin. apply Hn. right. exact Hin.
          * einv H. einv H. apply EOk_inj in H. destruct (IHf _ _ _ _ _ _ _ Hp Llp Ht2 (fun name Hin => Hn name (or_intror Hin)) E1) as (ms & -> & F).
            exists ((fo_json_name jo, a0) :: ms). split; [symmetry; exact H|]. constructor; [|exact F]. cbn [fst snd]. split; [apply Hn; left; reflexivity|].
            eapply (IH (sf_type f) v); try eassumption. apply gti_minfo; assumption.
        + replace (lp ++ v :: l) with ((lp ++ [v]) ++ l) in H by (rewrite <- app_assoc; reflexivity).
          eapply (IHf _ _ _ _ _ _ _ Hp Llp Ht2); [|exact H]. exact Hn.
    Qed.
    Lemma valid_switch b w info ad o bz : deref_type b = b -> minfo env c info b -> has_type env b w = true ->
      json_switch env je c (encode_json k env je c) info w ad o = EOk bz -> isjson bz.
    Proof.
      intros Hb Hi Ht H. pose proof (minfo_type _ _ _ _ Hi) as Hty. rewrite Hb in Hty. unfold json_switch in H. rewrite Hty in H.
      assert (LS : forall e l ad, forallb (has_type env e) l = true -> forall bz, (if is_uint8 env e then
          if ad || gotype_eqb e (TPrim PUint8) then EOk (34 :: b64_encode (val_bytes l) ++ [34]) else EPanic "reflect.Copy: elem type mismatch"%string
        else ebind (get_type_info env c e) (fun einfo => ebind (json_elems (encode_json k env je c) einfo l (match w with VSlice _ => true | _ => ad end) o) (fun bs => EOk (91 :: join bs ++ [93]))))
        = EOk bz -> isjson bz).
      { clear H. intros e l ad' Hl bz' H. destruct (is_uint8 env e) eqn:U8.
        - destruct (ad' || gotype_eqb e (TPrim PUint8)); [|discriminate]. apply EOk_inj in H. subst bz'. apply bytes_text. apply (byte_list env e l U8 Hl).
        - einv H. einv H. apply EOk_inj in H. subst bz'. pose proof (valid_elems _ _ (gti_minfo _ _ _ _ Hs E) _ _ _ _ Hl E0) as F. split.
          + eapply jt_array. apply array_text. eapply Forall_impl; [|exact F]. intros q [X Y]. exact X.
          + apply utf8_cons; [lia|]. apply utf8_app; [|apply utf8_one; lia]. apply join_utf8. eapply Forall_impl; [|exact F]. intros q [X Y]. exact Y. }
      destruct (resolve env b) as [p| |n e|e|e|kt vt| | |i|fs|] eqn:Er; try discriminate.
      - rewrite (has_type_prim _ _ _ _ Er) in Ht. eapply prim_valid; eassumption.
      - destruct w; cbn [has_type] in Ht; rewrite Er in Ht; try discriminate. destruct info as [ci|]; discriminate.
      - destruct w as [| | | | | |l| | | | | | | |]; cbn [has_type] in Ht; rewrite Er in Ht; try discriminate.
        apply andb_true_iff in Ht. destruct Ht as [_ Hl]. eapply (LS e l ad); [exact Hl|exact H].
      - destruct w as [| | | | | | |[l|]| | | | | | |]; cbn [has_type] in Ht; rewrite Er in Ht; try discriminate.
        + eapply (LS e l ad); [exact Ht|exact H].
        + apply EOk_inj in H. subst bz. apply null_json.
      - unfold json_map in H. destruct (resolve env kt) as [[]| | | | | | | | | |] eqn:Ek; try discriminate.
        destruct w as [| | | | | | | | | | |[l|]| | |]; cbn [has_type] in Ht; rewrite Er in Ht; try discriminate.
        + einv H. apply EOk_inj in H. subst bz.
          assert (Ht' : forallb (fun p => has_type env (TPrim PString) (fst p) && has_type env vt (snd p)) l = true).
          { rewrite <- Ht. clear - Ek. induction l as [|q l IHl]; [reflexivity|]. cbn [forallb]. rewrite IHl. f_equal. f_equal. apply has_type_res. symmetry. exact Ek. }
          destruct (valid_members vt l o a Ht' E) as (ms & -> & F). apply object_json. exact F.
        + apply EOk_inj in H. subst bz. apply (object_json []). constructor.
      - destruct w as [| | | | | | | | | |[[ct cv]|]| | | |]; cbn [has_type] in Ht; rewrite Er in Ht; try discriminate.
        + apply andb_true_iff in Ht. destruct Ht as [_ Ht]. assert (Ht' : has_type env ct cv = true) by (destruct ct; try exact Ht; discriminate).
          unfold json_interface in H. rewrite deref_pointers_under in H. destruct (under cv) as [w|] eqn:U; [|discriminate].
          assert (H' : exists ci r b', get_type_info env c (deref_type ct) = EOk (TIConc ci) /\ ci_reg ci = Some r /\
            encode_json k env je c (TIConc ci) w (val_is_ptr cv) o = EOk b' /\ bz = wrap_name (ri_name r) b').
          { destruct w; try discriminate; einv H; (destruct a as [ci|]; [|discriminate]); (destruct (ci_reg ci) as [r|] eqn:Er'; [|discriminate]); einv H; apply EOk_inj in H; exists ci, r, a; auto. }
          destruct H' as (ci & r & b' & Hg & Hr & He & ->). pose proof (info_registration _ _ _ Hg Hr) as R. rewrite deref_idem in R.
          apply Hcn in R. apply unescaped_ok in R. destruct R as [R1 R2].
          destruct (IH (deref_type ct) w (TIConc ci) (val_is_ptr cv) o b') as [X Y]; try assumption; [eapply under_typed; eassumption|apply gti_minfo; assumption|].
          split; [eapply jt_object; apply wrap_text; assumption|apply wrap_utf8; assumption].
        + apply EOk_inj in H. subst bz. apply null_json.
      - destruct w as [| | | | | | | | |l| | | | |]; cbn [has_type] in Ht; rewrite Er in Ht; try discriminate.
        destruct info as [ci|ii]; [|discriminate]. cbn [json_struct] in H. einv H. apply EOk_inj in H. subst bz.
        destruct Hi as [Hct Hok]. destruct (info_ok_parts _ _ Hok) as (_ & Hpf & _). rewrite Hct, Hb in Hpf. unfold parse_struct_info in Hpf. rewrite Er in Hpf.
        destruct (valid_fields fs 0%nat 0%nat (ci_fields ci) l [] ad a Hpf eq_refl Ht (fun name => Hbn b fs name Er) E) as (ms & -> & F). apply object_json. exact F.
    Qed.
    Lemma valid_step : valid (S k).
    Proof.
      intros t v info ad o bz Ht Hi H. pose proof (minfo_type _ _ _ _ Hi) as Hty.
      destruct (under v) as [x|] eqn:U; [|rewrite enc_nil in H by exact U; apply EOk_inj in H; subst; apply null_json].
      pose proof (under_typed env We _ _ _ Ht U) as Htx. pose proof (typed_valid env _ _ Ht) as Hnv.
      rewrite (enc_step _ _ _ _ _ _ _ _ _ Hnv U) in H. unfold enc_base in H. rewrite Hty in H.
      destruct (marshal_override je (deref_type t) x (ad || val_is_ptr v)) as [q|] eqn:MO.
      - subst q. unfold marshal_override in MO. destruct (deref_type t) eqn:D; try discriminate.
        + destruct x; try discriminate. injection MO as MO. destruct (jo_time je Hj _ _ _ MO) as (A & B & _). split; assumption.
        + destruct (je_marshal je id) as [[byval f]|] eqn:Jm; [|discriminate]. destruct (byval || _); [|discriminate]. injection MO as MO.
          apply (jo_marshal je Hj _ _ _ _ _ Jm MO).
      - assert (D : json_switch env je c (encode_json k env je c) info x (ad || val_is_ptr v) o = EOk bz -> isjson bz).
        { intros H'. exact (valid_switch _ _ _ _ _ _ (deref_idem t) (minfo_deref _ _ _ _ Hi) Htx H'). }
        destruct info as [[ct cf [r|] cu cr]|ii]; try exact (D H). destruct Hi as [Hct Hok]. cbn [ci_type] in Hct. subst ct.
        pose proof (minfo_method _ _ _ eq_refl Hok) as M1. cbn [ci_type ci_marshal] in M1. destruct M1 as (id & f & E1 & M1 & Dr). rewrite E1 in *.
        cbn [to_repr] in H. rewrite M1 in H. einv H. einv H. eapply (IH r a); try eassumption.
        + eapply Hm; eassumption.
        + apply gti_minfo; assumption.
    Qed.
  End Step.
  Theorem valid_all : forall k, valid k.
  Proof. induction k as [|k IH]; [intros t v info ad o bz _ _ H; discriminate|apply valid_step, IH]. Qed.

  Theorem marshal_valid k t v bz : has_type env t v = true -> marshal_json k env je c t v = EOk bz -> isjson bz.
  Proof.
    intros Ht H. unfold marshal_json in H. einv H. rename a into info. einv H. rename a into b.
    pose proof (valid_all k t v info false no_opts b Ht (gti_minfo _ _ _ _ Hs E) E0) as V.
    destruct info as [[ct cf cm cu [r|]]|ii]; apply EOk_inj in H; subst bz; try exact V. destruct V as [X Y].
    assert (R : registration c (deref_type t) = Some (ri_name r, ri_ptr r)) by (eapply info_registration; [exact E|reflexivity]).
    apply Hcn in R. apply unescaped_ok in R. destruct R as [R1 R2].
    split; [eapply jt_object; apply wrap_text; assumption|apply wrap_utf8; assumption].
  Qed.
End Valid.

(** ** Writing and reading at the top level *)
Section Top.
  Variable env : tenv.
  Variable je : jenv.
  Variable c : codec.
  Hypothesis We : wf_env env.
  Hypothesis Wc : wf_codec env c.
  Hypothesis Hs : sane_codec env c.
  Hypothesis Hm : marshal_typed env.
  Hypothesis Hj : jenv_ok je.

  Lemma marshal_pointer k t v : has_type env t v = true -> marshal_json k env je c (TPtr t) (VPtr (Some v)) =
    ebind (get_type_info env c t) (fun info => ebind (encode_json k env je c info v true no_opts) (fun b =>
      match info with TIConc {| ci_reg := Some r |} => EOk (wrap_name (ri_name r) b) | _ => EOk b end)).
  Proof.
    intros Ht. unfold marshal_json. rewrite <- (gti_deref env c (TPtr t)). cbn [deref_type].
    rewrite gti_deref. destruct (get_type_info env c t) as [info| | |]; try reflexivity. cbn [ebind].
    assert (E : encode_json k env je c info (VPtr (Some v)) false no_opts = encode_json k env je c info v true no_opts).
    { destruct k as [|k]; [reflexivity|]. pose proof (typed_valid _ _ _ Ht) as Nv. destruct (under v) as [w|] eqn:U.
      - rewrite (enc_step _ _ _ _ _ (VPtr (Some v)) w) by (try discriminate; exact U). rewrite (enc_step _ _ _ _ _ v w) by assumption. reflexivity.
      - rewrite enc_nil by exact U. rewrite enc_nil by exact U. reflexivity. }
    rewrite E. reflexivity.
  Qed.
  Theorem top_round k t v w : jnorm k env je c t v = Some w -> has_type env t v = true -> name_ok c t ->
    exists bz, forall m, (k <= m)%nat -> marshal_json m env je c t v = EOk bz /\
      marshal_json m env je c (TPtr t) (VPtr (Some v)) = EOk bz /\ unmarshal_json m env je c bz t (zero env t) = EOk w.
  Proof.
    intros H Ht Hn. unfold jnorm in H. destruct (jform k env je c t v) as [[n w']|] eqn:J; [|discriminate]. cbn [option_map snd] in H. injection H as ->.
    assert (K : known env c t = true).
    { destruct k as [|k]; [discriminate|]. cbn [jform] in J. destruct (known env c t); [reflexivity|]. rewrite orb_true_r in J. discriminate. }
    destruct (known_info env c t K) as [info Hg]. destruct (round_all env je c We Wc Hs Hm Hj k t v n w info J Ht Hg) as (b & A & B & _ & _ & F).
    destruct (jtext_nonempty b A) as (x0 & r0 & Eb).
    assert (UM : forall m, unmarshal_json m env je c b t (zero env t) = match info with
        | TIConc {| ci_reg := Some r |} => ebind (decode_wrapper b) (fun nd => if negb (beqb (fst nd) (ri_name r)) then EErr "wanted to decode but found"%string else decode_json m env je c (snd nd) info t (zero env t) no_opts)
        | _ => decode_json m env je c b info t (zero env t) no_opts end) by (intros; unfold unmarshal_json; rewrite Hg, Eb; reflexivity).
    destruct (match info with TIConc ci => ci_reg ci | TIFace _ => None end) as [r|] eqn:R.
    - destruct info as [[ct cf cm cu cr]|]; [|discriminate]. cbn [ci_reg] in R. subst cr.
      assert (Reg : registration c (deref_type t) = Some (ri_name r, ri_ptr r)) by (eapply info_registration; [exact Wc|exact Hs|exact Hg|reflexivity]).
      destruct (Hn _ _ Reg) as [N1 N2]. apply unescaped_ok in N1. destruct N1 as [N1 N3].
      exists (wrap_name (ri_name r) b). intros m Hm'. destruct (F m Hm') as [F1 F2]. split; [|split].
      + unfold marshal_json. rewrite Hg. cbn [ebind]. rewrite F1. reflexivity.
      + rewrite marshal_pointer by exact Ht. rewrite Hg. cbn [ebind]. rewrite F1. reflexivity.
      + assert (W : decode_wrapper (wrap_name (ri_name r) b) = EOk (ri_name r, b)) by (apply wrapper_ok; assumption).
        unfold unmarshal_json. rewrite Hg. destruct (wrap_name (ri_name r) b) as [|y0 z0] eqn:Wn; [discriminate|]. rewrite <- Wn in *.
        cbn [ebind]. rewrite W. cbn [ebind fst snd]. rewrite (proj2 (beqb_eq _ _) eq_refl). cbn [negb]. apply F2.
    - exists b. intros m Hm'. destruct (F m Hm') as [F1 F2]. split; [|split].
      + unfold marshal_json. rewrite Hg. cbn [ebind]. rewrite F1. cbn [ebind]. destruct info as [[ct cf cm cu cr]|]; [|reflexivity]. cbn [ci_reg] in R. subst cr. reflexivity.
      + rewrite marshal_pointer by exact Ht. rewrite Hg. cbn [ebind]. rewrite F1. cbn [ebind]. destruct info as [[ct cf cm cu cr]|]; [|reflexivity]. cbn [ci_reg] in R. subst cr. reflexivity.
      + rewrite UM. destruct info as [[ct cf cm cu cr]|]; [cbn [ci_reg] in R; subst cr|]; apply F2.
  Qed.

  (** More fuel changes nothing. *)
  Definition mono (f g : tinfo -> value -> bool -> fopts -> eres bytes) : Prop := forall info v ad o b, f info v ad o = EOk b -> g info v ad o = EOk b.
  Lemma mono_elems f g einfo : mono f g -> forall l ad o r, json_elems f einfo l ad o = EOk r -> json_elems g einfo l ad o = EOk r.
  Proof.
    intros M. induction l as [|v l IHl]; intros ad o r H; [exact H|]. cbn [json_elems] in *. einv H. einv H. rewrite (M _ _ _ _ _ E). cbn [ebind].
    rewrite (IHl _ _ _ E0). exact H.
  Qed.
  Lemma mono_members f g vt : mono f g -> forall l o r, json_members env c f vt l o = EOk r -> json_members env c g vt l o = EOk r.
  Proof.
    intros M. induction l as [|[x v] l IHl]; intros o r H; [exact H|]. cbn [json_members] in *. destruct x; try discriminate. einv H. einv H.
    rewrite (IHl _ _ E0). destruct (deref_pointers v) as [w [|]]; [apply EOk_inj in E; subst a; exact H|]. einv E. rewrite E1. cbn [ebind]. rewrite (M _ _ _ _ _ E). exact H.
  Qed.
  Lemma mono_fields f g : mono f g -> forall fs l ad r, json_fields env c f fs l ad = EOk r -> json_fields env c g fs l ad = EOk r.
  Proof.
    intros M. induction fs as [|x fs IHf]; intros l ad r H; [exact H|]. cbn [json_fields] in *. einv H. rewrite E. cbn [ebind].
    destruct (_ && _); [apply IHf; exact H|]. einv H. einv H. rewrite (M _ _ _ _ _ E0). cbn [ebind]. rewrite (IHf _ _ _ E1). exact H.
  Qed.
  Lemma mono_list f g : mono f g -> forall e v ad o r, json_list env c f e v ad o = EOk r -> json_list env c g e v ad o = EOk r.
  Proof.
    intros M e v ad o r H. unfold json_list in *.
    destruct v as [| | | | | |l| [l|]| | | | | | |]; try exact H; (destruct (is_uint8 env e); [exact H|]); einv H; rewrite E; cbn [ebind]; einv H;
      rewrite (mono_elems f g _ M _ _ _ _ E0); exact H.
  Qed.
  Lemma mono_switch f g : mono f g -> mono (json_switch env je c f) (json_switch env je c g).
  Proof.
    intros M info v ad o b H. unfold json_switch in *. destruct (resolve env (ti_type info)); try exact H.
    - destruct info; [|exact H]. unfold json_struct in *. destruct v; try exact H. einv H. rewrite (mono_fields f g M _ _ _ _ E). exact H.
    - apply (mono_list f g M). exact H.
    - apply (mono_list f g M). exact H.
    - unfold json_map in *. destruct (resolve env k) as [[]| | | | | | | | | |]; try exact H. destruct v as [| | | | | | | | | | |[l|]| | |]; try exact H.
      einv H. rewrite (mono_members f g _ M _ _ _ E). exact H.
    - unfold json_interface in *. destruct v as [| | | | | | | | | |[[ct cv]|]| | | |]; try exact H. destruct (deref_pointers cv) as [w [|]]; try exact H.
      destruct w; try exact H; einv H; rewrite E; cbn [ebind]; (destruct a as [ci|]; [|exact H]); (destruct (ci_reg ci); [|exact H]); einv H; rewrite (M _ _ _ _ _ E0); exact H.
    - destruct info; [|exact H]. unfold json_struct in *. destruct v; try exact H. einv H. rewrite (mono_fields f g M _ _ _ _ E). exact H.
  Qed.
  Lemma encode_mono : forall k, mono (encode_json k env je c) (encode_json (S k) env je c).
  Proof.
    induction k as [|k IH]; intros info v ad o b H; [discriminate|]. remember (S k) as k1 eqn:Ek. cbn [encode_json]. rewrite Ek in H at 1. cbn [encode_json] in H.
    destruct v; try exact H.
    all: destruct (deref_pointers _) as [w [|]]; [exact H|]; cbv zeta in *; destruct (marshal_override _ _ _ _); [exact H|];
      (destruct info as [[ct cf [r|] cu cr]|ii]; [|eapply mono_switch; [|exact H]; subst; exact IH|eapply mono_switch; [|exact H]; subst; exact IH]);
      einv H; rewrite E; cbn [ebind]; einv H; rewrite E0; cbn [ebind]; subst; apply IH; exact H.
  Qed.
  Lemma marshal_mono k t v b : marshal_json k env je c t v = EOk b -> marshal_json (S k) env je c t v = EOk b.
  Proof. unfold marshal_json. intros H. einv H. einv H. rewrite E. cbn [ebind]. rewrite (encode_mono _ _ _ _ _ _ E0). exact H. Qed.

  Theorem top_supported mem k t v bz : jsupported env je c mem -> jpart_ok mem t = true -> has_type env t v = true -> json_value v = true -> name_ok c t ->
    marshal_json k env je c t v = EOk bz -> exists w, jnorm (S k) env je c t v = Some w /\
    forall m, (k < m)%nat -> unmarshal_json m env je c bz t (zero env t) = EOk w.
  Proof.
    intros Hsup Hp Ht Hv Hn H. pose proof (marshal_mono _ _ _ _ H) as H1. unfold marshal_json in H. einv H. einv H.
    destruct (some_go env je c (S k) t v) as [w Ew]; [eapply sup_all; eassumption|].
    change (jnorm (S k) env je c t v = Some w) in Ew. exists w. split; [exact Ew|].
    destruct (top_round (S k) t v w Ew Ht Hn) as (bz' & F). destruct (F (S k) (Nat.le_refl _)) as [F1 _]. rewrite H1 in F1. apply EOk_inj in F1. subst bz'.
    intros m Hm'. apply F. exact Hm'.
  Qed.
End Top.

(** ** Integers of 64 bits *)
Lemma int_part_numeral d : int_part d -> exists z, numeral d z.
Proof.
  intros [->|(x & r & -> & Hx & Nx & Hr)]; [exists 0; apply (nm_one 0); lia|].
  assert (G : forall r, Forall digit r -> exists z, numeral (x :: r) z /\ z <> 0).
  { clear r Hr. induction r as [|y r IH] using rev_ind; intros Hr.
    - exists (x - 48). unfold digit in Hx. split; [|lia]. replace x with (48 + (x - 48)) at 1 by lia. apply nm_one. lia.
    - apply Forall_app in Hr. destruct Hr as [Hr Hy]. inversion Hy as [|? ? Hy' _]; subst. unfold digit in Hy'. destruct (IH Hr) as (z & Hz & Nz).
      exists (10 * z + (y - 48)). pose proof (proj1 (proj2 (numeral_int _ _ Hz))). split; [|lia]. change (x :: r ++ [y]) with ((x :: r) ++ [y]).
      replace y with (48 + (y - 48)) at 1 by lia. apply nm_more; [exact Hz|exact Nz|lia]. }
  destruct (G r Hr) as (z & Hz & _). exists z. exact Hz.
Qed.
Lemma parse_digits_all : forall s acc z, parse_digits s acc = Some z -> Forall digit s.
Proof.
  induction s as [|b s IH]; intros acc z H; [constructor|]. cbn [parse_digits] in H. destruct (is_digit b) eqn:E; [|discriminate].
  constructor; [unfold is_digit in E; unfold digit; lia|eapply IH; exact H].
Qed.
Lemma digits_int n : jnumber n -> Forall digit n -> int_part n.
Proof.
  intros [m i f e Hm Hi Hf He] D. rewrite !Forall_app in D. destruct D as (Dm & _ & Df & De).
  assert (m = []) by (destruct Hm as [->| ->]; [reflexivity|inversion Dm; unfold digit in *; lia]).
  assert (f = []) by (destruct Hf as [->|(r & -> & _)]; [reflexivity|inversion Df; unfold digit in *; lia]).
  assert (e = []) by (destruct He as [->|(x & g & r & -> & Hx & _)]; [reflexivity|inversion De; unfold digit in *; lia]).
  subst. cbn [app]. rewrite app_nil_r. exact Hi.
Qed.
Lemma parse_uint_sound n z : jnumber n -> parse_uint n = Some z -> numeral n z.
Proof.
  intros Hn H. assert (D : Forall digit n) by (unfold parse_uint in H; destruct n; [constructor|eapply parse_digits_all; exact H]).
  destruct (int_part_numeral n (digits_int n Hn D)) as [z' Hz']. rewrite (parse_uint_ok n z' Hz') in H. injection H as <-. exact Hz'.
Qed.
Lemma neg_number n : jnumber (45 :: n) -> jnumber n.
Proof.
  intros H. inversion H as [m i f e Hm Hi Hf He E]. destruct Hm as [->| ->].
  - exfalso. destruct Hi as [->|(x & r & -> & Hx & _)]; cbn [app] in E; [discriminate|]. injection E as -> _. unfold digit in Hx. lia.
  - cbn [app] in E. injection E as <-. apply (jn_intro [] i f e); auto.
Qed.
Lemma parse_int_sound n z : jnumber n -> parse_int n = Some z -> decimal n z \/ n = bs "-0" /\ z = 0.
Proof.
  intros Hn H. unfold parse_int in H. destruct n as [|b r]; [discriminate|]. destruct (b =? 45) eqn:E.
  - apply Z.eqb_eq in E. subst b. destruct (parse_uint r) as [y|] eqn:P; [|discriminate]. cbn [option_map] in H. injection H as <-.
    pose proof (parse_uint_sound r y (neg_number r Hn) P) as N. destruct (Z.eq_dec y 0) as [->|Ny].
    + right. destruct (numeral_form r 0 N) as [[-> _]|[? _]]; [split; reflexivity|lia].
    + left. apply dc_neg; assumption.
  - left. apply dc_pos. apply parse_uint_sound; assumption.
Qed.

Section Wide.
  Variable env : tenv.
  Variable je : jenv.
  Variable c : codec.
  Hypothesis We : wf_env env.
  Hypothesis Hs : sane_codec env c.

  Lemma quote_ends b r : (if negb (b =? 34) || negb (last (b :: r) 0 =? 34) then true else (length (b :: r) <? 2)%nat) = false ->
    exists inner, b :: r = 34 :: inner ++ [34] /\ removelast (tl (b :: r)) = inner.
  Proof.
    destruct (negb (b =? 34) || negb (last (b :: r) 0 =? 34)) eqn:E; [discriminate|]. apply orb_false_iff in E. destruct E as [E1 E2].
    apply negb_false_iff, Z.eqb_eq in E1, E2. intros L. subst b. destruct r as [|y r'] using rev_ind; [discriminate|]. clear IHr'.
    exists r'. rewrite (app_comm_cons r' [y] 34) in E2. rewrite last_snoc in E2. subst y. split; [reflexivity|]. cbn [tl]. apply removelast_last.
  Qed.
  Definition wide_int (p : prim) : bool := match p with PInt64 | PInt | PUint64 | PUint => true | _ => false end.
  Definition wide_value (p : prim) (z : Z) : value := match p with PUint64 | PUint => VUint z | _ => VInt z end.
  Lemma wide_read p bz o v : wide_int p = true -> unjson_prim je p bz o = EOk v ->
    exists w n w' z, bz = 34 :: (w ++ n ++ w') ++ [34] /\ spaces w /\ spaces w' /\
      (decimal n z \/ z = 0 /\ (n = bs "-0" \/ n = bs "null")) /\ v = wide_value p z /\ prim_has p v = true.
  Proof.
    intros Hp H.
    assert (Q : exists (f : bytes -> option Z) (rng : Z -> bool) inner, bz = 34 :: inner ++ [34] /\
      with_top inner (fun j => match j with
        | JNum n => match f n with Some z => if rng z then EOk (wide_value p z) else EErr type_error | None => EErr type_error end
        | JNull => EOk (wide_value p 0) | _ => EErr type_error end) = EOk v /\
      (forall n z, jnumber n -> f n = Some z -> decimal n z \/ n = bs "-0" /\ z = 0) /\ (forall z, rng z = prim_has p (wide_value p z)) /\ rng 0 = true).
    { destruct bz as [|b r]; [destruct p; discriminate|].
      assert (X : forall (g : bytes -> eres value) (res : eres value),
        (if negb (b =? 34) || negb (last (b :: r) 0 =? 34) then EErr "Amino:JSON int/int64/uint/uint64 expects quoted values"%string
         else if (length (b :: r) <? 2)%nat then EPanic "slice bounds out of range"%string else g (removelast (tl (b :: r)))) = EOk v ->
        exists inner, b :: r = 34 :: inner ++ [34] /\ g inner = EOk v).
      { intros g _ HX. destruct (quote_ends b r) as (inner & E1 & E2).
        - destruct (negb (b =? 34) || negb (last (b :: r) 0 =? 34)); [discriminate|]. destruct (length (b :: r) <? 2)%nat; [discriminate|reflexivity].
        - exists inner. split; [exact E1|]. rewrite <- E2. destruct (negb (b =? 34) || negb (last (b :: r) 0 =? 34)); [discriminate|].
          destruct (length (b :: r) <? 2)%nat; [discriminate|]. exact HX. }
      destruct p; try discriminate; unfold unjson_prim in H; cbv beta iota zeta in H; apply (X (fun b => with_top b _) (EOk v)) in H; destruct H as (inner & E1 & H).
      - exists parse_int, (in_int 64), inner. split; [exact E1|]. split; [exact H|]. split; [apply parse_int_sound|]. split; reflexivity.
      - exists parse_int, (in_int 64), inner. split; [exact E1|]. split; [exact H|]. split; [apply parse_int_sound|]. split; reflexivity.
      - exists parse_uint, (in_uint 64), inner. split; [exact E1|]. split; [exact H|]. split; [intros n z Hn Hz; left; apply dc_pos, parse_uint_sound; assumption|]. split; reflexivity.
      - exists parse_uint, (in_uint 64), inner. split; [exact E1|]. split; [exact H|]. split; [intros n z Hn Hz; left; apply dc_pos, parse_uint_sound; assumption|]. split; reflexivity. }
    destruct Q as (f & rng & inner & -> & HT & Hf & Hr & H0). unfold with_top in HT. destruct (json_top inner) as [j|] eqn:J; [|discriminate].
    destruct (top_sound _ _ J) as (w & x & w' & -> & Sw & Sw' & T). destruct j as [|jb|n|js|jl|jl]; try discriminate.
    - apply EOk_inj in HT. subst v. cbn [top_of] in T. subst x. exists w, (bs "null"), w', 0. repeat (split; [try reflexivity; try assumption; tauto|]).
      rewrite <- Hr. exact H0.
    - destruct T as [-> Hn]. destruct (f n) as [z|] eqn:Fz; [|discriminate]. destruct (rng z) eqn:Rz; [|discriminate]. apply EOk_inj in HT. subst v.
      exists w, n, w', z. split; [reflexivity|]. split; [exact Sw|]. split; [exact Sw'|]. split; [destruct (Hf n z Hn Fz) as [?|[? ?]]; tauto|].
      split; [reflexivity|]. rewrite <- Hr. exact Rz.
  Qed.
  Lemma wide_unquoted p bz o : wide_int p = true -> (forall inner, bz <> 34 :: inner) -> bz <> [] -> exists e, unjson_prim je p bz o = EErr e.
  Proof.
    intros Hp Hb Hn. destruct bz as [|b r]; [congruence|]. assert (b <> 34) by (intros ->; exact (Hb r eq_refl)).
    assert (E : (b =? 34) = false) by (apply Z.eqb_neq; assumption).
    destruct p; try discriminate; unfold unjson_prim; cbv beta iota zeta; rewrite E; cbn [negb orb]; eexists; reflexivity.
  Qed.

  Lemma wide_base info t : minfo env c info t -> wide env (deref_type t) = true -> methodless env je (deref_type t) ->
    exists p, resolve env (deref_type t) = RPrim p /\ wide_int p = true /\ (forall z, int_value env (deref_type t) z = wide_value p z) /\
      deref_type t <> TTime /\ is_iface (deref_type t) = false /\
      (forall m ad o x, enc_base env je c m info x ad o = json_prim je p x o) /\
      (forall m bz b0 o, match (match deref_type t with TNamed id => je_unmarshal je id | _ => None end) with
        | Some g => g bz b0
        | None => match info with
          | TIConc {| ci_type := ct; ci_unmarshal := Some r |} =>
              ebind (get_type_info env c r) (fun rinfo => ebind (decode_json m env je c bz rinfo r (zero env r) o) (fun rv =>
              ebind (from_repr env ct b0 rv) (fun ve => match snd ve with Some e => EErr e | None => EOk (fst ve) end)))
          | _ => unjson_switch env je c (decode_json m env je c) info bz b0 o end end = unjson_prim je p bz o).
  Proof.
    intros Hi Hw Hid. pose proof (minfo_type _ _ _ _ Hi) as Hty. unfold wide in Hw.
    destruct (resolve env (deref_type t)) as [p| | | | | | | | | |] eqn:Er; try discriminate. exists p. split; [reflexivity|].
    split; [exact Hw|]. split; [intros; unfold int_value; rewrite Er; reflexivity|].
    split; [intros E; rewrite E in Er; discriminate|]. split; [destruct (deref_type t); try reflexivity; discriminate|].
    assert (CM : match info with TIConc ci => ci_marshal ci = None /\ ci_unmarshal ci = None | TIFace _ => True end).
    { destruct info as [ci|]; [|exact I]. destruct Hi as [Hct Hok]. pose proof (minfo_method _ _ _ Hct Hok) as M1. pose proof (minfo_unmethod _ _ _ Hct Hok) as M2.
      split.
      - destruct (ci_marshal ci); [|reflexivity]. destruct M1 as (id & f & E & M1 & _). rewrite E in Hid. destruct Hid as (_ & _ & Y & _). congruence.
      - destruct (ci_unmarshal ci); [|reflexivity]. destruct M2 as (id & f & E & M2 & _). rewrite E in Hid. destruct Hid as (_ & _ & _ & Y). congruence. }
    split.
    - intros m ad o x. unfold enc_base. rewrite Hty.
      assert (MO : marshal_override je (deref_type t) x ad = None).
      { unfold marshal_override. destruct (deref_type t); try reflexivity; [discriminate|]. destruct Hid as (-> & _). reflexivity. }
      rewrite MO.
      assert (SW : json_switch env je c (encode_json m env je c) info x ad o = json_prim je p x o) by (unfold json_switch; rewrite Hty, Er; reflexivity).
      destruct info as [[ct cf cm cu cr]|]; [|exact SW]. cbn in CM. destruct CM as [-> ->]. exact SW.
    - intros m bz b0 o.
      assert (U : match deref_type t with TNamed id => je_unmarshal je id | _ => None end = None).
      { destruct (deref_type t); try reflexivity. destruct Hid as (_ & -> & _). reflexivity. }
      rewrite U. assert (SW : unjson_switch env je c (decode_json m env je c) info bz b0 o = unjson_prim je p bz o) by (unfold unjson_switch; rewrite Hty, Er; reflexivity).
      destruct info as [[ct cf cm cu cr]|]; [|exact SW]. cbn in CM. destruct CM as [-> ->]. exact SW.
  Qed.
  Theorem wide_written m t z info v ad o : get_type_info env c t = EOk info -> wide env (deref_type t) = true -> methodless env je (deref_type t) ->
    under v = Some (int_value env (deref_type t) z) ->
    exists b, encode_json (S m) env je c info v ad o = EOk (34 :: b ++ [34]) /\ decimal b z.
  Proof.
    intros Hg Hw Hid Hu. destruct (wide_base info t (gti_minfo _ _ _ _ Hs Hg) Hw Hid) as (p & Er & Hp & Hv & _ & _ & EB & _).
    exists (itoa z). split; [|apply itoa_ok]. rewrite Hv in Hu. rewrite (enc_step env je c m info v _ ad o) with (2 := Hu).
    - rewrite EB. destruct p; try discriminate; reflexivity.
    - intros ->. destruct p; discriminate.
  Qed.
  Theorem wide_accepted m t info bz v0 v o : get_type_info env c t = EOk info -> wide env (deref_type t) = true -> methodless env je (deref_type t) ->
    decode_json m env je c bz info t v0 o = EOk v -> bz <> null ->
    exists w n w' z, bz = 34 :: (w ++ n ++ w') ++ [34] /\ spaces w /\ spaces w' /\
      (decimal n z \/ z = 0 /\ (n = bs "-0" \/ n = bs "null")) /\ v = ptrs t (int_value env (deref_type t) z) /\
      has_type env (deref_type t) (int_value env (deref_type t) z) = true.
  Proof.
    intros Hg Hw Hid H Nb. pose proof (gti_minfo _ _ _ _ Hs Hg) as Hi.
    destruct (wide_base info t Hi Hw Hid) as (p & Er & Hp & Hv & Nt & Nif & _ & DB).
    destruct m as [|m]; [discriminate|]. cbn [decode_json] in H. rewrite (beqb_false _ _ Nb) in H.
    assert (H' : ebind (unjson_prim je p bz o) (fun w => EOk (rebuild t w)) = EOk v).
    { rewrite <- (DB m bz (base_of env t v0) o), <- H. destruct info as [ci|ii].
      - destruct (deref_type t) eqn:D; try reflexivity; congruence.
      - destruct Hi as [_ Hi]. rewrite Hi in Nif. discriminate. }
    einv H'. apply EOk_inj in H'. subst v. destruct (wide_read p bz o a Hp E) as (w & n & w' & z & A & B & D & F & -> & G).
    exists w, n, w', z. rewrite Hv. rewrite <- ptrs_wrap. repeat (split; [assumption || reflexivity|]). rewrite (has_type_prim _ _ _ _ Er). exact G.
  Qed.
  Theorem wide_rejected m t info bz v0 o : get_type_info env c t = EOk info -> wide env (deref_type t) = true -> methodless env je (deref_type t) ->
    (forall inner, bz <> 34 :: inner) -> bz <> [] -> bz <> null -> exists e, decode_json (S m) env je c bz info t v0 o = EErr e.
  Proof.
    intros Hg Hw Hid Nq Ne Nb. pose proof (gti_minfo _ _ _ _ Hs Hg) as Hi.
    destruct (wide_base info t Hi Hw Hid) as (p & Er & Hp & Hv & Nt & Nif & _ & DB).
    destruct (wide_unquoted p bz o Hp Nq Ne) as [e E]. exists e. cbn [decode_json]. rewrite (beqb_false _ _ Nb).
    assert (H' : forall X, X = ebind (unjson_prim je p bz o) (fun w => EOk (rebuild t w)) -> X = EErr e) by (intros X ->; rewrite E; reflexivity).
    destruct info as [ci|ii].
    - apply H'. rewrite <- (DB m bz (base_of env t v0) o). destruct (deref_type t) eqn:D; try reflexivity; congruence.
    - destruct Hi as [_ Hi]. rewrite Hi in Nif. discriminate.
  Qed.
End Wide.

(** ** Interfaces *)
Lemma lower_is n word : Forall (fun y => 97 <= y <= 122) word ->
  (beqb (map lower n) word = true <-> Forall2 (fun x y => x = y \/ 97 <= y <= 122 /\ x = y - 32) n word).
Proof.
  intros Hw. rewrite beqb_eq. revert n. induction Hw as [|y word Hy Hw IH]; intros [|x n]; cbn [map].
  - split; constructor.
  - split; [discriminate|intros H; inversion H].
  - split; [discriminate|intros H; inversion H].
  - split.
    + intros H. injection H as Hx Hn. constructor; [unfold lower in Hx; destruct ((65 <=? x) && (x <=? 90)) eqn:E in Hx; lia|apply IH; exact Hn].
    + intros H. inversion H as [|? ? ? ? Hx Hn]; subst. f_equal; [|apply IH; exact Hn]. unfold lower. destruct ((65 <=? x) && (x <=? 90)) eqn:E; lia.
Qed.
Lemma key_is_unq word k n : Forall (fun y => 97 <= y <= 122) word -> jchars k -> unq k = EOk n -> (key_is word k <-> beqb (map lower n) word = true).
Proof.
  intros Hw Hk Hn. rewrite (lower_is n word Hw). pose proof (unq_sound k n Hk Hn) as D. split.
  - intros (n' & D' & F). rewrite (denotes_fun _ _ _ D D'). exact F.
  - intros F. exists n. split; assumption.
Qed.
Lemma members_chars : (forall b, jtext b -> True) /\ (forall l b, jarray l b -> True) /\ (forall l b, jelems l b -> True) /\
  (forall l b, jobject l b -> Forall (fun p => jchars (fst p) /\ jtext (snd p)) l) /\ (forall l b, jmembers l b -> Forall (fun p => jchars (fst p) /\ jtext (snd p)) l).
Proof. apply json_grammar; intros; try exact I; try assumption; try (apply Forall_nil); (apply Forall_cons; [split; assumption|]); try assumption; apply Forall_nil. Qed.
Lemma jtext_top b : jtext b -> exists j, json_top b = Some j /\ top_of j b.
Proof.
  assert (G : forall j, top_of j b -> exists j, json_top b = Some j /\ top_of j b) by (intros j H; exists j; split; [apply top_ok; exact H|exact H]).
  intros H. destruct H as [| | |n Hn|x Hx|l b Hb|l b Hb].
  - apply (G JNull). reflexivity.
  - apply (G (JBool true)). reflexivity.
  - apply (G (JBool false)). reflexivity.
  - apply (G (JNum n)). split; [reflexivity|exact Hn].
  - apply (G (JStr x)). split; [reflexivity|exact Hx].
  - apply (G (JArr l)). exact Hb.
  - apply (G (JObj l)). exact Hb.
Qed.

Definition word_type : bytes := bs "type".
Definition word_value : bytes := bs "value".
Lemma word_type_ok : Forall (fun y => 97 <= y <= 122) word_type.
Proof. unfold word_type; cbn. repeat (apply Forall_cons; [lia|]); apply Forall_nil. Qed.
Lemma word_value_ok : Forall (fun y => 97 <= y <= 122) word_value.
Proof. unfold word_value; cbn. repeat (apply Forall_cons; [lia|]); apply Forall_nil. Qed.

(** The state of the wrapper: what it started with, or what a member left there. *)
Lemma fill_sound : forall l w w', Forall (fun p => jchars (fst p) /\ jtext (snd p)) l -> fill_wrapper l w = EOk w' -> wr_bad w' = false ->
  wr_bad w = false /\
  (string_member word_type l (wr_name w') \/ wr_name w' = wr_name w /\ Forall (fun p => key_is word_type (fst p) -> snd p = bs "null") l) /\
  (text_member word_value l (wr_data w') \/ wr_data w' = wr_data w /\ Forall (fun p => ~ key_is word_value (fst p)) l).
Proof.
  induction l as [|[k raw] l IH]; intros w w' Hl H Hb.
  { apply EOk_inj in H. subst w'. split; [exact Hb|]. split; right; (split; [reflexivity|constructor]). }
  inversion Hl as [|? ? [Hk Hr] Hl']; subst. cbn [fst snd] in Hk, Hr. cbn [fill_wrapper] in H. einv H. rename a into n.
  pose proof (key_is_unq word_type k n word_type_ok Hk E) as KT. pose proof (key_is_unq word_value k n word_value_ok Hk E) as KV.
  fold word_type word_value in H.
  assert (Excl : beqb (map lower n) word_type = true -> beqb (map lower n) word_value = false).
  { intros X. apply beqb_eq in X. rewrite X. reflexivity. }
  assert (SM : forall x, string_member word_type l x -> string_member word_type ((k, raw) :: l) x).
  { intros x (l1 & k1 & s1 & l2 & -> & A). exists ((k, raw) :: l1), k1, s1, l2. split; [reflexivity|exact A]. }
  assert (TM : forall x, text_member word_value l x -> text_member word_value ((k, raw) :: l) x).
  { intros x (l1 & k1 & l2 & -> & A). exists ((k, raw) :: l1), k1, l2. split; [reflexivity|exact A]. }
  destruct (beqb (map lower n) word_type) eqn:BT.
  - assert (NV : ~ key_is word_value k) by (rewrite KV, Excl by reflexivity; discriminate).
    assert (CV : forall x, (text_member word_value l (wr_data w') \/ wr_data w' = x /\ Forall (fun p => ~ key_is word_value (fst p)) l) ->
        text_member word_value ((k, raw) :: l) (wr_data w') \/ wr_data w' = x /\ Forall (fun p => ~ key_is word_value (fst p)) ((k, raw) :: l)).
    { intros x [A|[A B]]; [left; apply TM; exact A|right; split; [exact A|constructor; [exact NV|exact B]]]. }
    destruct (jtext_top raw Hr) as (j & J & T). rewrite J in H.
    destruct j as [|jb|jn|l0|jl|jl]; try (destruct (IH _ _ Hl' H Hb) as (C & _); discriminate).
    + destruct (IH _ _ Hl' H Hb) as (C & A & B). split; [exact C|]. split; [|apply CV; exact B].
      cbn [top_of] in T.
      destruct A as [A|[A A']]; [left; apply SM; exact A|right; split; [exact A|constructor; [intros _; assumption|exact A']]].
    + einv H. destruct T as [Eraw Hs].
      destruct (IH _ _ Hl' H Hb) as (C & A & B). cbn [wr_name wr_data wr_bad] in *. split; [exact C|]. split; [|apply CV; exact B].
      left. destruct A as [A|[-> A]]; [apply SM; exact A|]. exists [], k, l0, l. split; [subst raw; reflexivity|]. split; [apply KT; reflexivity|].
      split; [apply unq_sound; assumption|exact A].
  - assert (NT : key_is word_type k -> raw = bs "null") by (intros X; apply KT in X; discriminate).
    assert (CT : forall x, (string_member word_type l (wr_name w') \/ wr_name w' = x /\ Forall (fun p => key_is word_type (fst p) -> snd p = bs "null") l) ->
        string_member word_type ((k, raw) :: l) (wr_name w') \/ wr_name w' = x /\ Forall (fun p => key_is word_type (fst p) -> snd p = bs "null") ((k, raw) :: l)).
    { intros x [A|[A B]]; [left; apply SM; exact A|right; split; [exact A|constructor; [exact NT|exact B]]]. }
    destruct (beqb (map lower n) word_value) eqn:BV; destruct (IH _ _ Hl' H Hb) as (C & A & B); cbn [wr_name wr_data wr_bad] in *;
      (split; [exact C|]); (split; [apply CT; exact A|]).
    + left. destruct B as [B|[-> B]]; [apply TM; exact B|]. exists [], k, l. split; [reflexivity|]. split; [apply KV; reflexivity|exact B].
    + destruct B as [B|[-> B]]; [left; apply TM; exact B|]. right. split; [reflexivity|]. constructor; [cbn [fst]; rewrite KV; discriminate|exact B].
Qed.
Lemma wrapper_sound bz name data : decode_wrapper bz = EOk (name, data) ->
  exists w x w' l, bz = w ++ x ++ w' /\ spaces w /\ spaces w' /\ jobject l x /\ string_member word_type l name /\ text_member word_value l data /\ name <> [] /\ jtext data.
Proof.
  unfold decode_wrapper. intros H. einv H. rename a into wr. unfold raw_wrapper, with_top in E. destruct (json_top bz) as [j|] eqn:J; [|discriminate].
  destruct (top_sound _ _ J) as (w & x & w' & -> & S1 & S2 & T). destruct j; try discriminate.
  - apply EOk_inj in E. subst wr. discriminate.
  - einv E. rename a into w1. destruct (wr_bad w1) eqn:Bad; [discriminate|]. apply EOk_inj in E. subst wr. cbn [top_of] in T.
    destruct (fill_sound _ _ _ (proj1 (proj2 (proj2 (proj2 members_chars))) _ _ T) E0 Bad) as (_ & A & B). cbn [wr_name wr_data] in A, B.
    destruct (wr_name w1) as [|n0 n1] eqn:En; [discriminate|]. destruct (wr_data w1) as [|d0 d1] eqn:Ed; [discriminate|]. apply EOk_inj in H. injection H as <- <-.
    exists w, x, w', l. repeat (split; [assumption || reflexivity|]). destruct A as [A|[A _]]; [|discriminate]. destruct B as [B|[B _]]; [|discriminate].
    split; [exact A|]. split; [exact B|]. split; [discriminate|].
    destruct B as (l1 & k & l2 & El & _). pose proof (proj1 (proj2 (proj2 (proj2 members_chars))) _ _ T) as F. rewrite El in F. apply Forall_app in F. destruct F as [_ F]. inversion F as [|? ? [_ F'] _]. exact F'.
Qed.

Section Iface.
  Variable env : tenv.
  Variable je : jenv.
  Variable h : list op.
  Hypothesis We : wf_env env.
  Hypothesis Hc : Registry.clean env new_codec h = true.
  Let c := run env new_codec h.

  Lemma call_registration t0 name : In (t0, name) (conc_calls h) <-> registration c (conc_of t0) = Some (name, is_ptr t0).
  Proof.
    pose proof (wf_history env h Hc) as Wc. pose proof (sane_run env h) as Hs. split.
    - intros Hin. destruct (unique_registrations env h Hc) as (_ & _ & R & _).
      destruct (R _ _ Hin) as (ci & r & d' & p' & Hg & _ & Hty & Hr & Hn & Hp & _).
      pose proof (info_registration env c Wc Hs _ _ _ Hg Hr) as Q. pose proof (gti_minfo _ _ _ _ Hs Hg) as [Q1 _]. rewrite <- Q1, Hty, Hn, Hp in Q. exact Q.
    - intros H. destruct (registration_info env c Wc _ _ _ H) as (ci & r & Hin & Hty & Hr & Hn & Hp & _).
      destruct (registered_call env h ci r Hc Hin Hr) as (t & n & Hcall & Ht & Hpt & Hnm). rewrite Hty in Ht. rewrite Hp in Hpt. rewrite Hn in Hnm. subst n.
      assert (t0 = t); [|subst; exact Hcall].
      assert (K : conc_type (conc_of t) = true).
      { rewrite <- Ht, <- Hty. destruct (proj1 (wc_conc _ _ Wc ci) Hin) as [Ha _]. destruct (wc_types _ _ Wc _ _ Ha) as [_ Hok]. apply (info_ok_parts _ _ Hok). }
      destruct t0, t; cbn [is_ptr conc_of] in *; try discriminate; congruence.
  Qed.
  Lemma registered_form ci r : In ci (cd_concretes c) -> ci_reg ci = Some r ->
    exists t0, In (t0, ri_name r) (conc_calls h) /\ conc_of t0 = ci_type ci /\ is_ptr t0 = ri_ptr r /\ t0 = (if ri_ptr r then TPtr (ci_type ci) else ci_type ci) /\
      deref_type (ci_type ci) = ci_type ci.
  Proof.
    pose proof (wf_history env h Hc) as Wc. intros Hin Hr. destruct (registered_call env h ci r Hc Hin Hr) as (t & n & Hcall & Ht & Hpt & Hnm).
    exists t. rewrite Hnm. split; [exact Hcall|]. split; [symmetry; exact Ht|]. split; [symmetry; exact Hpt|].
    destruct (proj1 (wc_conc _ _ Wc ci) Hin) as [Ha _]. destruct (wc_types _ _ Wc _ _ Ha) as [_ Hok]. destruct (info_ok_parts _ _ Hok) as (K & _).
    split; [rewrite Hpt, Ht; destruct t; reflexivity|]. destruct (ci_type ci); try reflexivity; discriminate.
  Qed.
  Lemma iface_info t info i : get_type_info env c t = EOk info -> deref_type t = TIface i -> exists ii, info = TIFace ii /\ ii_id ii = i.
  Proof.
    intros Hg Hd. pose proof (gti_minfo _ _ _ _ (sane_run env h) Hg) as Hi. destruct info as [ci|ii].
    - destruct Hi as [Hi Hok]. exfalso. destruct (info_ok_parts _ _ Hok) as (K & _). rewrite Hi, Hd in K. discriminate.
    - exists ii. split; [reflexivity|]. pose proof (minfo_type _ _ _ _ Hi) as Q. rewrite Hd in Q. cbn in Q. injection Q as ->. reflexivity.
  Qed.
  Theorem iface_written m t info i v ct cv ad o bz : get_type_info env c t = EOk info -> deref_type t = TIface i ->
    under v = Some (VIface (Some (ct, cv))) -> encode_json m env je c info v ad o = EOk bz ->
    exists t0 name x cinfo body, In (t0, name) (conc_calls h) /\ conc_of t0 = deref_type ct /\ under cv = Some x /\
      get_type_info env c (deref_type ct) = EOk cinfo /\
      encode_json (pred m) env je c cinfo x (val_is_ptr cv) o = EOk body /\
      bz = bs "{""type"":""" ++ name ++ bs """,""value"":" ++ body ++ bs "}".
  Proof.
    intros Hg Hd Hu H. pose proof (wf_history env h Hc) as Wc. pose proof (sane_run env h) as Hs.
    destruct (iface_info t info i Hg Hd) as (ii & -> & Hii). destruct m as [|m]; [discriminate|].
    rewrite (enc_step env je c m (TIFace ii) v (VIface (Some (ct, cv))) ad o ltac:(intros ->; discriminate) Hu) in H. unfold enc_base in H. cbn [ti_type] in H. cbn [marshal_override] in H.
    unfold json_switch in H. cbn [ti_type resolve] in H. unfold json_interface in H. rewrite deref_pointers_under in H.
    destruct (under cv) as [x|] eqn:U; [|discriminate].
    assert (H' : ebind (get_type_info env c (deref_type ct)) (fun info => match info with
      | TIConc ci => match ci_reg ci with None => EErr "cannot encode unregistered concrete type"%string
        | Some r => ebind (encode_json m env je c info x (val_is_ptr cv) o) (fun b => EOk (wrap_name (ri_name r) b)) end
      | TIFace _ => EErr "cannot encode unregistered concrete type"%string end) = EOk bz) by (destruct x; try exact H; discriminate).
    clear H. einv H'. rename a into cinfo. destruct cinfo as [ci|]; [|discriminate]. destruct (ci_reg ci) as [r|] eqn:Er; [|discriminate].
    einv H'. rename a into body. apply EOk_inj in H'. pose proof (registered_info _ _ _ _ _ Wc Hs E Er) as Hin.
    destruct (registered_form ci r Hin Er) as (t0 & Hcall & Hconc & _). pose proof (gti_minfo _ _ _ _ Hs E) as [Hty _]. rewrite deref_idem in Hty.
    exists t0, (ri_name r), x, (TIConc ci), body. split; [exact Hcall|]. split; [congruence|]. split; [reflexivity|]. split; [exact E|]. split; [exact E0|].
    rewrite <- H'. reflexivity.
  Qed.
  Theorem iface_read m t info i bz v0 v o : get_type_info env c t = EOk info -> deref_type t = TIface i ->
    decode_json m env je c bz info t v0 o = EOk v -> bz <> bs "null" ->
    exists w x w' l name data t0 cinfo cv, bz = w ++ x ++ w' /\ spaces w /\ spaces w' /\ jobject l x /\
      string_member (bs "type") l name /\ text_member (bs "value") l data /\ In (t0, name) (conc_calls h) /\ te_impl env t0 i = true /\
      get_type_info env c (conc_of t0) = EOk cinfo /\
      decode_json (pred m) env je c data cinfo (conc_of t0) (zero env (conc_of t0)) o = EOk cv /\
      v = VIface (Some (t0, if is_ptr t0 then VPtr (Some cv) else cv)).
  Proof.
    intros Hg Hd H Nb. pose proof (wf_history env h Hc) as Wc.
    destruct (iface_info t info i Hg Hd) as (ii & -> & Hii). destruct m as [|m]; [discriminate|]. cbn [decode_json] in H.
    assert (t = TIface i) as -> by (destruct t; try discriminate; exact Hd). cbn [deref_type] in H. rewrite (beqb_false bz null Nb) in H. cbv iota in H.
    einv H. apply EOk_inj in H. unfold rebuild in H. cbn in H. subst a.
    unfold unjson_switch in E. cbn [ti_type resolve] in E. unfold unjson_interface in E. einv E. destruct a as [name data]. cbn [fst snd] in E.
    destruct (wrapper_sound _ _ _ E0) as (w & x & w' & l & Eb & S1 & S2 & O & M1 & M2 & _). einv E. rename a into ci.
    unfold type_info_from_name in E1. destruct (assoc beqb name (cd_names c)) as [ci'|] eqn:An; [|discriminate]. apply EOk_inj in E1. subst ci'.
    apply (wc_names _ _ Wc) in An. destruct An as [Hin Hnm]. unfold ci_name in Hnm. destruct (ci_reg ci) as [r|] eqn:Er; [|discriminate]. injection Hnm as <-.
    destruct (registered_form ci r Hin Er) as (t0 & Hcall & Hconc & Hp & Ht0 & _).
    destruct (decode_json m env je c data (TIConc ci) (ci_type ci) (zero env (ci_type ci)) o) as [cv| | |] eqn:D; try discriminate.
    - rewrite <- Ht0, Hii in E. destruct (te_impl env t0 i) eqn:I; [|discriminate]. apply EOk_inj in E. rewrite <- Hp in E.
      exists w, x, w', l, (ri_name r), data, t0, (TIConc ci), cv. rewrite Hconc. repeat (split; [assumption || reflexivity|]).
      split; [|split; [exact D|symmetry; exact E]].
      destruct (proj1 (wc_conc _ _ Wc ci) Hin) as [Ha _]. destruct (wc_types _ _ Wc _ _ Ha) as [_ Hok]. destruct (info_ok_parts _ _ Hok) as (K & _).
      rewrite get_type_info_conc by exact K. fold c in Ha. rewrite Ha. reflexivity.
    - destruct (te_impl _ _ _); discriminate.
  Qed.
  (** What is decoded when the name is that of a registered implementation. *)
  Theorem iface_resolves m i info t0 name body v0 o : get_type_info env c (TIface i) = EOk info -> In (t0, name) (conc_calls h) -> te_impl env t0 i = true ->
    unescaped name = true -> name <> [] -> jtext body ->
    exists cinfo, get_type_info env c (conc_of t0) = EOk cinfo /\
      decode_json (S m) env je c (wrap_name name body) info (TIface i) v0 o =
      ebind (decode_json m env je c body cinfo (conc_of t0) (zero env (conc_of t0)) o) (fun cv =>
        EOk (VIface (Some (t0, if is_ptr t0 then VPtr (Some cv) else cv)))).
  Proof.
    intros Hg Hcall Hi Hn Hne Hb. pose proof (wf_history env h Hc) as Wc. destruct (iface_info _ _ i Hg eq_refl) as (ii & -> & Hii).
    pose proof (proj1 (call_registration t0 name) Hcall) as R.
    destruct (registration_info env c Wc _ _ _ R) as (ci & r & Hin & Hty & Hr & Hnm & Hp & Hgi & Hfn & _).
    exists (TIConc ci). split; [exact Hgi|]. destruct (unescaped_ok name Hn) as [U1 U2]. cbn [decode_json deref_type].
    rewrite (beqb_false (wrap_name name body) null) by (unfold wrap_name; discriminate). cbv iota. unfold unjson_switch. cbn [ti_type resolve]. unfold unjson_interface.
    rewrite wrapper_ok by assumption. cbn [ebind fst snd]. rewrite Hfn. cbn [ebind]. rewrite Hr, Hp, Hii, Hty.
    assert (T0 : (if is_ptr t0 then TPtr (conc_of t0) else conc_of t0) = t0) by (destruct t0; reflexivity). rewrite T0, Hi.
    destruct (decode_json m env je c body (TIConc ci) (conc_of t0) (zero env (conc_of t0)) o) as [cv|e|e|]; cbn [ebind]; reflexivity.
  Qed.
  Theorem iface_unknown m i info name body v0 o : get_type_info env c (TIface i) = EOk info -> (forall t0, ~ In (t0, name) (conc_calls h)) ->
    unescaped name = true -> name <> [] -> jtext body ->
    exists e, decode_json (S m) env je c (wrap_name name body) info (TIface i) v0 o = EErr e.
  Proof.
    intros Hg Hno Hn Hne Hb. pose proof (wf_history env h Hc) as Wc. destruct (iface_info _ _ i Hg eq_refl) as (ii & -> & Hii).
    destruct (unescaped_ok name Hn) as [U1 U2]. cbn [decode_json deref_type].
    rewrite (beqb_false (wrap_name name body) null) by (unfold wrap_name; discriminate). cbv iota. unfold unjson_switch. cbn [ti_type resolve]. unfold unjson_interface.
    rewrite wrapper_ok by assumption. cbn [ebind fst snd]. unfold type_info_from_name. destruct (assoc beqb name (cd_names c)) as [ci|] eqn:An; [|cbn [ebind]; eexists; reflexivity].
    exfalso. apply (wc_names _ _ Wc) in An. destruct An as [Hin Hnm]. unfold ci_name in Hnm. destruct (ci_reg ci) as [r|] eqn:Er; [|discriminate]. injection Hnm as <-.
    destruct (registered_form ci r Hin Er) as (t0 & Hcall & _). exact (Hno t0 Hcall).
  Qed.
  (** A registered type at the top level. *)
  Lemma top_info t0 name t : In (t0, name) (conc_calls h) -> conc_of t0 = deref_type t ->
    exists ci r, get_type_info env c t = EOk (TIConc ci) /\ ci_reg ci = Some r /\ ri_name r = name.
  Proof.
    intros Hcall Ht. pose proof (wf_history env h Hc) as Wc. pose proof (proj1 (call_registration t0 name) Hcall) as R.
    destruct (registration_info env c Wc _ _ _ R) as (ci & r & _ & _ & Hr & Hnm & _ & Hgi & _). rewrite Ht in Hgi.
    rewrite get_type_info_deref in Hgi. exists ci, r. split; [exact Hgi|]. split; assumption.
  Qed.
  Theorem top_read m t v0 v bz t0 name : In (t0, name) (conc_calls h) -> conc_of t0 = deref_type t -> unmarshal_json m env je c bz t v0 = EOk v ->
    exists w x w' l data, bz = w ++ x ++ w' /\ spaces w /\ spaces w' /\ jobject l x /\ string_member (bs "type") l name /\ text_member (bs "value") l data.
  Proof.
    intros Hcall Ht H. destruct (top_info t0 name t Hcall Ht) as (ci & r & Hg & Hr & Hnm). unfold unmarshal_json in H.
    destruct bz as [|b0 bz']; [discriminate|]. remember (b0 :: bz') as bz eqn:Eb. clear Eb. rewrite Hg in H. cbn [ebind] in H.
    destruct ci as [ct cf cm cu cr]. cbn in Hr. rewrite Hr in H. einv H. destruct a as [n d]. cbn [fst snd] in H.
    destruct (beqb n (ri_name r)) eqn:B; [|discriminate]. apply beqb_eq in B. rewrite Hnm in B. subst n.
    destruct (wrapper_sound _ _ _ E) as (w & x & w' & l & A1 & A2 & A3 & A4 & A5 & A6 & _). exists w, x, w', l, d. repeat (split; [assumption|]). exact A6.
  Qed.
  Theorem top_written m t v bz t0 name : In (t0, name) (conc_calls h) -> conc_of t0 = deref_type t -> marshal_json m env je c t v = EOk bz ->
    exists body, bz = bs "{""type"":""" ++ name ++ bs """,""value"":" ++ body ++ bs "}".
  Proof.
    intros Hcall Ht H. pose proof (wf_history env h Hc) as Wc. unfold marshal_json in H. einv H. einv H. rename a into info. rename a0 into b.
    pose proof (proj1 (call_registration t0 name) Hcall) as R.
    destruct (registration_info env c Wc _ _ _ R) as (ci & r & Hin & Hty & Hr & Hnm & Hp & Hgi & Hfn & _). rewrite Ht in Hgi.
    rewrite get_type_info_deref in Hgi. rewrite Hgi in E. apply EOk_inj in E. subst info. destruct ci as [ct cf cm cu cr]. cbn in Hr. rewrite Hr in H. apply EOk_inj in H. subst bz. exists b. rewrite Hnm. reflexivity.
  Qed.
End Iface.
