(** Whatever Unmarshal reads, Marshal can write. *)
From Coq Require Import ZArith String List Bool Lia.
From Coq Require Import ZifyBool ZifyNat.
From Verif Require Import Base Prims SpecWire PrimFacts PrimProps Types Codec BinEnc BinDec Amino FuelFacts DecFacts DecProps
  ValueInd Typing Registry SpecRegistry RegistryFacts Sane DecSafe SpecNorm EncFacts RoundTrip TopFacts SpecSupported SupportedFacts SpecWritable WritableFacts SturdyFacts SpecEcho.
Import ListNotations.
Local Open Scope Z_scope.
Local Open Scope amino_scope.

Definition noerr {A} (r : eres A) : Prop := match r with EErr _ => False | _ => True end.
Lemma noerr_bind {A B} (r : eres A) (f : A -> eres B) : noerr r -> (forall x, r = EOk x -> noerr (f x)) -> noerr (ebind r f).
Proof. destruct r; cbn; auto. Qed.
Lemma noerr_ok {A} (r : eres A) : okb r = true -> noerr r.
Proof. destruct r; cbn; auto; discriminate. Qed.
Lemma noerr_key num typ : noerr (encode_field_key num typ).
Proof. unfold encode_field_key. destruct (negb _); [exact I|]. destruct (_ <? _); exact I. Qed.

Section E.
  Variable env : tenv.
  Hypothesis We : wf_env env.
  Variable c : codec.
  Hypothesis Wc : wf_codec env c.
  Hypothesis Hs : sane_codec env c.
  Hypothesis Hm : marshal_typed env.
  Variables mem calm : gotype -> bool.
  Variable rank : gotype -> nat.
  Hypothesis Hst : sturdy env mem rank.
  Hypothesis Hec : echoes env c mem calm.
  Notation snd_ok := (sendable c mem).
  Notation E k := (encode_reflect k env c).

  Lemma snd_under v : forall w, under v = Some w -> snd_ok v = true -> snd_ok w = true.
  Proof. clear. induction v using value_ind'; intros w; cbn [under]; try (intros X; inversion X; subst; auto); try discriminate. Qed.
  Lemma snd_wrap t : forall v, snd_ok v = true -> snd_ok (wrap_ptrs t v) = true.
  Proof. clear. induction t; intros v H; cbn [wrap_ptrs]; auto. cbn. auto. Qed.
  Lemma snd_zero t : snd_ok (zero env t) = true.
  Proof.
    apply (zero_ind env (fun t v => snd_ok v = true) We); try reflexivity.
    - destruct p; reflexivity.
    - intros n e H. cbn [sendable]. apply forallb_forall. intros x Hx. pose proof (repeat_spec _ _ _ Hx) as ->. apply H; [reflexivity|]. destruct n; [destruct Hx|lia].
    - intros id fs Hd H. cbn [sendable]. apply forallb_forall. intros x Hx. apply in_map_iff in Hx. destruct Hx as (f & <- & Hf). apply H. exact Hf.
    - intros id t' Hd _ H. exact H.
  Qed.
  Lemma snd_default t : snd_ok (default_value env t) = true.
  Proof. unfold default_value. destruct (deref_type t); try apply snd_zero. apply snd_wrap. reflexivity. Qed.
  Lemma registered_conc t : is_registered c t = true -> exists ci, In ci (cd_concretes c) /\ ci_type ci = t.
  Proof.
    clear. unfold is_registered, registered. destruct (find _ _) as [ci|] eqn:F; [|discriminate]. intros _.
    apply find_some in F. destruct F as [F1 F2]. apply gotype_eqb_eq in F2. exists ci. auto.
  Qed.
  Lemma registered_noniface t : is_registered c t = true -> is_iface t = false.
  Proof.
    intros H. destruct (registered_conc t H) as (ci & Hi & <-). destruct (sa_conc _ _ Hs ci Hi) as [Ho _]. destruct (info_ok_parts _ _ Ho) as (Hk & _).
    destruct (ci_type ci); try reflexivity; discriminate.
  Qed.
  Lemma snd_firm v : snd_ok v = true -> firm mem v = true.
  Proof.
    induction v using value_ind'; intros U; try reflexivity; cbn [sendable firm] in *.
    all: try (rewrite forallb_forall in *; rewrite Forall_forall in *; auto).
    - apply IHv, U.
    - rewrite !andb_true_iff in U. destruct U as [[[H1 H2] H3] H4]. rewrite H1, H3, (IHv H4), (registered_noniface _ H2). reflexivity.
  Qed.

  (** ** Writing *)
  Lemma mem_known t : mem (deref_type t) = true -> exists info, get_type_info env c t = EOk info.
  Proof.
    intros H. destruct (Hec _ H) as [K _]. unfold known in K. rewrite gti_deref in K. destruct (get_type_info env c t); try discriminate. eexists; reflexivity.
  Qed.
  Definition open (o : fopts) (t : gotype) : Prop := fo_empty_elements o = false /\ (fo_unsafe o = true \/ calm t = true).
  Lemma open_num n o t : open o t -> open (set_num n o) t.
  Proof. clear. intros H. exact H. Qed.
  Definition ne_ok (rec : tinfo -> value -> fopts -> bool -> eres bytes) : Prop := forall info t v o bare, minfo env c info t -> deref_type t = t -> mem t = true ->
    has_type env t v = true -> snd_ok v = true -> open o t -> noerr (rec info v o bare).

  Section Step.
    Variable rec : tinfo -> value -> fopts -> bool -> eres bytes.
    Hypothesis IH : ne_ok rec.

    Lemma packed_ne e einfo o : minfo env c einfo e -> mem (deref_type e) = true -> open o (deref_type e) ->
      forall l, forallb (has_type env e) l = true -> forallb snd_ok l = true -> noerr (encode_packed env rec e einfo l o).
    Proof.
      intros Hi Hmem Ho. induction l as [|v l IHl]; intros Ht Hv; [exact I|]. cbn [forallb encode_packed] in *. apply andb_true_iff in Ht, Hv. destruct Ht as [Ht1 Ht2], Hv as [Hv1 Hv2].
      apply noerr_bind; [|intros b _; apply noerr_bind; [apply IHl; assumption|intros; exact I]].
      rewrite deref_zero_under. eapply IH; [apply minfo_deref; exact Hi|apply deref_idem|exact Hmem|apply packed_typed; assumption| |exact Ho].
      destruct (under v) as [w|] eqn:U; [eapply snd_under; eassumption|apply snd_zero].
    Qed.
    Lemma unpacked_ne e einfo o : minfo env c einfo e -> mem (deref_type e) = true -> open o (deref_type e) ->
      forall l, forallb (has_type env e) l = true -> forallb snd_ok l = true -> noerr (encode_unpacked env rec e einfo l o).
    Proof.
      intros Hi Hmem Ho. induction l as [|v l IHl]; intros Ht Hv; [exact I|]. cbn [forallb encode_unpacked] in *. apply andb_true_iff in Ht, Hv. destruct Ht as [Ht1 Ht2], Hv as [Hv1 Hv2].
      apply noerr_bind; [apply noerr_key|]. intros key _. rewrite default_pair. apply noerr_bind; [|intros b _; apply noerr_bind; [apply IHl; assumption|intros; exact I]].
      destruct (defaultv v) eqn:D; [rewrite (proj1 Ho), andb_false_r; exact I|]. destruct (under v) as [w|] eqn:U; [|apply under_default in U; congruence].
      eapply IH; [apply minfo_deref; exact Hi|apply deref_idem|exact Hmem|eapply under_typed; eassumption|eapply snd_under; eassumption|exact Ho].
    Qed.
    Lemma list_ne info t v o bare e : minfo env c info t -> deref_type t = t -> has_type env t v = true -> snd_ok v = true ->
      elem_type env t = Some e -> is_uint8 env e = false -> mem (deref_type e) = true -> open o (deref_type e) ->
      noerr (encode_list env c rec info v o bare).
    Proof.
      intros Hi Hd Ht Hv Ee Eu Hmem Ho. pose proof (minfo_type _ _ _ _ Hi) as Ety. rewrite Hd in Ety.
      assert (El : exists l, list_elems v = Some l /\ forallb snd_ok l = true).
      { unfold elem_type in Ee. destruct v as [| | | | | |l0|[l0|]| | | | | | |]; cbn [has_type] in Ht; destruct (resolve env t) as [[]| | | | | | | | | |]; try discriminate Ht; try discriminate Ee;
          cbn [list_elems sendable] in *; (eexists; split; [reflexivity|]; try exact Hv; reflexivity). }
      destruct El as (l & El & Hvl). pose proof (elem_typed _ _ _ _ _ Ee Ht El) as Hl.
      assert (G : noerr (elet einfo := get_type_info env c e in
             elet typ3 := type_to_typ3 env (ti_type einfo) o in
             match list_elems v with
             | Some l => elet buf := (if negb (typ3 =? Typ3ByteLength) then encode_packed env rec e einfo l o else encode_unpacked env rec e einfo l o) in EOk (finish bare buf)
             | None => EPanic "reflect: call on wrong kind"%string
             end)).
      { destruct (mem_known e Hmem) as [einfo Eg]. rewrite Eg. pose proof (gti_minfo _ _ _ _ Hs Eg) as Hie. cbn [ebind]. rewrite (minfo_type _ _ _ _ Hie).
        destruct (fin_typ3 env mem rank Hst (deref_type e) o Hmem) as [z Hz]. rewrite Hz, El. cbn [ebind].
        apply noerr_bind; [|intros; exact I]. destruct (negb _); [apply packed_ne|apply unpacked_ne]; assumption. }
      unfold encode_list. rewrite Ety. unfold elem_type in Ee. destruct (resolve env t); try discriminate Ee; inversion Ee; subst e0; rewrite Eu; exact G.
    Qed.
    Definition open_elem (t : gotype) (o : fopts) : Prop :=
      forall e, elem_type env t = Some e -> is_uint8 env e = false -> mem (deref_type e) = true /\ open o (deref_type e).
    Lemma field_ne f v : has_type env (fi_type f) v = true -> snd_ok v = true -> fi_unpacked f = entries env (fi_type f) -> mem (deref_type (fi_type f)) = true ->
      open (fi_opts f) (deref_type (fi_type f)) -> open_elem (fi_type f) (fi_opts f) -> fo_write_empty (fi_opts f) && is_ptr (fi_type f) = false ->
      noerr (encode_field env c rec f v).
    Proof.
      intros Ht Hv Hup Hmem Ho Hoe Hw. unfold encode_field. destruct (mem_known _ Hmem) as [info Eg]. rewrite Eg. pose proof (gti_minfo _ _ _ _ Hs Eg) as Hi. cbn [ebind]. rewrite default_pair, Hup.
      destruct (defaultv v && negb (fo_write_empty (fi_opts f))) eqn:Dd; [exact I|]. destruct (entries env (fi_type f)) eqn:En.
      - destruct (entries_elem _ _ En) as (e & Ee & Ed & Eu). pose proof (elem_nonptr _ _ _ Ee) as Np. rewrite (under_nonptr env _ _ Ht Np We).
        destruct (Hoe e Ee Eu) as [Hme Hopen]. eapply list_ne; try eassumption. apply deref_nonptr, Np.
      - destruct (under v) as [w|] eqn:U.
        + unfold write_field. rewrite (minfo_type _ _ _ _ Hi). destruct (fin_typ3 env mem rank Hst _ (fi_opts f) Hmem) as [z Hz]. rewrite Hz. cbn [ebind].
          apply noerr_bind; [apply noerr_key|]. intros key _. apply noerr_bind; [|intros b _; destruct (negb _ && beqb b [0]); exact I].
          eapply IH; [apply minfo_deref; exact Hi|apply deref_idem|exact Hmem|eapply under_typed; eassumption|eapply snd_under; eassumption|exact Ho].
        + exfalso. pose proof U as U'. apply under_default in U. rewrite U in Dd. cbn [andb] in Dd. apply negb_false_iff in Dd. rewrite Dd in Hw. cbn [andb] in Hw.
          rewrite (under_nonptr env _ _ Ht Hw We) in U'. discriminate.
    Qed.
    Lemma fields_ne : forall fs i num infos pre l n, parse_fields env fs i num = EOk infos -> length pre = i ->
      forall2b (fun f w => has_type env (sf_type f) w) fs l = true -> forallb snd_ok l = true -> forallb (echo_field env mem calm) fs = true ->
      sturdy_fields env mem rank n (Z.of_nat num + 1) fs = true ->
      noerr (encode_fields env c rec infos (pre ++ l)).
    Proof.
      induction fs as [|f fs IHf]; intros i num infos pre l n Hp Hl Ht Hv He Hsf; destruct l as [|v l]; try discriminate Ht.
      - cbn in Hp. apply EOk_inj in Hp. subst infos. exact I.
      - cbn [forall2b forallb] in Ht, Hv, He. apply andb_true_iff in Ht, Hv, He. destruct Ht as [Ht1 Ht], Hv as [Hv1 Hv], He as [He1 He].
        apply parse_step in Hp. cbn [sturdy_fields] in Hsf.
        assert (A : pre ++ v :: l = (pre ++ [v]) ++ l) by (rewrite <- app_assoc; reflexivity).
        assert (Lp : length (pre ++ [v]) = S i) by (rewrite app_length; cbn; lia).
        destruct (field_opts (Z.of_nat num + 1) f) as [o|] eqn:Eo; [|rewrite A; eapply IHf; eassumption].
        destruct Hp as (fi & rest & -> & Hix & Hty & Hup & Hop & _ & Hrest). rewrite !andb_true_iff in Hsf. destruct Hsf as [[Hnum Hsf] Hss].
        replace (Z.of_nat num + 1 + 1) with (Z.of_nat (S num) + 1) in Hss by lia.
        assert (Fl : exists po, parse_field_options f = Some po /\ field_opts 1 f = Some (set_num 1 po) /\ fo_unsafe (fi_opts fi) = fo_unsafe po /\ fo_empty_elements (fi_opts fi) = fo_empty_elements po /\
                     fo_write_empty (fi_opts fi) = fo_write_empty po /\ fo_write_empty o = fo_write_empty po).
        { unfold field_opts in *. destruct (sf_exported f); [|discriminate]. destruct (parse_field_options f) as [po|]; [|discriminate]. cbn [option_map] in Eo. injection Eo as <-.
          exists po. rewrite Hop. repeat apply conj; reflexivity. }
        destruct Fl as (po & _ & Ef & F1 & F2 & F3 & F4). unfold echo_field in He1. rewrite Ef in He1. cbn [set_num fo_empty_elements fo_unsafe] in He1.
        rewrite !andb_true_iff, orb_true_iff, negb_true_iff in He1. destruct He1 as [[[E1 E2] E3] E4].
        unfold sturdy_field in Hsf. rewrite !andb_true_iff, negb_true_iff in Hsf. destruct Hsf as [[_ Hwe] _].
        cbn [encode_fields]. rewrite Hix. replace (nth i (pre ++ v :: l) VInvalid) with v by (rewrite <- Hl; symmetry; apply nth_mid).
        apply noerr_bind; [|intros b _; apply noerr_bind; [rewrite A; eapply IHf; eassumption|intros; exact I]].
        apply field_ne; rewrite ?Hty; try assumption.
        + split; [rewrite F2; exact E2|rewrite F1; exact E3].
        + intros e Ee Eu. unfold elem_type in Ee.
          assert (X : is_uint8 env e || mem (deref_type e) && (fo_unsafe po || calm (deref_type e)) = true) by (destruct (resolve env (sf_type f)); try discriminate Ee; injection Ee as ->; exact E4).
          rewrite Eu in X. cbn [orb] in X. rewrite andb_true_iff, orb_true_iff in X. destruct X as [X1 X2]. split; [exact X1|]. split; [rewrite F2; exact E2|rewrite F1; exact X2].
        + rewrite F3, <- F4. exact Hwe.
    Qed.
  End Step.

  Theorem encode_ne : forall k, ne_ok (E k).
  Proof.
    induction k as [|k IH]; intros info t v o bare Hi Hd Hmem Ht Hv Ho; [exact I|].
    destruct (Hst t Hmem) as (_ & _ & Hme). destruct (Hec t Hmem) as (_ & Hem). pose proof (minfo_type _ _ _ _ Hi) as Ety. rewrite Hd in Ety.
    assert (P : sturdy_plain env mem rank t -> echo_plain env c mem calm t -> noerr (encode_switch env c (E k) (S k) info v o bare)).
    { intros Hpl Hep. unfold sturdy_plain in Hpl. unfold echo_plain in Hep. unfold encode_switch. rewrite Ety.
      assert (LE : forall e, elem_type env t = Some e -> is_uint8 env e = false -> echo_list env mem e = true -> (calm t = true -> is_uint8 env e || calm (deref_type e) = true) ->
          noerr (encode_list env c (E k) info v o bare)).
      { intros e Ee Eu El Hc. unfold echo_list in El. rewrite Eu in El, Hc. cbn [orb] in El, Hc. apply andb_true_iff in El.
        eapply (list_ne (E k) IH); try eassumption; [apply El|]. destruct Ho as [O1 [O2|O2]]; split; auto. }
      assert (LL : forall e, is_uint8 env e = false -> is_list env e = true -> echo_list env mem e = true -> multidim_bytes (S k) env e = None \/ multidim_bytes (S k) env e = Some true).
      { intros e Eu El Hl. unfold echo_list, is_list in *. rewrite Eu in Hl. cbn [orb] in Hl. apply andb_true_iff in Hl. destruct Hl as [_ Hl]. cbn [multidim_bytes].
        destruct (resolve env e) as [| |n0 e2|e2| | | | | | |] eqn:Er; try discriminate El; (destruct k as [|k']; [left; reflexivity|right]; cbn [multidim_bytes]; unfold is_uint8 in Hl;
          destruct (resolve env e2) as [[]| | | | | | | | | |]; try discriminate Hl; reflexivity). }
      destruct (resolve env t) as [p| |len e|e| | | | |i|fs|] eqn:Er; try contradiction.
      - rewrite (has_type_prim env t p v Er) in Ht. destruct p, v; try discriminate Ht; try exact I; cbn [encode_prim]; destruct Ho as [_ [Ho|Ho]]; try congruence; rewrite Ho; exact I.
      - destruct info as [ci|ii]; [|exfalso; destruct Hi as [_ Hi]; rewrite Hd in Hi; rewrite Hi in Er; discriminate Er].
        cbn [ti_type] in Ety. unfold encode_struct. rewrite Ety, Er. destruct v; cbn [has_type] in Ht; rewrite Er in Ht; try discriminate Ht; try (destruct p; discriminate Ht).
        cbn [sendable] in Hv. pose proof (okb_time s ns) as O. rewrite Hv in O.
        assert (R : 0 <= ns <= 999999999) by (unfold time_ok in Hv; lia). specialize (O R). destruct (encode_time s ns) as [[b [e|]]| | |]; try discriminate O. exact I.
      - destruct (is_uint8 env e) eqn:Eu; [destruct v; cbn [has_type] in Ht; rewrite Er in Ht; try discriminate Ht; exact I|].
        change (is_list_kind env e) with (is_list env e). destruct (is_list env e) eqn:El.
        + destruct (LL e Eu El (proj1 Hep)) as [->| ->]; exact I.
        + apply (LE e); try assumption; [unfold elem_type; rewrite Er; reflexivity|apply Hep|rewrite Eu; apply Hep].
      - destruct (is_uint8 env e) eqn:Eu; [destruct v as [| | | | | | |[l0|]| | | | | | |]; cbn [has_type] in Ht; rewrite Er in Ht; try discriminate Ht; exact I|].
        change (is_list_kind env e) with (is_list env e). destruct (is_list env e) eqn:El.
        + destruct (LL e Eu El (proj1 Hep)) as [->| ->]; exact I.
        + apply (LE e); try assumption; [unfold elem_type; rewrite Er; reflexivity|apply Hep|rewrite Eu; apply Hep].
      - apply (resolve_iface _ _ _ We) in Er. clear LE LL. revert Ety. subst t. intros _. destruct info as [ci|ii].
        { exfalso. destruct Hi as [Hty Hio]. pose proof (conc_nonptr env ci Hio) as N. rewrite Hty in N. exact N. }
        destruct v as [| | | | | | | | | |[[ct cv]|]| | | |]; cbn [has_type resolve] in Ht; try discriminate Ht; [|exact I].
        cbn [sendable] in Hv. rewrite !andb_true_iff in Hv. destruct Hv as [[[Hf1 Hf2] Hf3] Hf4].
        unfold encode_interface. rewrite deref_pointers_under. destruct (under cv) as [w|] eqn:U; [|discriminate Hf3].
        apply andb_true_iff in Ht. destruct Ht as [Hi1 Hi2]. destruct (Hep ct Hi1 Hf2) as [_ Hcalm].
        assert (Hw : has_type env (deref_type ct) w = true) by (eapply under_typed; [eassumption| |eassumption]; destruct ct; try exact Hi2; discriminate).
        assert (G : noerr (elet info := get_type_info env c (deref_type ct) in
                match info with
                | TIConc ci =>
                    match ci_reg ci with
                    | None => EErr "cannot encode unregistered concrete type"%string
                    | Some r =>
                        let need := ii_always ii || (1 <? length match assoc beqb (ri_prefix r) (ii_impls ii) with Some l => l | None => [] end)%nat in
                        elet body := E k info w o true in
                        EOk (finish bare ((if need then 0 :: ri_disamb r else []) ++ ri_prefix r ++ body))
                    end
                | TIFace _ => EErr "cannot encode unregistered concrete type"%string
                end)).
        { pose proof (registered_iff env c Wc Hs (deref_type ct)) as R. rewrite deref_idem in R. unfold is_registered in Hf2.
          destruct (get_type_info env c (deref_type ct)) as [[ci|ii']| | |] eqn:Eg; cbn [ebind]; try exact I.
          - pose proof (gti_minfo _ _ _ _ Hs Eg) as Hi'. destruct (ci_reg ci) as [r|]; [|destruct (registered c (deref_type ct)); [exact (proj2 R ltac:(discriminate) eq_refl)|discriminate]].
            cbv zeta. apply noerr_bind; [|intros; exact I]. eapply (IH (TIConc ci) (deref_type ct)); try assumption; [apply deref_idem|eapply snd_under; eassumption|].
            destruct Ho as [O1 [O2|O2]]; split; auto.
          - destruct (registered c (deref_type ct)); [exact (proj2 R ltac:(discriminate))|discriminate].
          - destruct (registered c (deref_type ct)); [exact (proj2 R ltac:(discriminate))|discriminate]. }
        destruct w; try exact G; exact I.
      - destruct info as [ci|ii]; [|exfalso; destruct Hi as [_ Hi]; rewrite Hd in Hi; rewrite Hi in Er; discriminate Er].
        cbn [ti_type] in Ety. unfold encode_struct. rewrite Ety, Er. destruct v; cbn [has_type] in Ht; rewrite Er in Ht; try discriminate Ht; try (destruct p; discriminate Ht).
        destruct Hi as [Hty Hio]. destruct (info_ok_parts _ _ Hio) as (_ & Hpf & _). rewrite Ety in Hpf. unfold parse_struct_info in Hpf. rewrite Er in Hpf.
        cbn [sendable] in Hv. apply noerr_bind; [|intros; exact I].
        exact (fields_ne (E k) IH fs 0%nat 0%nat (ci_fields ci) [] l (rank t) Hpf eq_refl Ht Hv Hep Hpl). }
    assert (V : E (S k) info v o bare =
           match info with
           | TIConc {| ci_type := t; ci_marshal := Some r |} =>
              elet rv := to_repr env t v in elet rinfo := get_type_info env c r in E k rinfo rv o bare
           | _ => encode_switch env c (E k) (S k) info v o bare
           end).
    { assert (Np : is_ptr t = false) by (rewrite <- Hd; apply deref_is_ptr). cbn [encode_reflect]. destruct v; try reflexivity; exfalso; [apply ptr_typed in Ht; [congruence|exact We]|].
      cbn [has_type] in Ht. destruct (resolve env t) as [[]| | | | | | | | | |]; discriminate. }
    rewrite V. clear V. destruct info as [ci|ii].
    - destruct Hi as [Hty Hio]. rewrite Hd in Hty. pose proof (minfo_method _ _ _ Hty Hio) as M. destruct ci as [ct cf cm cu cr]. cbn [ci_type ci_marshal] in *.
      destruct cm as [r|].
      + destruct M as (id & f & -> & Ef & Er). rewrite Ef in Hme, Hem. destruct Hme as [(Nr & Hmr & _) _]. destruct Hem as [[Hcr Hfv] _]. subst ct.
        destruct (Hfv v Ht Hv) as (w & Ew & Hw). unfold to_repr. rewrite Ef, Ew. cbn [ebind].
        destruct (mem_known r) as [rinfo Eg]; [rewrite (deref_nonptr _ Nr); exact Hmr|]. rewrite Eg. cbn [ebind].
        apply (IH rinfo r); [apply gti_minfo; assumption|apply deref_nonptr, Nr|exact Hmr|eapply Hm; eassumption|exact Hw|]. destruct Ho as [O1 [O2|O2]]; split; auto.
      + apply P; [destruct t; try exact Hme|destruct t; try exact Hem]; [rewrite (M id eq_refl) in Hme; tauto|rewrite (M id eq_refl) in Hem; tauto].
    - destruct Hi as [Hi1 Hi]. rewrite Hd in Hi. rewrite Hi in Hme, Hem. apply P; rewrite Hi; assumption.
  Qed.

  (** ** Reading *)
  Definition good (t : gotype) (v : value) : Prop := has_type env t v = true /\ snd_ok v = true.
  Definition any : panicmsg -> Prop := fun _ => True.
  Definition reads (t : gotype) (r : dres value) : Prop := dspec (fun v _ e => e = None -> good t v) any True r.
  Lemma any_slide {A} (Q : A -> nat -> option error -> Prop) bz n k : dspec Q any True (k (skipn n bz)) -> dspec Q any True (slide bz n k).
  Proof. clear. intros H. unfold slide. destruct (_ <? _)%nat; [exact I|exact H]. Qed.
  Lemma good_zero t : good t (zero env t).
  Proof. split; [apply has_type_zero, We|apply snd_zero]. Qed.
  Lemma good_default t : good t (default_value env t).
  Proof. split; [apply has_type_default, We|apply snd_default]. Qed.
  Lemma good_wrap t v : good (deref_type t) v -> good t (wrap_ptrs t v).
  Proof. intros [H1 H2]. split; [apply has_type_wrap, H1|apply snd_wrap, H2]. Qed.
  Lemma good_base t : forall v, good t v -> good (deref_type t) (base_of env t v).
  Proof.
    intros v [H1 H2]. split; [apply has_type_base; assumption|]. clear H1. revert v H2. induction t; intros v H2; cbn [base_of]; try exact H2.
    apply IHt. destruct v as [| | | | | | | |[w|]| | | | | |]; try apply snd_zero. exact H2.
  Qed.
  Lemma prim_sendable t p v : resolve env t = RPrim p -> has_type env t v = true -> snd_ok v = true.
  Proof. clear. intros Er Ht. rewrite (has_type_prim env t p v Er) in Ht. destruct p, v; try discriminate Ht; reflexivity. Qed.
  Lemma safe_reads t r : (forall v, has_type env t v = true -> snd_ok v = true) -> safe env c t r -> reads t r.
  Proof.
    clear. intros H S. unfold safe, reads in *. destruct r; cbn [dspec] in *; try exact I. intros _. split; [exact S|apply H, S].
  Qed.

  Section Dec.
    Variable rec : bytes -> tinfo -> gotype -> value -> fopts -> bool -> dres value.
    Hypothesis Hrec : forall bz info t v0 o bare, bytes_ok bz -> mem (deref_type t) = true -> minfo env c info t -> good t v0 -> reads t (rec bz info t v0 o bare).

    Lemma reads_enter t v0 bare bz k : bytes_ok bz -> (forall b n0, bytes_ok b -> reads t (k b n0)) -> reads t (enter v0 bare bz k).
    Proof.
      clear. intros Hok H. unfold enter. destruct bare; [apply H; assumption|].
      destruct (decode_byte_slice_ret bz) as (b & n & e & E & Hn). rewrite E. cbn [dbind]. apply any_slide.
      destruct e as [e|]; [intros X; discriminate X|]. apply byte_slice_frame in E; [|assumption]. apply H. tauto.
    Qed.
    Lemma conc_registered ci : In ci (cd_concretes c) -> is_registered c (ci_type ci) = true.
    Proof.
      intros Hci. unfold is_registered, registered. destruct (find _ _) as [c0|] eqn:F.
      - apply find_some in F. destruct F as [F _]. apply (wc_conc env c Wc) in F. destruct F as [_ F]. destruct (ci_reg c0); [reflexivity|contradiction].
      - pose proof (find_none _ _ F ci Hci) as X. cbn beta in X. rewrite (proj2 (gotype_eqb_eq _ _) eq_refl) in X. discriminate X.
    Qed.
    Lemma reads_set_iface ii ci v n : In ci (cd_concretes c) -> mem (TIface (ii_id ii)) = true -> good (ci_type ci) v ->
      reads (TIface (ii_id ii)) (set_iface env ii ci v (fun r => DRet r n None)).
    Proof.
      intros Hci Hmi [Hv1 Hv2]. destruct (sa_conc _ _ Hs ci Hci) as [Hok Hreg]. destruct (info_ok_parts _ _ Hok) as (Hk & _).
      assert (D : deref_type (ci_type ci) = ci_type ci) by (destruct (ci_type ci); try reflexivity; discriminate).
      assert (R : is_registered c (ci_type ci) = true).
      { apply conc_registered, Hci. }
      assert (Un : under v = Some v) by (apply (under_nonptr env v (ci_type ci) Hv1); [destruct (ci_type ci); try reflexivity; discriminate|exact We]).
      destruct (Hec _ Hmi) as (_ & Hem). unfold echo_plain in Hem. cbn [resolve] in Hem.
      unfold set_iface. destruct (match ci_reg ci with Some r => ri_ptr r | None => false end);
        (destruct (te_impl env _ _) eqn:Ei; [|exact I]); intros _; (split; [cbn [has_type resolve]; rewrite Ei; cbn [andb]|cbn [sendable]]).
      - cbn [has_type resolve]. exact Hv1.
      - cbn [deref_type under]. rewrite D. destruct (Hem _ Ei) as [M _]; [cbn [deref_type]; rewrite D; exact R|]. cbn [deref_type] in M. rewrite D in M. rewrite M, R, Un. exact Hv2.
      - destruct (ci_type ci); try exact Hv1. discriminate.
      - rewrite D. destruct (Hem _ Ei) as [M _]; [rewrite D; exact R|]. rewrite D in M. rewrite M, R, Un. exact Hv2.
    Qed.

    Lemma reads_interface bz ii v0 o bare : bytes_ok bz -> In ii (cd_ifaces c) -> mem (TIface (ii_id ii)) = true ->
      reads (TIface (ii_id ii)) (decode_interface env c rec bz ii v0 o bare).
    Proof.
      intros Hok Hi Hmi. unfold decode_interface. destruct v0 as [| | | | | | | | | |[v|]| | | |]; try exact I.
      { intros X; discriminate X. }
      apply reads_enter; [assumption|]. intros b n0 Hb. unfold reads.
      destruct (disamb_ret b) as (dp & n1 & e & -> & Hn1 & _). cbn [dbind]. apply any_slide.
      destruct e as [e|]; [intros X; discriminate X|].
      assert (L : match (match fst dp with
                    | Some d => type_info_from_disfix c (to_disfix d (snd dp))
                    | None => type_info_from_prefix ii (snd dp)
                    end) with EOk ci => In ci (cd_concretes c) | EErr _ => True | _ => False end).
      { destruct (fst dp); [apply (lookup_disfix env c Wc)|apply (lookup_prefix env c Wc); assumption]. }
      destruct (match fst dp with
                    | Some d => type_info_from_disfix c (to_disfix d (snd dp))
                    | None => type_info_from_prefix ii (snd dp)
                    end) as [ci|e|p|]; cbn [eget]; try contradiction; [|intros X; discriminate X].
      cbv zeta. destruct (sa_conc _ _ Hs ci L) as [Hio Hreg]. destruct (info_ok_parts _ _ Hio) as (Hk & _).
      assert (D : deref_type (ci_type ci) = ci_type ci) by (destruct (ci_type ci); try reflexivity; discriminate).
      assert (Hgo : forall bz2 n2, bytes_ok bz2 ->
        reads (TIface (ii_id ii))
         (dbind (rec bz2 (TIConc ci) (ci_type ci) (zero env (ci_type ci)) o true) (fun v n3 e =>
                slide bz2 n3 (fun bz3 =>
                let n3 := (n2 + n3)%nat in
                match e with
                | Some e => set_iface env ii ci v (fun r => DRet r n3 (Some e))
                | None =>
                    match bz3 with
                    | _ :: _ => DRet (VIface None) n3 (Some "bytes left over after reading interface contents"%string)
                    | [] => set_iface env ii ci v (fun r => DRet r n3 None)
                    end
                end)))).
      { intros bz2 n2 Hok2. unfold reads.
        destruct (te_impl env (reg_form ci) (ii_id ii)) eqn:Ei.
        - assert (M : mem (ci_type ci) = true).
          { destruct (Hec _ Hmi) as (_ & Hem). unfold echo_plain in Hem. cbn [resolve] in Hem. destruct (Hem _ Ei) as [M _].
            - unfold reg_form. destruct (match ci_reg ci with Some r => ri_ptr r | None => false end); cbn [deref_type]; rewrite D; apply conc_registered; exact L.
            - unfold reg_form in M. destruct (match ci_reg ci with Some r => ri_ptr r | None => false end); cbn [deref_type] in M; rewrite D in M; exact M. }
          apply dspec_bind. eapply dspec_weaken; [apply Hrec; [assumption|rewrite D; exact M|cbn; rewrite D; auto|apply good_zero]|].
          cbn beta. intros v n e Hty. apply any_slide. cbv zeta.
          destruct e as [e|]; [unfold reg_form in Ei; unfold set_iface; destruct (match ci_reg ci with Some r => ri_ptr r | None => false end); rewrite Ei; intros X; discriminate X|].
          destruct (skipn n bz2); [apply reads_set_iface; auto | intros X; discriminate X].
        - destruct (rec bz2 (TIConc ci) (ci_type ci) (zero env (ci_type ci)) o true) as [v n e| |]; cbn [dbind]; try exact I. apply any_slide. cbv zeta.
          unfold reg_form in Ei. unfold set_iface. destruct (match ci_reg ci with Some r => ri_ptr r | None => false end); rewrite Ei; (destruct e; [exact I|]); (destruct (skipn n bz2); [exact I|intros X; discriminate X]). }
      destruct (wants_key env ci (skipn n1 b) o).
      - destruct (key_ret (skipn n1 b)) as (kt & nk & e & -> & Hnk & _). cbn [dbind].
        destruct e as [e|]; [intros X; discriminate X|]. destruct (negb _); [intros X; discriminate X|].
        destruct (type_to_typ3 env (ci_type ci) no_opts) as [z| | |]; cbn [eget]; try exact I; [|intros X; discriminate X].
        destruct (negb _); [intros X; discriminate X|]. apply any_slide. apply Hgo.
        do 2 apply bytes_ok_skipn. assumption.
      - apply Hgo. apply bytes_ok_skipn; assumption.
    Qed.

    Lemma bytes_sendable l : forallb snd_ok (bytes_val l) = true.
    Proof. clear. unfold bytes_val. induction l; [reflexivity|exact IHl]. Qed.
    Lemma reads_byte_array t bz len ert v0 : bytes_ok bz -> resolve env t = RArray len ert -> reads t (decode_byte_array bz len ert v0).
    Proof.
      clear. intros Hok Ht. unfold decode_byte_array, reads. destruct (length bz <? len)%nat; [intros X; discriminate X|].
      destruct (decode_byte_slice_ret bz) as (b & n & e & E & Hn). rewrite E. cbn [dbind]. apply any_slide.
      destruct e as [e|]; [intros X; discriminate X|]. apply byte_slice_frame in E; [|assumption].
      destruct (length b =? len)%nat eqn:El; cbn [negb]; [|intros X; discriminate X].
      destruct (gotype_eqb ert (TPrim PUint8)) eqn:Eg; [|exact I]. apply gotype_eqb_eq in Eg. subst ert. intros _. split; [|cbn [sendable]; apply bytes_sendable].
      cbn [has_type]. rewrite Ht.
      apply andb_true_iff. split; [unfold bytes_val; rewrite map_length; exact El|]. apply has_type_bytes. tauto.
    Qed.
    Lemma reads_byte_slice t bz ert v0 : bytes_ok bz -> resolve env t = RSlice ert -> reads t (decode_byte_slice_val bz ert v0).
    Proof.
      clear. intros Hok Ht. unfold decode_byte_slice_val, reads.
      assert (Z0 : good t (VSlice None)) by (split; [cbn; rewrite Ht; reflexivity|reflexivity]).
      destruct bz as [|b0 bz']; [intros _; exact Z0|]. set (bz := b0 :: bz') in *.
      destruct (decode_byte_slice_ret bz) as (b & n & e & E & Hn). rewrite E. cbn [dbind]. apply any_slide.
      destruct e as [e|]; [intros X; discriminate X|]. apply byte_slice_frame in E; [|assumption]. destruct b as [|x b]; [intros _; exact Z0|].
      destruct (gotype_eqb ert (TPrim PUint8)) eqn:Eg; [|exact I]. apply gotype_eqb_eq in Eg. subst ert. intros _. split; [|cbn [sendable]; apply bytes_sendable].
      cbn [has_type]. rewrite Ht. apply has_type_bytes. tauto.
    Qed.

    Definition all_good (t : gotype) (l : list value) : Prop := forall v, In v l -> good t v.
    Lemma ag_app t a b : all_good t a -> all_good t b -> all_good t (a ++ b).
    Proof. clear. intros A B v H. apply in_app_or in H. destruct H; auto. Qed.
    Lemma ag_one t x : good t x -> all_good t [x].
    Proof. clear. intros A v [<-|[]]. exact A. Qed.
    Lemma ag_cons t x l : good t x -> all_good t l -> all_good t (x :: l).
    Proof. clear. intros A B v [<-|H]; auto. Qed.
    Lemma ag_list t l : all_good t l -> forallb (has_type env t) l = true /\ forallb snd_ok l = true.
    Proof. clear. intros H. split; apply forallb_forall; intros v Hv; apply H; exact Hv. Qed.
    Lemma list_ag t l : forallb (has_type env t) l = true -> forallb snd_ok l = true -> all_good t l.
    Proof. clear. rewrite !forallb_forall. intros A B v H. split; auto. Qed.
    Lemma good_prefer ert v : good ert v -> good ert (prefer_nil env ert v).
    Proof. intros H. unfold prefer_nil. destruct (_ && _); [apply good_zero|exact H]. Qed.

    Lemma reads_array_packed einfo ert o : mem (deref_type ert) = true -> minfo env c einfo ert -> forall todo bz n done, bytes_ok bz ->
      all_good ert done -> all_good ert todo ->
      dspec (fun r n' e => e = None -> all_good ert (fst r) /\ length (fst r) = (length done + length todo)%nat) any True
            (decode_array_packed env rec bz n einfo ert o done todo).
    Proof.
      intros Hu Hmi. induction todo as [|w0 todo IH]; intros bz n done Hok Hd Ht; cbn [decode_array_packed].
      { intros _. split; [exact Hd|cbn [fst length]; lia]. }
      assert (Hw : good ert w0) by (apply Ht; left; reflexivity). assert (Ht' : all_good ert todo) by (intros v Hv; apply Ht; right; exact Hv).
      apply dspec_bind. eapply dspec_weaken; [apply Hrec; assumption|]. cbn beta. intros w k e Hty. apply any_slide.
      pose proof (bytes_ok_skipn k bz Hok). destruct e as [e|]; [intros X; discriminate X|].
      eapply dspec_weaken; [apply IH; [assumption| |assumption]; apply ag_app; [assumption|apply ag_one, good_prefer, Hty; reflexivity]|].
      cbn beta. intros r n' e' H1 He. destruct (H1 He) as [H2 H3]. split; [exact H2|]. rewrite H3, app_length. cbn [length]. lia.
    Qed.
    Lemma reads_array_unpacked einfo ert o : mem (deref_type ert) = true -> minfo env c einfo ert -> forall todo bz n done, bytes_ok bz ->
      all_good ert done -> all_good ert todo ->
      dspec (fun r n' e => e = None -> all_good ert (fst r) /\ length (fst r) = (length done + length todo)%nat) any True
            (decode_array_unpacked env rec bz n einfo ert o done todo).
    Proof.
      intros Hu Hmi. induction todo as [|w0 todo IH]; intros bz n done Hok Hd Ht; cbn [decode_array_unpacked].
      { intros _. split; [exact Hd|cbn [fst length]; lia]. }
      assert (Hw : good ert w0) by (apply Ht; left; reflexivity). assert (Ht' : all_good ert todo) by (intros v Hv; apply Ht; right; exact Hv).
      assert (Hn : forall w bz' n', good ert w -> bytes_ok bz' -> dspec (fun r _ e => e = None -> all_good ert (fst r) /\ length (fst r) = (length done + length (w0 :: todo))%nat) any True
            (decode_array_unpacked env rec bz' n' einfo ert o (done ++ [w]) todo)).
      { intros w bz' n' Hgw Hb'. eapply dspec_weaken; [apply IH; [assumption| |assumption]; apply ag_app; [assumption|apply ag_one, Hgw]|].
        cbn beta. intros r n'' e' H1 He. destruct (H1 He) as [H2 H3]. split; [exact H2|]. rewrite H3, app_length. cbn [length]. lia. }
      destruct (key_ret bz) as (kt & k & e & -> & Hk & _). cbn [dbind].
      destruct (negb _); [intros X; discriminate X|].
      destruct (negb _); [intros X; discriminate X|].
      apply any_slide. cbv zeta.
      pose proof (bytes_ok_skipn k bz Hok) as Hok1.
      destruct e as [e|]; [intros X; discriminate X|].
      set (bz1 := skipn k bz) in *.
      destruct (skip_empty env einfo ert o bz1).
      - apply Hn; [apply good_default|apply bytes_ok_skipn; assumption].
      - apply dspec_bind. eapply dspec_weaken; [apply Hrec; assumption|]. cbn beta. intros w k2 e Hty. apply any_slide.
        pose proof (bytes_ok_skipn k2 bz1 Hok1).
        destruct e as [e|]; [intros X; discriminate X|]. apply Hn; [apply Hty; reflexivity|assumption].
    Qed.
    Lemma reads_array t bz len ert v0 o bare : bytes_ok bz -> resolve env t = RArray len ert -> is_uint8 env ert = false -> mem (deref_type ert) = true ->
      good t v0 -> reads t (decode_array env c rec bz ert v0 o bare).
    Proof.
      intros Hok Ht Hu8 Hu [Hv Hsv]. unfold decode_array. rewrite Hu8. destruct v0; cbn [has_type] in Hv; rewrite Ht in Hv; try discriminate Hv.
      apply andb_true_iff in Hv. destruct Hv as [Hl Hv]. cbn [sendable] in Hsv. pose proof (list_ag _ _ Hv Hsv) as Ag.
      assert (T : forall l', all_good ert l' -> length l' = length l -> good t (VArr l')).
      { intros l' H1 H2. destruct (ag_list _ _ H1). split; [|assumption]. cbn [has_type]. rewrite Ht, H2, Hl. assumption. }
      unfold reads.
      destruct (get_type_info env c ert) as [einfo| | |] eqn:Eg; cbn [eget]; try exact I; [|intros X; discriminate X].
      pose proof (gti_minfo _ _ _ _ Hs Eg) as G.
      apply reads_enter; [assumption|]. intros b n0 Hb. unfold reads.
      destruct (type_to_typ3 env (ti_type einfo) o) as [z| | |]; cbn [eget]; try exact I; [|intros X; discriminate X].
      destruct (negb _); apply dspec_bind.
      - eapply dspec_weaken; [apply reads_array_packed; try assumption; intros ? []|]. cbn beta. intros [l' bz'] n e H1. cbn [fst snd] in *.
        destruct e as [e|]; [intros X; discriminate X|]. destruct (H1 eq_refl) as [H2 H3]. destruct bz'; [intros _; apply T; assumption|intros X; discriminate X].
      - eapply dspec_weaken; [apply reads_array_unpacked; try assumption; intros ? []|]. cbn beta. intros [l' bz'] n e H1. cbn [fst snd] in *.
        destruct e as [e|]; [intros X; discriminate X|]. destruct (H1 eq_refl) as [H2 H3]. destruct bz' as [|x bz']; [intros _; apply T; assumption|].
        destruct (key_ret (x :: bz')) as (kt & k & e & -> & Hk & _). cbn [dbind]. destruct e; [intros X; discriminate X|]. destruct (_ <=? _); intros X; try discriminate X; apply T; assumption.
    Qed.

    Lemma reads_slice_packed einfo ert o : mem (deref_type ert) = true -> minfo env c einfo ert -> forall k bz n done, bytes_ok bz -> all_good ert done ->
      dspec (fun r n' e => e = None -> all_good ert r) any True (decode_slice_packed env rec k bz n einfo ert o done).
    Proof.
      intros Hu Hmi. induction k as [|k IH]; intros bz n done Hok Hd; destruct bz as [|b0 bz']; cbn [decode_slice_packed];
        try (intros _; exact Hd); try exact I. set (bz := b0 :: bz') in *.
      apply dspec_bind. eapply dspec_weaken; [apply Hrec; try assumption; apply good_zero|]. cbn beta. intros w m e Hty. apply any_slide.
      pose proof (bytes_ok_skipn m bz Hok). destruct e as [e|]; [intros X; discriminate X|].
      apply IH; [assumption|]. apply ag_app; [assumption|]. apply ag_one, good_prefer, Hty. reflexivity.
    Qed.
    Lemma reads_slice_unpacked einfo ert o : mem (deref_type ert) = true -> minfo env c einfo ert -> forall k bz n done, bytes_ok bz -> all_good ert done ->
      dspec (fun r n' e => e = None -> all_good ert r) any True (decode_slice_unpacked env rec k bz n einfo ert o done).
    Proof.
      intros Hu Hmi. induction k as [|k IH]; intros bz n done Hok Hd; destruct bz as [|b0 bz']; cbn [decode_slice_unpacked];
        try (intros _; exact Hd); try exact I. set (bz := b0 :: bz') in *.
      destruct (key_ret bz) as (kt & m & e & -> & Hk & _). cbn [dbind].
      destruct (_ <? _); [intros _; exact Hd|]. destruct (_ <? _); [intros _; exact Hd|]. destruct (negb _); [intros X; discriminate X|].
      apply any_slide. cbv zeta. pose proof (bytes_ok_skipn m bz Hok) as Hok1. destruct e as [e|]; [intros X; discriminate X|].
      set (bz1 := skipn m bz) in *. destruct (skip_empty env einfo ert o bz1) eqn:Es.
      - apply IH; [apply bytes_ok_skipn; assumption|]. apply ag_app; [assumption|]. apply ag_one, good_default.
      - apply dspec_bind. eapply dspec_weaken; [apply Hrec; try assumption; apply good_zero|]. cbn beta. intros w k2 e Hty. apply any_slide.
        destruct e as [e|]; [intros X; discriminate X|].
        apply IH; [apply bytes_ok_skipn; assumption|]. apply ag_app; [assumption|]. apply ag_one, Hty. reflexivity.
    Qed.
    Lemma reads_slice t bz ert v0 o bare : bytes_ok bz -> resolve env t = RSlice ert -> is_uint8 env ert = false -> mem (deref_type ert) = true ->
      reads t (decode_slice env c rec bz ert v0 o bare).
    Proof.
      intros Hok Ht Hu8 Hu. unfold decode_slice. rewrite Hu8.
      assert (T : forall l', all_good ert l' -> good t (mk_slice l')).
      { intros l' H1. destruct (ag_list _ _ H1). unfold mk_slice. destruct l'; (split; [cbn [has_type]; rewrite Ht; (reflexivity || assumption)|(reflexivity || assumption)]). }
      unfold reads.
      destruct (get_type_info env c ert) as [einfo| | |] eqn:Eg; cbn [eget]; try exact I; [|intros X; discriminate X].
      pose proof (gti_minfo _ _ _ _ Hs Eg) as G.
      apply reads_enter; [assumption|]. intros b n0 Hb. unfold reads.
      destruct (type_to_typ3 env (ti_type einfo) o) as [z| | |]; cbn [eget]; try exact I; [|intros X; discriminate X].
      apply dspec_bind. destruct (negb _).
      - eapply dspec_weaken; [apply reads_slice_packed; try assumption; intros ? []|]. cbn beta. intros l n e H.
        destruct e; intros X; [discriminate X|apply T, H; reflexivity].
      - eapply dspec_weaken; [apply reads_slice_unpacked; try assumption; intros ? []|]. cbn beta. intros l n e H.
        destruct e; intros X; [discriminate X|apply T, H; reflexivity].
    Qed.

    Definition fields_good (fs : list sfield) (l : list value) : Prop :=
      fields_have env fs l /\ forallb snd_ok l = true.
    Definition field_mem (fs : list sfield) (f : finfo) : Prop :=
      (exists sf, nth_error fs (fi_index f) = Some sf /\ sf_type sf = fi_type f) /\ mem (deref_type (fi_type f)) = true.
    Lemma snd_upd i v : forall l, forallb snd_ok l = true -> snd_ok v = true -> forallb snd_ok (upd i v l) = true.
    Proof.
      clear. induction i as [|i IH]; intros [|x l]; cbn [upd forallb]; auto; rewrite !andb_true_iff; intros [H1 H2] H3; auto.
    Qed.
    Lemma snd_nth i : forall l, forallb snd_ok l = true -> snd_ok (nth i l VInvalid) = true.
    Proof. clear. induction i as [|i IH]; intros [|x l]; cbn [nth forallb]; auto; rewrite !andb_true_iff; intros [H1 H2]; auto. Qed.
    Lemma reads_field fs f l bz last n : field_mem fs f -> fields_good fs l -> bytes_ok bz ->
      dspec (fun st n' e => e = None -> fields_good fs (fst (fst st)) /\ bytes_ok (snd (fst st))) any True
            (decode_field env c rec f l bz last n).
    Proof.
      intros [(sf & Hsf & Hst') Hu] [Hl Hsl] Hok. unfold decode_field. cbv zeta.
      assert (H0 : good (fi_type f) (nth (fi_index f) l VInvalid)).
      { split; [|apply snd_nth, Hsl]. rewrite <- Hst'. exact (forall2b_nth _ _ _ _ _ VInvalid Hl Hsf). }
      assert (U : forall v, good (fi_type f) v -> fields_good fs (upd (fi_index f) v l)).
      { intros v [Hv Hv2]. split; [|apply snd_upd; assumption]. refine (forall2b_upd _ _ _ _ _ _ Hl Hsf _). rewrite Hst'. exact Hv. }
      pose proof (good_default (fi_type f)) as Hd.
      destruct (get_type_info env c (fi_type f)) as [info| | |] eqn:Eg; cbn [eget]; try exact I; [|intros X; discriminate X].
      pose proof (gti_minfo _ _ _ _ Hs Eg) as G.
      destruct bz as [|b0 bz']; [intros _; cbn [fst snd]; auto|]. set (bz := b0 :: bz') in *.
      destruct (fi_unpacked f).
      - apply dspec_bind. eapply dspec_weaken; [apply Hrec; assumption|]. cbn beta. intros w m e Hty. apply any_slide.
        cbn [dspec fst snd]. intros He. split; [auto|apply bytes_ok_skipn; assumption].
      - destruct (key_ret bz) as ([fnum typ] & m & e & -> & Hmm & _). cbn [dbind].
        destruct (_ <? _); [cbn [dspec fst snd]; auto|]. destruct (_ <=? _); [intros X; discriminate X|].
        apply any_slide. cbv zeta. pose proof (bytes_ok_skipn m bz Hok) as Hok1.
        destruct e as [e|]; [intros X; discriminate X|]. destruct (negb _); [intros X; discriminate X|].
        destruct (type_to_typ3 env (ti_type info) (fi_opts f)) as [z| | |]; cbn [eget]; try exact I; [|intros X; discriminate X].
        destruct (negb _); [intros X; discriminate X|].
        apply dspec_bind. eapply dspec_weaken; [apply Hrec; assumption|]. cbn beta. intros w m2 e Hty. apply any_slide.
        cbn [dspec fst snd]. intros He. split; [auto|apply bytes_ok_skipn; assumption].
    Qed.
    Lemma reads_fields sfs : forall fs l bz last n, (forall f, In f fs -> field_mem sfs f) -> fields_good sfs l -> bytes_ok bz ->
      dspec (fun st n' e => e = None -> fields_good sfs (fst (fst st)) /\ bytes_ok (snd (fst st))) any True (decode_fields env c rec fs l bz last n).
    Proof.
      induction fs as [|f fs IH]; intros l bz last n Hf Hl Hok; cbn [decode_fields]; [cbn [dspec fst snd]; auto|].
      apply dspec_bind. eapply dspec_weaken; [apply (reads_field sfs); auto; apply Hf; left; reflexivity|].
      cbn beta. intros [[l' bz'] last'] n' e H1. cbn [fst snd] in *. destruct e as [e|]; [intros X; discriminate X|]. destruct (H1 eq_refl).
      apply IH; auto. intros; apply Hf; right; assumption.
    Qed.

    Lemma reads_struct t bz ci v0 bare : bytes_ok bz -> t = ci_type ci -> info_ok env ci -> 
      (forall fs, resolve env t = RStruct fs -> forallb (echo_field env mem calm) fs = true) ->
      is_struct env t = true -> good t v0 -> reads t (decode_struct env c rec bz ci v0 bare).
    Proof.
      intros Hok Ht Hi Hep Hst' [Hv Hsv]. unfold decode_struct. apply reads_enter; try assumption. intros b n0 Hb. unfold reads. rewrite <- Ht.
      destruct (info_ok_parts _ _ Hi) as (Hk & Hp & _). rewrite <- Ht in *.
      unfold is_struct in Hst'. destruct (resolve env t) eqn:E; try discriminate.
      - destruct (decode_time_ret b Hb) as (s & ns & n & e & -> & Hn & Hok2). cbn [dbind fst snd]. apply any_slide. destruct e; [intros X; discriminate X|].
        intros _. split.
        + cbn [has_type]. rewrite E. unfold PrimFacts.time_ok, min_seconds, max_seconds, max_nanos in Hok2. unfold in_int. cbn in *. lia.
        + cbn [sendable]. unfold PrimFacts.time_ok, min_seconds, max_seconds, max_nanos in Hok2. unfold SpecWritable.time_ok. cbn in *. lia.
      - destruct v0; cbn [has_type] in Hv; rewrite E in Hv; try discriminate Hv. cbn [sendable] in Hsv. specialize (Hep _ eq_refl).
        apply dspec_bind. eapply dspec_weaken; [apply (reads_fields fs); try (split; assumption); try assumption|].
        + intros f Hin. unfold parse_struct_info in Hp. rewrite E in Hp.
          destruct (parse_fields_nth _ _ _ _ _ _ Hp Hin) as (sf & o & H1 & H2 & H3 & H4 & H5 & H6 & H7). rewrite Nat.sub_0_r in H2.
          split; [exists sf; auto|]. rewrite H6. rewrite forallb_forall in Hep. specialize (Hep sf (nth_error_In _ _ H2)).
          unfold echo_field, field_opts in Hep. rewrite H3, H4 in Hep. cbn [option_map] in Hep. rewrite !andb_true_iff in Hep. tauto.
        + cbn beta. intros [[l' bz'] last'] n' e H1. cbn [fst snd] in *.
          destruct e as [e|]; [intros X; discriminate X|]. destruct (H1 eq_refl) as [[H2 H3] H4].
          apply dspec_bind. destruct (consume_rest _ _ _ _) as [? ? [?|]| |]; cbn [dspec]; try exact I; intros X; try discriminate X.
          split; [cbn [has_type]; rewrite E; exact H2|exact H3].
    Qed.
    Lemma reads_switch t bz info v0 o bare : bytes_ok bz -> mem t = true -> deref_type t = t -> minfo env c info t ->
      match info with TIConc ci => ci_unmarshal ci = None | _ => True end ->
      good t v0 -> reads t (decode_switch env c rec bz info v0 o bare).
    Proof.
      intros Hok Hu D Hmi Hun Hv. unfold decode_switch. pose proof (minfo_type _ _ _ _ Hmi) as Ht. rewrite Ht, D.
      destruct info as [ci|ii].
      - destruct Hmi as [Hmi Hi]. rewrite D in Hmi. destruct (info_ok_parts _ _ Hi) as (Hk & Hp & _ & Hr). rewrite Hun, Hmi in Hr. rewrite Hmi in Hk.
        assert (Hep : echo_plain env c mem calm t).
        { destruct (Hec _ Hu) as [_ X]. unfold unmarshal_repr in Hr. destruct t; try exact X. destruct (te_unmarshal env id) as [[|r ?]|]; [apply X| |apply X]. destruct r; discriminate Hr. }
        unfold echo_plain in Hep.
        destruct (resolve env t) eqn:E.
        + apply safe_reads; [intros v; apply (prim_sendable _ _ _ E)|]. apply safe_prim; [assumption|exact E|apply Hv].
        + apply reads_struct; auto; [intros fs X; rewrite E in X; discriminate X|unfold is_struct; rewrite E; reflexivity].
        + destruct Hep as [Hel _]. unfold echo_list in Hel. destruct (is_uint8 env e) eqn:Eu; [apply reads_byte_array; assumption|].
          cbn [orb] in Hel. apply andb_true_iff in Hel. destruct Hel as [Hel _]. eapply reads_array; eassumption.
        + destruct Hep as [Hel _]. unfold echo_list in Hel. destruct (is_uint8 env e) eqn:Eu; [apply reads_byte_slice; assumption|].
          cbn [orb] in Hel. apply andb_true_iff in Hel. destruct Hel as [Hel _]. apply reads_slice; assumption.
        + exact I.
        + exact I.
        + exact I.
        + exact I.
        + apply resolve_iface in E; [|assumption]. rewrite E in Hk. discriminate.
        + apply reads_struct; auto; [intros fs' X; rewrite E in X; injection X as <-; exact Hep|unfold is_struct; rewrite E; reflexivity].
        + exfalso. eapply resolve_bad; eassumption.
      - destruct Hmi as [Hi Hd]. rewrite D in Hd. rewrite Hd. cbn [resolve]. apply reads_interface; try assumption. rewrite <- Hd. exact Hu.
    Qed.
  End Dec.

  Lemma decode_reads : forall k bz info t v0 o bare, bytes_ok bz -> mem (deref_type t) = true -> minfo env c info t -> good t v0 ->
    reads t (decode_reflect k env c bz info t v0 o bare).
  Proof.
    induction k as [|k IH]; intros bz info t v0 o bare Hok Hu Hmi Hv; cbn [decode_reflect]; [exact I|].
    set (w0 := base_of env t v0). assert (Hw : good (deref_type t) w0) by (apply good_base; assumption).
    assert (D : deref_type (deref_type t) = deref_type t) by (clear; induction t; auto).
    assert (Hmb : minfo env c info (deref_type t)) by (destruct info; cbn; rewrite D; exact Hmi).
    assert (G : reads t (dmap (rebuild t)
            (match info with
             | TIConc {| ci_type := ct; ci_unmarshal := Some r |} =>
                 eget (get_type_info env c r) (fun e => DRet w0 0 (Some e)) (fun rinfo =>
                 dbind (decode_reflect k env c bz rinfo r (zero env r) o bare) (fun rv n e =>
                 slide bz n (fun _ =>
                 match e with
                 | Some e => DRet w0 n (Some e)
                 | None => eget (from_repr env ct w0 rv) (fun e => DRet w0 n (Some e))
                                (fun r => DRet (fst r) n (snd r))
                 end)))
             | _ => decode_switch env c (decode_reflect k env c) bz info w0 o bare
             end))).
    { unfold reads, dmap. apply dspec_bind. eapply dspec_weaken with (Q := fun v _ e => e = None -> good (deref_type t) v);
        [|cbn beta; intros v n e H X; apply good_wrap, H, X].
      pose proof (reads_switch (decode_reflect k env c) IH (deref_type t) bz info w0 o bare Hok Hu D Hmb) as S.
      destruct info as [[ct fs m [r|] rg]|ii]; try (apply S; [exact I || reflexivity|exact Hw]).
      clear S. destruct Hmb as [Hct Hi]. cbn [ci_type] in Hct. rewrite D in Hct. subst ct.
      destruct (info_ok_parts _ _ Hi) as (Hk & _ & _ & Hr). cbn [ci_type ci_unmarshal] in *.
      destruct (Hec _ Hu) as [_ X]. unfold unmarshal_repr in Hr. unfold from_repr.
      destruct (deref_type t) as [| | | | |id| | | |]; try discriminate Hr. destruct (te_unmarshal env id) as [[|r' g]|]; try discriminate Hr.
      assert (Hrr : r' = r /\ deref_type r = r) by (destruct r'; try discriminate Hr; injection Hr as <-; split; reflexivity). destruct Hrr as [-> Dr]. destruct X as [_ [X1 X2]].
      destruct (get_type_info env c r) as [rinfo| | |] eqn:Eg; cbn [eget]; try exact I; [|intros Y; discriminate Y].
      pose proof (gti_minfo _ _ _ _ Hs Eg) as Gt.
      apply dspec_bind. eapply dspec_weaken; [apply IH; try assumption; [|apply good_zero]|].
      - rewrite Dr. exact X1.
      - cbn beta. intros rv n e Hrv. apply any_slide. destruct e as [e|]; [intros Y; discriminate Y|].
        destruct (Hrv eq_refl) as [Y1 Y2]. destruct Hw as [Z1 Z2].
        destruct (g w0 rv) as [[v' e']| | |] eqn:Egv; cbn [eget dspec fst snd]; try exact I; [|intros Y; discriminate Y].
        intros ->. exact (X2 _ _ _ Z1 Z2 Y1 Y2 Egv). }
    destruct info as [ci|ii], t; try exact G. exact I.
  Qed.

  (** ** Whole calls *)
  Lemma marshal_ne k t v : mem (deref_type t) = true -> calm (deref_type t) = true -> good t v -> noerr (marshal_bare k env c t v).
  Proof.
    intros Hmem Hc [Ht Hv]. rewrite marshal_eq. destruct (under v) as [w|] eqn:U; [|exact I].
    pose proof (under_typed _ We _ _ _ Ht U) as Hw. pose proof (snd_under _ _ U Hv) as Hsw.
    destruct (mem_known t Hmem) as [info Eg]. rewrite Eg. cbn [ebind].
    pose proof (minfo_deref _ _ _ _ (gti_minfo _ _ _ _ Hs Eg)) as Hi. pose proof (minfo_type _ _ _ _ Hi) as Ety. rewrite deref_idem in Ety. rewrite Ety.
    assert (O : forall o bare, fo_empty_elements o = false -> noerr (E k info w o bare)).
    { intros o bare Ho. apply (encode_ne k info (deref_type t)); try assumption; [apply deref_idem|split; auto]. }
    apply noerr_bind; [|intros; exact I]. destruct (struct_like env (deref_type t)); cbn [negb]; [apply O; reflexivity|].
    destruct (fin_typ3 env mem rank Hst _ no_opts Hmem) as [z Hz]. rewrite Hz. cbn [ebind]. unfold write_field. rewrite Ety, Hz. cbn [ebind].
    apply noerr_bind; [apply noerr_key|]. intros key _. apply noerr_bind; [apply O; reflexivity|]. intros b _. destruct (_ && _); exact I.
  Qed.
  Theorem marshal_good t v w : mem (deref_type t) = true -> calm (deref_type t) = true -> good t v -> under v = Some w ->
    exists k bz, forall k', (k <= k')%nat -> marshal_bare k' env c t v = EOk bz.
  Proof.
    intros Hmem Hc Hg U. destruct (marshal_fin env We c Hs Hm mem rank Hst t v w Hmem (proj1 Hg) (snd_firm _ (proj2 Hg)) U) as [k Hk].
    pose proof (marshal_ne k t v Hmem Hc Hg) as N. destruct (Hk k (le_n k)) as [F _].
    destruct (marshal_bare k env c t v) as [bz| | |] eqn:Eb; try discriminate F; [|contradiction N].
    exists k, bz. intros k' Hk'. apply Hk, Hk'.
  Qed.
  Theorem unmarshal_good fd bz t v0 v : bytes_ok bz -> mem (deref_type t) = true -> good t v0 ->
    unmarshal_bare fd env c bz t v0 = URet v None -> good t v.
  Proof.
    intros Hok Hmem Hg E. pose proof (unmarshal_spec (fun v e => e = None -> good t v) any True fd env c bz t v0) as S.
    rewrite E in S. cbn [uspec] in S. apply S; try (intros; exact I); try reflexivity; [intros s X; discriminate X|].
    intros info k bare Eg Hk. eapply dspec_weaken; [apply decode_reads; try assumption; [apply bytes_ok_skipn, Hok|exact (gti_minfo _ _ _ _ Hs Eg)]|].
    cbn beta. intros w n e Hw. split; [intros X _ _; apply Hw, X|intros s _ X; discriminate X].
  Qed.
  Theorem unmarshal_lp_good fd bz t v0 v : bytes_ok bz -> mem (deref_type t) = true -> good t v0 ->
    unmarshal_length_prefixed fd env c bz t v0 = URet v None -> good t v.
  Proof.
    intros Hok Hmem Hg E. unfold unmarshal_length_prefixed in E. destruct bz as [|b bz]; [discriminate E|].
    set (l := b :: bz) in *. destruct (uvarint l) as [u n]. destruct (n <? 0); [discriminate E|]. destruct (_ <? u); [discriminate E|]. destruct (u <? _); [discriminate E|].
    eapply unmarshal_good; [|eassumption..]. apply bytes_ok_skipn, Hok.
  Qed.
End E.
