(** Hidden fields: the encoder does not look at them. *)
From Coq Require Import ZArith String List Bool Lia.
From Coq Require Import ZifyBool ZifyNat.
From Verif Require Import Base Prims SpecWire PrimFacts PrimProps Types Codec BinEnc BinDec Amino FuelFacts DecFacts
  ValueInd Typing Registry SpecRegistry RegistryFacts Sane DecSafe SpecNorm EncFacts RoundTrip TopFacts SpecStruct.
Import ListNotations.
Local Open Scope Z_scope.
Local Open Scope amino_scope.

Lemma visible_opts f num : field_opts num f = None <-> visible f = false.
Proof.
  unfold field_opts, visible, parse_field_options. destruct (sf_exported f); cbn [andb]; [|tauto].
  destruct (beqb (sf_json f) (bs "-")); cbn [option_map negb]; split; intros X; try reflexivity; discriminate X.
Qed.

Section Alike.
  Variable env : tenv.

  Lemma alike_other t v w : match resolve env t with RPrim _ | RTime | RMap _ _ | RFunc | ROther | RBad => True | _ => False end ->
    alike env t v w -> v = w.
  Proof.
    intros Ht H. inversion H; subst; try reflexivity;
      try (match goal with E : resolve _ _ = _ |- _ => rewrite E in Ht; contradiction end); cbn in Ht; contradiction.
  Qed.
  Lemma alike_all_same e l l' : match resolve env e with RPrim _ | RTime | RMap _ _ | RFunc | ROther | RBad => True | _ => False end ->
    alike_all env e l l' -> l = l'.
  Proof.
    intros Ht H. induction H; [reflexivity|]. f_equal; [eapply alike_other; eassumption|auto].
  Qed.
  Lemma alike_all_refl e l : alike_all env e l l.
  Proof. induction l; constructor; [constructor|assumption]. Qed.
  Lemma alike_res t t' v w : resolve env t = resolve env t' -> is_ptr t = false -> is_iface t = false -> alike env t v w -> alike env t' v w.
  Proof.
    intros Hr Hp Hi H. inversion H; subst; try discriminate; try rewrite Hr in *.
    - constructor.
    - eapply alike_struct; eassumption.
    - eapply alike_array; eassumption.
    - eapply alike_slice; eassumption.
  Qed.

  (** Pointers *)
  Lemma alike_under t v w : alike env t v w ->
    match under v, under w with
    | Some a, Some b => alike env (deref_type t) a b
    | None, None => True
    | _, _ => False
    end.
  Proof.
    intros Ha. revert w Ha. revert t.
    induction v using value_ind'; intros ty w Ha;
      try (inversion Ha; subst; cbn [under]; try exact I; try apply alike_refl; destruct ty; try discriminate; exact Ha).
    1: inversion Ha; subst.
    - cbn [under]. destruct (under v); [apply alike_refl|exact I].
    - cbn [under deref_type]. apply IHv. assumption.
    - inversion Ha; subst; cbn [under]; [apply alike_refl|exact Ha].
  Qed.
  Lemma alike_default t v w : alike env t v w -> defaultv v = defaultv w.
  Proof.
    intros H. induction H using alike_ind' with (P0 := fun _ l l' => length l = length l') (P1 := fun _ l l' => True); try exact I; try reflexivity.
    - destruct l, l'; try discriminate; reflexivity.
    - exact IHalike.
    - cbn. f_equal. assumption.
  Qed.
  Lemma alike_ptrness t v w : alike env t v w -> val_is_ptr v = val_is_ptr w.
  Proof. intros H; inversion H; reflexivity. Qed.
  Lemma alike_kind t v w : alike env t v w ->
    match v with VPtr _ => match w with VPtr _ => True | _ => False end
               | VInvalid => w = VInvalid
               | VIface _ => match w with VIface _ => True | _ => False end
               | _ => match w with VPtr _ | VInvalid | VIface _ => False | _ => True end end.
  Proof. intros H; inversion H; subst; try exact I. destruct w; try exact I; reflexivity. Qed.

  Variable c : codec.
  Hypothesis Hs : sane_codec env c.
  Hypothesis Hb : blind env.

  Definition enc_alike (rec : tinfo -> value -> fopts -> bool -> eres bytes) : Prop :=
    forall info t v w o bare, minfo env c info t -> deref_type t = t -> alike env t v w -> rec info v o bare = rec info w o bare.

  Section Rec.
    Variable rec : tinfo -> value -> fopts -> bool -> eres bytes.
    Hypothesis Hrec : enc_alike rec.

    Lemma rec_under info t v w o bare : minfo env c info t -> alike env t v w ->
      rec info (match under v with Some a => a | None => VInvalid end) o bare =
      rec info (match under w with Some a => a | None => VInvalid end) o bare.
    Proof.
      intros Hi H. apply alike_under in H. destruct (under v), (under w); try contradiction; [|reflexivity].
      eapply (Hrec _ (deref_type t)); [apply minfo_deref; exact Hi|apply deref_idem|exact H].
    Qed.

    Lemma packed_alike ert einfo o l l' : minfo env c einfo ert -> alike_all env ert l l' ->
      encode_packed env rec ert einfo l o = encode_packed env rec ert einfo l' o.
    Proof.
      intros Hi H. induction H; [reflexivity|]. cbn [encode_packed]. rewrite IHalike_all by assumption.
      rewrite !deref_zero_under. apply alike_under in H. destruct (under v), (under v'); try contradiction; [|reflexivity].
      rewrite (Hrec einfo (deref_type e) v0 v1 o false); [reflexivity|apply minfo_deref; exact Hi|apply deref_idem|exact H].
    Qed.
    Lemma unpacked_alike ert einfo o l l' : minfo env c einfo ert -> alike_all env ert l l' ->
      encode_unpacked env rec ert einfo l o = encode_unpacked env rec ert einfo l' o.
    Proof.
      intros Hi H. induction H; [reflexivity|]. cbn [encode_unpacked]. rewrite IHalike_all by assumption.
      rewrite !default_pair. cbv iota beta. rewrite (alike_default _ _ _ H). rewrite (rec_under _ _ _ _ (set_num 1 o) false Hi H). reflexivity.
    Qed.
    Lemma list_alike info t v w o bare : minfo env c info t -> deref_type t = t -> alike env t v w ->
      encode_list env c rec info v o bare = encode_list env c rec info w o bare.
    Proof.
      intros Hi D H. unfold encode_list. pose proof (minfo_type _ _ _ _ Hi) as Ht. rewrite Ht, D.
      assert (L : forall e, elem_type env t = Some e -> (forall l, list_elems v = Some l -> exists l', list_elems w = Some l' /\ alike_all env e l l')
                                     /\ (list_elems v = None -> list_elems w = None)).
      { intros e He. unfold elem_type in He. inversion H; subst; cbn [list_elems].
        - split; [|auto]. intros l Hl. exists l. split; [exact Hl|apply alike_all_refl].
        - split; [discriminate|reflexivity].
        - rewrite H0 in He. injection He as <-. split; [|discriminate]. intros ? X; injection X as <-. exists l'. split; [reflexivity|assumption].
        - rewrite H0 in He. injection He as <-. split; [|discriminate]. intros ? X; injection X as <-. exists l'. split; [reflexivity|assumption].
        - split; [discriminate|reflexivity].
        - split; [discriminate|reflexivity]. }
      assert (G : forall e, elem_type env t = Some e ->
        (elet einfo := get_type_info env c e in
          elet typ3 := type_to_typ3 env (ti_type einfo) o in
          match list_elems v with
          | None => EPanic "reflect: call on wrong kind"%string
          | Some l =>
              elet buf := (if negb (typ3 =? Typ3ByteLength)
                           then encode_packed env rec e einfo l o
                           else encode_unpacked env rec e einfo l o) in
              EOk (finish bare buf)
          end) = (elet einfo := get_type_info env c e in
          elet typ3 := type_to_typ3 env (ti_type einfo) o in
          match list_elems w with
          | None => EPanic "reflect: call on wrong kind"%string
          | Some l =>
              elet buf := (if negb (typ3 =? Typ3ByteLength)
                           then encode_packed env rec e einfo l o
                           else encode_unpacked env rec e einfo l o) in
              EOk (finish bare buf)
          end)).
      { intros e He. destruct (L e He) as [L1 L2]. destruct (get_type_info env c e) as [einfo| | |] eqn:Eg; cbn [ebind]; try reflexivity.
        pose proof (gti_minfo _ _ _ _ Hs Eg) as Hie. destruct (type_to_typ3 env (ti_type einfo) o) as [z| | |]; cbn [ebind]; try reflexivity.
        destruct (list_elems v) as [l|]; [|rewrite (L2 eq_refl); reflexivity]. destruct (L1 l eq_refl) as (l' & -> & Ha).
        rewrite (packed_alike _ _ o _ _ Hie Ha), (unpacked_alike _ _ o _ _ Hie Ha). reflexivity. }
      destruct (resolve env t) eqn:Er; try reflexivity; destruct (is_uint8 env e); try reflexivity; apply G; unfold elem_type; rewrite Er; reflexivity.
    Qed.

    Lemma field_alike f v w : alike env (fi_type f) v w -> (fi_unpacked f = true -> deref_type (fi_type f) = fi_type f) ->
      encode_field env c rec f v = encode_field env c rec f w.
    Proof.
      intros H Hu. unfold encode_field. destruct (get_type_info env c (fi_type f)) as [info| | |] eqn:Eg; cbn [ebind]; try reflexivity.
      pose proof (gti_minfo _ _ _ _ Hs Eg) as Hi. rewrite !default_pair. cbv iota beta. rewrite (alike_default _ _ _ H), (alike_ptrness _ _ _ H).
      destruct (_ && _); [reflexivity|]. destruct (fi_unpacked f).
      - pose proof (alike_under _ _ _ H) as U. destruct (under v) as [a|], (under w) as [b|]; try contradiction; [|reflexivity].
        apply (list_alike _ (fi_type f)); [exact Hi|auto|]. rewrite <- (Hu eq_refl). exact U.
      - unfold write_field. rewrite (rec_under _ _ _ _ (fi_opts f) false Hi H). reflexivity.
    Qed.
    Lemma entries_nonptr t : entries env t = true -> deref_type t = t.
    Proof. unfold entries. destruct t; try reflexivity. discriminate. Qed.

    Lemma fields_alike : forall fs i num infos pre pre' l l', parse_fields env fs i num = EOk infos -> length pre = i -> length pre' = i ->
      alike_fields env fs l l' ->
      encode_fields env c rec infos (pre ++ l) = encode_fields env c rec infos (pre' ++ l').
    Proof.
      intros fs i num infos pre pre' l l' Hp E1 E2 H. revert i num infos pre pre' Hp E1 E2.
      induction H; intros i num infos pre pre' Hp E1 E2.
      - cbn in Hp. apply EOk_inj in Hp. subst infos. reflexivity.
      - apply parse_step in Hp. destruct (field_opts _ f) as [o|] eqn:Eo; [|apply visible_opts in Eo; congruence].
        destruct Hp as (fi & rest & -> & Hx & Ht & Hu & Ho & _ & Hp). cbn [encode_fields]. rewrite Hx.
        rewrite !app_nth2, E1, E2, !Nat.sub_diag by lia. cbn [nth].
        rewrite (field_alike fi v v'); [|rewrite Ht; assumption|rewrite Hu, Ht; apply entries_nonptr].
        specialize (IHalike_fields _ _ _ (pre ++ [v]) (pre' ++ [v']) Hp). rewrite <- !app_assoc in IHalike_fields. cbn [app] in IHalike_fields.
        rewrite IHalike_fields; [reflexivity|rewrite app_length; cbn; lia|rewrite app_length; cbn; lia].
      - apply parse_step in Hp. destruct (field_opts _ f) as [o|] eqn:Eo; [apply visible_opts with (num := Z.of_nat num + 1) in H; congruence|].
        specialize (IHalike_fields _ _ _ (pre ++ [v]) (pre' ++ [v']) Hp). rewrite <- !app_assoc in IHalike_fields. cbn [app] in IHalike_fields.
        apply IHalike_fields; rewrite app_length; cbn; lia.
    Qed.

    Lemma switch_alike k info t v w o bare : minfo env c info t -> deref_type t = t -> alike env t v w ->
      encode_switch env c rec k info v o bare = encode_switch env c rec k info w o bare.
    Proof.
      intros Hi D H. unfold encode_switch. pose proof (minfo_type _ _ _ _ Hi) as Ht. rewrite Ht, D.
      destruct (resolve env t) eqn:Er; try reflexivity.
      - apply alike_other in H; [subst; reflexivity|]. rewrite Er; exact I.
      - apply alike_other in H; [subst; reflexivity|]. rewrite Er; exact I.
      - destruct (is_uint8 env e) eqn:Eu.
        + inversion H; subst; try congruence; try discriminate.
          rewrite Er in H0. injection H0 as <- <-. apply alike_all_same in H1; [subst; reflexivity|].
          unfold is_uint8 in Eu. destruct (resolve env e); try discriminate; exact I.
        + destruct (is_list_kind env e); [reflexivity|]. eapply list_alike; eassumption.
      - destruct (is_uint8 env e) eqn:Eu.
        + inversion H; subst; try congruence; try discriminate.
          rewrite Er in H0. injection H0 as <-. apply alike_all_same in H1; [subst; reflexivity|].
          unfold is_uint8 in Eu. destruct (resolve env e); try discriminate; exact I.
        + destruct (is_list_kind env e); [reflexivity|]. eapply list_alike; eassumption.
      - destruct info as [ci|ii]; [reflexivity|]. unfold encode_interface.
        inversion H; subst; try congruence.
        rewrite !deref_pointers_under. apply alike_under in H0.
        destruct (under v0) as [a|], (under v') as [b|]; try contradiction; [|reflexivity].
        assert (G : (elet info := get_type_info env c (deref_type t0) in
                match info with
                | TIConc ci =>
                    match ci_reg ci with
                    | None => EErr "cannot encode unregistered concrete type"%string
                    | Some r =>
                        let need := ii_always ii ||
                          (1 <? length match assoc beqb (ri_prefix r) (ii_impls ii) with
                                       | Some l => l | None => [] end)%nat in
                        elet body := rec info a o true in
                        EOk (finish bare ((if need then 0 :: ri_disamb r else []) ++ ri_prefix r ++ body))
                    end
                | TIFace _ => EErr "cannot encode unregistered concrete type"%string
                end) = (elet info := get_type_info env c (deref_type t0) in
                match info with
                | TIConc ci =>
                    match ci_reg ci with
                    | None => EErr "cannot encode unregistered concrete type"%string
                    | Some r =>
                        let need := ii_always ii ||
                          (1 <? length match assoc beqb (ri_prefix r) (ii_impls ii) with
                                       | Some l => l | None => [] end)%nat in
                        elet body := rec info b o true in
                        EOk (finish bare ((if need then 0 :: ri_disamb r else []) ++ ri_prefix r ++ body))
                    end
                | TIFace _ => EErr "cannot encode unregistered concrete type"%string
                end)).
        { rewrite gti_deref. destruct (get_type_info env c t0) as [info| | |] eqn:Eg; cbn [ebind]; try reflexivity.
          pose proof (gti_minfo _ _ _ _ Hs Eg) as Hi0. destruct info as [ci|]; [|reflexivity]. destruct (ci_reg ci); [|reflexivity]. cbv zeta.
          rewrite (Hrec (TIConc ci) (deref_type t0) a b o true); [reflexivity|apply minfo_deref; exact Hi0|apply deref_idem|exact H0]. }
        pose proof (alike_kind _ _ _ H0) as K. destruct a, b; try contradiction; try exact G; try reflexivity; try (subst; exact G); discriminate K.
      - destruct info as [ci|ii]; [|reflexivity]. destruct Hi as [Hct Hok]. unfold encode_struct. rewrite Hct, D, Er.
        inversion H; subst; try congruence; try discriminate.
        rewrite Er in H0. injection H0 as <-.
        destruct (info_ok_parts _ _ Hok) as (_ & Hp & _). rewrite Hct, D in Hp. unfold parse_struct_info in Hp. rewrite Er in Hp.
        rewrite (fields_alike _ _ _ _ [] [] _ _ Hp eq_refl eq_refl H1 : encode_fields env c rec (ci_fields ci) l = encode_fields env c rec (ci_fields ci) l').
        reflexivity.
    Qed.
  End Rec.

  Theorem encode_alike : forall k, enc_alike (encode_reflect k env c).
  Proof.
    induction k as [|k IH]; intros info t v w o bare Hi D H; [reflexivity|].
    pose proof (switch_alike _ IH (S k) info t v w o bare Hi D H) as S.
    assert (G : match info with
          | TIConc {| ci_type := t; ci_marshal := Some r |} =>
              elet rv := to_repr env t v in
              elet rinfo := get_type_info env c r in
              encode_reflect k env c rinfo rv o bare
          | _ => encode_switch env c (encode_reflect k env c) (Datatypes.S k) info v o bare
          end = match info with
          | TIConc {| ci_type := t; ci_marshal := Some r |} =>
              elet rv := to_repr env t w in
              elet rinfo := get_type_info env c r in
              encode_reflect k env c rinfo rv o bare
          | _ => encode_switch env c (encode_reflect k env c) (Datatypes.S k) info w o bare
          end).
    { destruct info as [[ct fs [r|] u rg]|ii]; try exact S. destruct Hi as [Hct Hok]. cbn [ci_type] in Hct. rewrite D in Hct. subst ct.
      pose proof (fun X => minfo_method env _ t X Hok) as M. specialize (M eq_refl). cbn [ci_marshal] in M. destruct M as (id & f & -> & Hf & Dr).
      cbn [to_repr]. rewrite Hf. pose proof (Hb _ _ _ _ _ Hf H) as B. unfold same_outcome in B.
      destruct (f v) as [a| | |], (f w) as [b| | |]; cbn [ebind]; try discriminate; try congruence.
      destruct (get_type_info env c r) as [rinfo| | |] eqn:Eg; cbn [ebind]; try reflexivity.
      eapply (IH rinfo r); [eapply gti_minfo; eassumption|exact Dr|exact B]. }
    pose proof (alike_kind _ _ _ H) as K. cbn [encode_reflect].
    destruct v, w; try contradiction; try exact G; try reflexivity; discriminate K.
  Qed.

  Theorem marshal_alike k t v w : alike env t v w -> marshal_bare k env c t v = marshal_bare k env c t w.
  Proof.
    intros H. rewrite !marshal_eq. apply alike_under in H. destruct (under v) as [a|], (under w) as [b|]; try contradiction; [|reflexivity].
    destruct (get_type_info env c t) as [info| | |] eqn:Eg; cbn [ebind]; try reflexivity.
    pose proof (minfo_deref _ _ _ _ (gti_minfo _ _ _ _ Hs Eg)) as Hi.
    unfold write_field.
    assert (R : forall o bare, encode_reflect k env c info a o bare = encode_reflect k env c info b o bare).
    { intros o bare. eapply encode_alike; [exact Hi|apply deref_idem|exact H]. }
    rewrite (R top_opts true). destruct (negb _); [|reflexivity].
    destruct (type_to_typ3 _ _ _) as [z| | |]; cbn [ebind]; try reflexivity. rewrite (R no_opts _). reflexivity.
  Qed.
End Alike.
