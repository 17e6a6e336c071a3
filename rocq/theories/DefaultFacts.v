(** Nil and empty: the encoder does not tell them apart. *)
From Coq Require Import ZArith String List Bool Lia.
From Coq Require Import ZifyBool ZifyNat.
From Verif Require Import Base Prims SpecWire PrimFacts PrimProps Types Codec BinEnc BinDec Amino FuelFacts DecFacts
  ValueInd Typing Registry SpecRegistry RegistryFacts Sane DecSafe SpecNorm EncFacts RoundTrip TopFacts SpecStruct SkipFacts SpecDefault VersionFacts ProtoFacts SpecProto.
Import ListNotations.
Local Open Scope Z_scope.
Local Open Scope amino_scope.

Section Same.
  Variable env : tenv.

  Lemma same_other t v w : match resolve env t with RPrim _ | RTime | RMap _ _ | RFunc | ROther | RBad => True | _ => False end ->
    same env t v w -> v = w.
  Proof.
    intros Ht H. inversion H; subst; try reflexivity;
      try (match goal with E : resolve _ _ = _ |- _ => rewrite E in Ht; contradiction end); cbn in Ht; contradiction.
  Qed.
  (** Nothing of a scalar type is zero. *)
  Lemma nothing_under p t v : wf_env env -> resolve env (deref_type t) = RPrim p -> nothing env t v ->
    match under v with Some w => w = zero env (deref_type t) | None => True end.
  Proof.
    intros We Hr [Ht Hd]. destruct (under v) as [w|] eqn:Eu; [|exact I].
    assert (Z : zero env (deref_type t) = zero_prim p).
    { destruct (deref_type t) as [| | | | | | | | |id]; cbn in *; try discriminate; [congruence|].
      rewrite (we_zero _ We). destruct (te_def env id) as [|[]]; try discriminate. inversion Hr. reflexivity. }
    rewrite Z. pose proof (under_typed _ We _ _ _ Ht Eu) as Tw. rewrite (has_type_prim _ _ _ _ Hr) in Tw.
    assert (Dw : defaultv w = true).
    { clear -Hd Eu. revert w Eu. induction v using value_ind'; intros w Eu; cbn [under] in Eu; try (injection Eu as <-; exact Hd); try discriminate Eu.
      apply IHv; assumption. }
    destruct p, w; cbn in Tw, Dw |- *; try discriminate; try (apply Z.eqb_eq in Dw; subst; reflexivity).
    destruct s; [reflexivity|discriminate].
  Qed.
  Lemma same_all_same p e l l' : wf_env env -> resolve env e = RPrim p -> same_all env e l l' -> l = l'.
  Proof.
    intros We Hr H. induction H; [reflexivity| |].
    - f_equal; [|auto]. eapply same_other; [|eassumption]. rewrite Hr. exact I.
    - f_equal; [|auto]. assert (Ne : is_ptr e = false) by (destruct e; try reflexivity; discriminate Hr).
      pose proof (nothing_under p e v We) as A. pose proof (nothing_under p e v' We) as B. rewrite (deref_nonptr _ Ne) in A, B.
      specialize (A Hr H). specialize (B Hr H0). destruct H as [T1 _], H0 as [T2 _].
      rewrite (under_nonptr _ _ _ T1 Ne We) in A. rewrite (under_nonptr _ _ _ T2 Ne We) in B. congruence.
  Qed.
  Lemma same_all_refl e l : same_all env e l l.
  Proof. induction l; constructor; [constructor|assumption]. Qed.
  Lemma same_res t t' v w : resolve env t = resolve env t' -> is_ptr t = false -> is_iface t = false -> same env t v w -> same env t' v w.
  Proof.
    intros Hr Hp Hi H. inversion H; subst; try discriminate; try rewrite Hr in *.
    - constructor.
    - eapply same_none; eassumption.
    - eapply same_empty; eassumption.
    - eapply same_struct; eassumption.
    - eapply same_array; eassumption.
    - eapply same_slice; eassumption.
  Qed.

  (** Pointers *)
  Lemma same_under t v w : same env t v w ->
    match under v, under w with
    | Some a, Some b => same env (deref_type t) a b
    | None, None => True
    | _, _ => False
    end.
  Proof.
    intros Ha. revert w Ha. revert t.
    induction v using value_ind'; intros ty w Ha;
      try (inversion Ha; subst; cbn [under]; try exact I; try apply same_refl; destruct ty; try discriminate; exact Ha).
    1: inversion Ha; subst.
    - cbn [under]. destruct (under v); [apply same_refl|exact I].
    - cbn [under deref_type]. apply IHv. assumption.
    - inversion Ha; subst; cbn [under]; [apply same_refl|exact Ha|exact Ha].
  Qed.
  Lemma same_defaultv t v w : same env t v w -> defaultv v = defaultv w.
  Proof.
    intros H. induction H using same_ind' with (P0 := fun _ l l' => length l = length l') (P1 := fun _ l l' => True); try exact I; try reflexivity.
    - destruct l, l'; try discriminate; reflexivity.
    - exact IHsame.
    - cbn. f_equal. assumption.
    - cbn. f_equal. assumption.
  Qed.
  Lemma same_ptrness t v w : same env t v w -> val_is_ptr v = val_is_ptr w.
  Proof. intros H; inversion H; reflexivity. Qed.
  Lemma same_kind t v w : same env t v w ->
    match v with VPtr _ => match w with VPtr _ => True | _ => False end
               | VInvalid => w = VInvalid
               | VIface _ => match w with VIface _ => True | _ => False end
               | _ => match w with VPtr _ | VInvalid | VIface _ => False | _ => True end end.
  Proof. intros H; inversion H; subst; try exact I. destruct w; try exact I; reflexivity. Qed.

  Variable c : codec.
  Hypothesis We : wf_env env.
  Hypothesis Hs : sane_codec env c.
  Hypothesis Hb : indifferent env.

  Definition enc_same (rec : tinfo -> value -> fopts -> bool -> eres bytes) : Prop :=
    forall info t v w o bare, minfo env c info t -> deref_type t = t -> same env t v w -> rec info v o bare = rec info w o bare.

  Lemma typ3_packed t o z : type_to_typ3 env t o = EOk z -> negb (z =? Typ3ByteLength) = true -> exists p, resolve env t = RPrim p.
  Proof.
    unfold type_to_typ3. destruct (resolve env t); intros H Hz; try discriminate; try (apply EOk_inj in H; subst z; discriminate Hz). eauto.
  Qed.

  Lemma uint8_prim t : is_uint8 env t = true -> exists p, resolve env t = RPrim p.
  Proof. unfold is_uint8. destruct (resolve env t); try discriminate. eauto. Qed.

  Section Rec.
    Variable rec : tinfo -> value -> fopts -> bool -> eres bytes.
    Hypothesis Hrec : enc_same rec.

    Lemma rec_under info t v w o bare : minfo env c info t -> same env t v w ->
      rec info (match under v with Some a => a | None => VInvalid end) o bare =
      rec info (match under w with Some a => a | None => VInvalid end) o bare.
    Proof.
      intros Hi H. apply same_under in H. destruct (under v), (under w); try contradiction; [|reflexivity].
      eapply (Hrec _ (deref_type t)); [apply minfo_deref; exact Hi|apply deref_idem|exact H].
    Qed.

    Lemma packed_same p ert einfo o l l' : minfo env c einfo ert -> resolve env (deref_type ert) = RPrim p -> same_all env ert l l' ->
      encode_packed env rec ert einfo l o = encode_packed env rec ert einfo l' o.
    Proof.
      intros Hi Hr H. induction H; [reflexivity| |]; cbn [encode_packed]; rewrite IHsame_all by assumption; rewrite !deref_zero_under.
      - apply same_under in H. destruct (under v), (under v'); try contradiction; [|reflexivity].
        rewrite (Hrec einfo (deref_type e) v0 v1 o false); [reflexivity|apply minfo_deref; exact Hi|apply deref_idem|exact H].
      - apply (nothing_under p) in H; try assumption. apply (nothing_under p) in H0; try assumption.
        destruct (under v), (under v'); subst; reflexivity.
    Qed.
    Lemma unpacked_same ert einfo o l l' : minfo env c einfo ert -> same_all env ert l l' ->
      encode_unpacked env rec ert einfo l o = encode_unpacked env rec ert einfo l' o.
    Proof.
      intros Hi H. induction H; [reflexivity| |]; cbn [encode_unpacked]; rewrite IHsame_all by assumption; rewrite !default_pair; cbv iota beta.
      - rewrite (same_defaultv _ _ _ H). rewrite (rec_under _ _ _ _ (set_num 1 o) false Hi H). reflexivity.
      - destruct H as [_ ->], H0 as [_ ->]. reflexivity.
    Qed.
    Lemma list_same info t v w o bare : minfo env c info t -> deref_type t = t -> same env t v w ->
      encode_list env c rec info v o bare = encode_list env c rec info w o bare.
    Proof.
      intros Hi D H. unfold encode_list. pose proof (minfo_type _ _ _ _ Hi) as Ht. rewrite Ht, D.
      assert (L : forall e, elem_type env t = Some e -> (forall l, list_elems v = Some l -> exists l', list_elems w = Some l' /\ same_all env e l l')
                                     /\ (list_elems v = None -> list_elems w = None)).
      { intros e He. unfold elem_type in He. inversion H; subst; cbn [list_elems].
        - split; [|auto]. intros l Hl. exists l. split; [exact Hl|apply same_all_refl].
        - split; [|discriminate]. intros l X; injection X as <-. exists []. split; [reflexivity|constructor].
        - split; [|discriminate]. intros l X; injection X as <-. exists []. split; [reflexivity|constructor].
        - split; [discriminate|reflexivity].
        - rewrite H0 in He. injection He as <-. split; [|discriminate]. intros ? X; injection X as <-. exists l'. split; [reflexivity|assumption].
        - rewrite H0 in He. injection He as <-. split; [|discriminate]. intros ? X; injection X as <-. exists l'. split; [reflexivity|assumption].
        - split; [discriminate|reflexivity].
        - split; [discriminate|reflexivity].
        - split; [discriminate|reflexivity]. }
      assert (G : forall e, elem_type env t = Some e ->
        (elet einfo := get_type_info env c e in
          elet typ3 := type_to_typ3 env (ti_type einfo) o in
          match list_elems v with
          | None => EPanic "reflect: call on wrong kind"%string
          | Some l =>
              elet buf := (if negb (typ3 =? Typ3ByteLength)
                           then encode_packed env rec e einfo l o
                           else encode_unpacked env rec e einfo l o) in
              EOk (finish bare buf)
          end) = (elet einfo := get_type_info env c e in
          elet typ3 := type_to_typ3 env (ti_type einfo) o in
          match list_elems w with
          | None => EPanic "reflect: call on wrong kind"%string
          | Some l =>
              elet buf := (if negb (typ3 =? Typ3ByteLength)
                           then encode_packed env rec e einfo l o
                           else encode_unpacked env rec e einfo l o) in
              EOk (finish bare buf)
          end)).
      { intros e He. destruct (L e He) as [L1 L2]. destruct (get_type_info env c e) as [einfo| | |] eqn:Eg; cbn [ebind]; try reflexivity.
        pose proof (gti_minfo _ _ _ _ Hs Eg) as Hie. destruct (type_to_typ3 env (ti_type einfo) o) as [z| | |] eqn:E3; cbn [ebind]; try reflexivity.
        destruct (list_elems v) as [l|]; [|rewrite (L2 eq_refl); reflexivity]. destruct (L1 l eq_refl) as (l' & -> & Ha).
        rewrite (unpacked_same _ _ o _ _ Hie Ha). destruct (negb (z =? Typ3ByteLength)) eqn:Ez; [|reflexivity].
        rewrite (minfo_type _ _ _ _ Hie) in E3. destruct (typ3_packed _ _ _ E3 Ez) as [p Hr]. rewrite (packed_same p _ _ o _ _ Hie Hr Ha). reflexivity. }
      destruct (resolve env t) eqn:Er; try reflexivity; destruct (is_uint8 env e); try reflexivity; apply G; unfold elem_type; rewrite Er; reflexivity.
    Qed.

    Lemma field_same f v w : same env (fi_type f) v w -> (fi_unpacked f = true -> deref_type (fi_type f) = fi_type f) ->
      encode_field env c rec f v = encode_field env c rec f w.
    Proof.
      intros H Hu. unfold encode_field. destruct (get_type_info env c (fi_type f)) as [info| | |] eqn:Eg; cbn [ebind]; try reflexivity.
      pose proof (gti_minfo _ _ _ _ Hs Eg) as Hi. rewrite !default_pair. cbv iota beta. rewrite (same_defaultv _ _ _ H), (same_ptrness _ _ _ H).
      destruct (_ && _); [reflexivity|]. destruct (fi_unpacked f).
      - pose proof (same_under _ _ _ H) as U. destruct (under v) as [a|], (under w) as [b|]; try contradiction; [|reflexivity].
        apply (list_same _ (fi_type f)); [exact Hi|auto|]. rewrite <- (Hu eq_refl). exact U.
      - unfold write_field. rewrite (rec_under _ _ _ _ (fi_opts f) false Hi H). reflexivity.
    Qed.
    Lemma entries_nonptr t : entries env t = true -> deref_type t = t.
    Proof. unfold entries. destruct t; try reflexivity. discriminate. Qed.

    Lemma fields_same : forall fs i num infos pre pre' l l', parse_fields env fs i num = EOk infos -> length pre = i -> length pre' = i ->
      same_fields env fs l l' ->
      encode_fields env c rec infos (pre ++ l) = encode_fields env c rec infos (pre' ++ l').
    Proof.
      intros fs i num infos pre pre' l l' Hp E1 E2 H. revert i num infos pre pre' Hp E1 E2.
      induction H; intros i num infos pre pre' Hp E1 E2.
      - cbn in Hp. apply EOk_inj in Hp. subst infos. reflexivity.
      - apply parse_step in Hp. destruct (field_opts _ f) as [o|] eqn:Eo; [|apply visible_opts in Eo; congruence].
        destruct Hp as (fi & rest & -> & Hx & Ht & Hu & Ho & _ & Hp). cbn [encode_fields]. rewrite Hx.
        rewrite !app_nth2, E1, E2, !Nat.sub_diag by lia. cbn [nth].
        rewrite (field_same fi v v'); [|rewrite Ht; assumption|rewrite Hu, Ht; apply entries_nonptr].
        specialize (IHsame_fields _ _ _ (pre ++ [v]) (pre' ++ [v']) Hp). rewrite <- !app_assoc in IHsame_fields. cbn [app] in IHsame_fields.
        rewrite IHsame_fields; [reflexivity|rewrite app_length; cbn; lia|rewrite app_length; cbn; lia].
      - apply parse_step in Hp. destruct (field_opts _ f) as [o|] eqn:Eo; [|apply visible_opts in Eo; congruence].
        destruct Hp as (fi & rest & -> & Hx & Ht & Hu & Ho & _ & Hp). cbn [encode_fields]. rewrite Hx.
        rewrite !app_nth2, E1, E2, !Nat.sub_diag by lia. cbn [nth].
        assert (Ow : fo_write_empty (fi_opts fi) = false).
        { rewrite Ho. unfold field_opts in Eo. destruct (sf_exported f); [|discriminate Eo]. unfold writes_empty in H0.
          destruct (parse_field_options f) as [o0|]; [|discriminate Eo]. cbn [option_map] in Eo. injection Eo as <-. exact H0. }
        assert (F : encode_field env c rec fi v = encode_field env c rec fi v').
        { unfold encode_field. destruct (get_type_info env c (fi_type fi)); cbn [ebind]; try reflexivity.
          rewrite !default_pair. cbv iota beta. destruct H1 as [_ ->], H2 as [_ ->]. rewrite Ow. reflexivity. }
        rewrite F.
        specialize (IHsame_fields _ _ _ (pre ++ [v]) (pre' ++ [v']) Hp). rewrite <- !app_assoc in IHsame_fields. cbn [app] in IHsame_fields.
        rewrite IHsame_fields; [reflexivity|rewrite app_length; cbn; lia|rewrite app_length; cbn; lia].
      - apply parse_step in Hp. destruct (field_opts _ f) as [o|] eqn:Eo; [apply visible_opts with (num := Z.of_nat num + 1) in H; congruence|].
        specialize (IHsame_fields _ _ _ (pre ++ [v]) (pre' ++ [v']) Hp). rewrite <- !app_assoc in IHsame_fields. cbn [app] in IHsame_fields.
        apply IHsame_fields; rewrite app_length; cbn; lia.
    Qed.

    Lemma switch_same k info t v w o bare : minfo env c info t -> deref_type t = t -> same env t v w ->
      encode_switch env c rec k info v o bare = encode_switch env c rec k info w o bare.
    Proof.
      intros Hi D H. unfold encode_switch. pose proof (minfo_type _ _ _ _ Hi) as Ht. rewrite Ht, D.
      destruct (resolve env t) eqn:Er; try reflexivity.
      - apply same_other in H; [subst; reflexivity|]. rewrite Er; exact I.
      - apply same_other in H; [subst; reflexivity|]. rewrite Er; exact I.
      - destruct (is_uint8 env e) eqn:Eu.
        + inversion H; subst; try congruence; try discriminate.
          rewrite Er in H0. injection H0 as <- <-. destruct (uint8_prim _ Eu) as [p Hp]. rewrite (same_all_same p _ _ _ We Hp H1); reflexivity.
        + destruct (is_list_kind env e); [reflexivity|]. eapply list_same; eassumption.
      - destruct (is_uint8 env e) eqn:Eu.
        + inversion H; subst; try congruence; try discriminate; try reflexivity.
          rewrite Er in H0. injection H0 as <-. destruct (uint8_prim _ Eu) as [p Hp]. rewrite (same_all_same p _ _ _ We Hp H1); reflexivity.
        + destruct (is_list_kind env e); [reflexivity|]. eapply list_same; eassumption.
      - destruct info as [ci|ii]; [reflexivity|]. unfold encode_interface.
        assert (HH : (v = w \/ exists t0 t1 v0 v1, v = VIface (Some (t0, v0)) /\ w = VIface (Some (t1, v1)) /\ deref_type t1 = deref_type t0 /\
          match under v0, under v1 with Some a, Some b => same env (deref_type t0) a b | None, None => True | _, _ => False end)).
        { inversion H; subst; try congruence; try discriminate; [left; reflexivity| |]; right; do 4 eexists; (split; [reflexivity|]); (split; [reflexivity|]).
          - split; [reflexivity|]. apply same_under. assumption.
          - split; [assumption|]. match goal with A : under _ = Some _, B : under _ = Some _ |- _ => rewrite A, B end. assumption. }
        destruct HH as [->|(t0 & t1 & v0 & v' & -> & -> & Ed & H0)]; [reflexivity|]. rewrite Ed.
        rewrite !deref_pointers_under.
        destruct (under v0) as [a|], (under v') as [b|]; try contradiction; [|reflexivity].
        assert (G : (elet info := get_type_info env c (deref_type t0) in
                match info with
                | TIConc ci =>
                    match ci_reg ci with
                    | None => EErr "cannot encode unregistered concrete type"%string
                    | Some r =>
                        let need := ii_always ii ||
                          (1 <? length match assoc beqb (ri_prefix r) (ii_impls ii) with
                                       | Some l => l | None => [] end)%nat in
                        elet body := rec info a o true in
                        EOk (finish bare ((if need then 0 :: ri_disamb r else []) ++ ri_prefix r ++ body))
                    end
                | TIFace _ => EErr "cannot encode unregistered concrete type"%string
                end) = (elet info := get_type_info env c (deref_type t0) in
                match info with
                | TIConc ci =>
                    match ci_reg ci with
                    | None => EErr "cannot encode unregistered concrete type"%string
                    | Some r =>
                        let need := ii_always ii ||
                          (1 <? length match assoc beqb (ri_prefix r) (ii_impls ii) with
                                       | Some l => l | None => [] end)%nat in
                        elet body := rec info b o true in
                        EOk (finish bare ((if need then 0 :: ri_disamb r else []) ++ ri_prefix r ++ body))
                    end
                | TIFace _ => EErr "cannot encode unregistered concrete type"%string
                end)).
        { rewrite gti_deref. destruct (get_type_info env c t0) as [info| | |] eqn:Eg; cbn [ebind]; try reflexivity.
          pose proof (gti_minfo _ _ _ _ Hs Eg) as Hi0. destruct info as [ci|]; [|reflexivity]. destruct (ci_reg ci); [|reflexivity]. cbv zeta.
          rewrite (Hrec (TIConc ci) (deref_type t0) a b o true); [reflexivity|apply minfo_deref; exact Hi0|apply deref_idem|exact H0]. }
        pose proof (same_kind _ _ _ H0) as K. destruct a, b; try contradiction; try exact G; try reflexivity; try (subst; exact G); discriminate K.
      - destruct info as [ci|ii]; [|reflexivity]. destruct Hi as [Hct Hok]. unfold encode_struct. rewrite Hct, D, Er.
        inversion H; subst; try congruence; try discriminate.
        rewrite Er in H0. injection H0 as <-.
        destruct (info_ok_parts _ _ Hok) as (_ & Hp & _). rewrite Hct, D in Hp. unfold parse_struct_info in Hp. rewrite Er in Hp.
        rewrite (fields_same _ _ _ _ [] [] _ _ Hp eq_refl eq_refl H1 : encode_fields env c rec (ci_fields ci) l = encode_fields env c rec (ci_fields ci) l').
        reflexivity.
    Qed.
  End Rec.

  Theorem encode_same : forall k, enc_same (encode_reflect k env c).
  Proof.
    induction k as [|k IH]; intros info t v w o bare Hi D H; [reflexivity|].
    pose proof (switch_same _ IH (S k) info t v w o bare Hi D H) as S.
    assert (G : match info with
          | TIConc {| ci_type := t; ci_marshal := Some r |} =>
              elet rv := to_repr env t v in
              elet rinfo := get_type_info env c r in
              encode_reflect k env c rinfo rv o bare
          | _ => encode_switch env c (encode_reflect k env c) (Datatypes.S k) info v o bare
          end = match info with
          | TIConc {| ci_type := t; ci_marshal := Some r |} =>
              elet rv := to_repr env t w in
              elet rinfo := get_type_info env c r in
              encode_reflect k env c rinfo rv o bare
          | _ => encode_switch env c (encode_reflect k env c) (Datatypes.S k) info w o bare
          end).
    { destruct info as [[ct fs [r|] u rg]|ii]; try exact S. destruct Hi as [Hct Hok]. cbn [ci_type] in Hct. rewrite D in Hct. subst ct.
      pose proof (fun X => minfo_method env _ t X Hok) as M. specialize (M eq_refl). cbn [ci_marshal] in M. destruct M as (id & f & -> & Hf & Dr).
      cbn [to_repr]. rewrite Hf. pose proof (Hb _ _ _ _ _ Hf H) as B. unfold same_result in B.
      destruct (f v) as [a| | |], (f w) as [b| | |]; cbn [ebind]; try discriminate; try congruence.
      destruct (get_type_info env c r) as [rinfo| | |] eqn:Eg; cbn [ebind]; try reflexivity.
      eapply (IH rinfo r); [eapply gti_minfo; eassumption|exact Dr|exact B]. }
    pose proof (same_kind _ _ _ H) as K. cbn [encode_reflect].
    destruct v, w; try contradiction; try exact G; try reflexivity; discriminate K.
  Qed.

  Theorem marshal_same k t v w : same env t v w -> marshal_bare k env c t v = marshal_bare k env c t w.
  Proof.
    intros H. rewrite !marshal_eq. apply same_under in H. destruct (under v) as [a|], (under w) as [b|]; try contradiction; [|reflexivity].
    destruct (get_type_info env c t) as [info| | |] eqn:Eg; cbn [ebind]; try reflexivity.
    pose proof (minfo_deref _ _ _ _ (gti_minfo _ _ _ _ Hs Eg)) as Hi.
    unfold write_field.
    assert (R : forall o bare, encode_reflect k env c info a o bare = encode_reflect k env c info b o bare).
    { intros o bare. eapply encode_same; [exact Hi|apply deref_idem|exact H]. }
    rewrite (R top_opts true). destruct (negb _); [|reflexivity].
    destruct (type_to_typ3 _ _ _) as [z| | |]; cbn [ebind]; try reflexivity. rewrite (R no_opts _). reflexivity.
  Qed.
End Same.

Section Parts.
  Variable env : tenv.
  Hypothesis We : wf_env env.
  Variable c : codec.
  Hypothesis Hs : sane_codec env c.
  Hypothesis Hc : wf_codec env c.
  Hypothesis Hm : marshal_typed env.

  Lemma field_starts rec fi v b : fi_unpacked fi = entries env (fi_type fi) ->
    0 <= fo_num (fi_opts fi) < 2 ^ 29 -> encode_field env c rec fi v = EOk b -> b <> [] ->
    exists key wt r, 0 <= wt < 8 /\ leb128_min key (fo_num (fi_opts fi) * 8 + wt) /\ b = key ++ r.
  Proof.
    intros Hup Hn H Hb. unfold encode_field in H. einv H. rewrite default_pair in H. cbv iota beta in H. destruct (_ && _).
    { apply EOk_inj in H. subst b. contradiction. }
    pose proof (gti_minfo _ _ _ _ Hs E) as Hi. rewrite Hup in H. destruct (entries env (fi_type fi)) eqn:Een.
    - apply encode_list_inv in H. destruct H as (e & einfo & l & buf & He & _ & Hg & _ & -> & (z & Hz) & H). cbn [finish] in *.
      destruct (entries_elem _ _ Een) as (e' & He' & Hd & _). pose proof (elem_nonptr _ _ _ He') as Hp.
      rewrite (minfo_type _ _ _ _ Hi), (deref_nonptr _ Hp) in He. assert (e' = e) by congruence. subst e'. specialize (H _ Hz).
      rewrite (minfo_type _ _ _ _ (gti_minfo _ _ _ _ Hs Hg)) in Hz. rewrite (typ3_delimited _ _ _ _ Hz), Hd in H.
      destruct l as [|x l]; [cbn in H; apply EOk_inj in H; subst buf; contradiction|]. cbn [encode_unpacked] in H. einv H.
      destruct (is_default_value x) as [erv d]. einv H. einv H. apply EOk_inj in H. subst buf.
      assert (R : 0 <= Typ3ByteLength < 8) by (unfold Typ3ByteLength; lia).
      destruct (key_ok_inv _ _ _ (proj1 Hn) R E0) as [_ ->].
      eexists _, Typ3ByteLength, _. split; [unfold Typ3ByteLength; lia|]. split; [|reflexivity]. apply key_leb; [lia|unfold Typ3ByteLength; lia].
    - unfold write_field in H. einv H. einv H. einv H. destruct (_ && _); [apply EOk_inj in H; subst b; contradiction|].
      apply EOk_inj in H. subst b. pose proof (typ3_range _ _ _ _ E0) as R. destruct (key_ok_inv _ _ _ (proj1 Hn) R E1) as [_ ->].
      eexists _, _, _. split; [exact R|]. split; [|reflexivity]. apply key_leb; assumption.
  Qed.

  Lemma fields_parts k : forall fs i num infos pre l buf, parse_fields env fs i num = EOk infos -> length pre = i ->
    forall2b (fun f w => has_type env (sf_type f) w) fs l = true ->
    encode_fields env c (encode_reflect k env c) infos (pre ++ l) = EOk buf -> zlen buf < 2 ^ 63 ->
    exists ps, buf = concat ps /\ parts env c k (Z.of_nat num + 1) fs l ps.
  Proof.
    induction fs as [|f fs IH]; intros i num infos pre l buf Hp Hpre Ht H Hz.
    - cbn [parse_fields] in Hp. apply EOk_inj in Hp. subst infos. cbn [encode_fields] in H. apply EOk_inj in H. subst buf.
      destruct l; [|discriminate Ht]. exists []. split; [reflexivity|constructor].
    - destruct l as [|v l]; [discriminate|]. cbn [forall2b] in Ht. apply andb_true_iff in Ht. destruct Ht as [Hv Hl].
      apply parse_step in Hp.
      assert (A : pre ++ v :: l = (pre ++ [v]) ++ l) by (rewrite <- app_assoc; reflexivity).
      assert (Lp : length (pre ++ [v]) = S i) by (rewrite app_length; cbn; lia).
      destruct (field_opts (Z.of_nat num + 1) f) as [o|] eqn:Eo.
      + destruct Hp as (fi & rest & -> & Hix & Hty & Hup & Hop & _ & Hrest). cbn [encode_fields] in H. einv H. einv H.
        apply EOk_inj in H. subst buf. rewrite Hix, app_nth2, <- Hpre, Nat.sub_diag in E by lia. cbn [nth] in E.
        rewrite A in E0. rewrite zlen_app in Hz. pose proof (zlen_nonneg a). pose proof (zlen_nonneg a0).
        rewrite <- Hty in Hv, Hup. pose proof (field_lead env We c Hs _ _ _ _ (encode_lead env We c Hs Hm k) (blank_num env k) fi v a Hv Hup) as F.
        assert (Nn : 0 <= fo_num (fi_opts fi)) by (rewrite Hop; cbn [fo_num set_num]; apply u32_range).
        destruct (F Nn E ltac:(lia)) as [F1 F2]. rewrite Hop, Hty, (blank_field_num env _ (blank_num env k)) in F1, F2.
        destruct (IH _ _ _ (pre ++ [v]) l a0 Hrest Lp Hl E0 ltac:(lia)) as (ps & -> & P).
        replace (Z.of_nat (S num) + 1) with (Z.of_nat num + 1 + 1) in P by lia.
        destruct (blank_field env (blank k env) (sf_type f) o v) eqn:Eb.
        * rewrite (F1 eq_refl). exists ps. split; [reflexivity|]. eapply parts_blank; eassumption.
        * destruct (Z_lt_le_dec (Z.of_nat num + 1) (2 ^ 29)) as [Hn|Hn]; [|exists (a :: ps); split; [reflexivity|]; eapply parts_odd; eauto].
          rewrite u32_small in Hop, F2 by lia.
          assert (So : set_num (Z.of_nat num + 1) o = o).
          { unfold field_opts in Eo. destruct (sf_exported f); [|discriminate]. destruct (parse_field_options f) as [o0|]; [|discriminate].
            cbn [option_map] in Eo. injection Eo as <-. apply set_num_set. }
          rewrite So in Hop, F2.
          assert (No : fo_num o = Z.of_nat num + 1) by (rewrite <- So; reflexivity).
          destruct (norm_field env c (blank k env) (fixed_width k env) (norm k env c) (sf_type f) o v) eqn:En;
            [|exists (a :: ps); split; [reflexivity|]; eapply parts_odd; eauto].
          destruct (field_starts _ fi v a Hup ltac:(rewrite Hop; lia) E) as (key & wt & r & Hwt & Hk & ->); [apply F2; [reflexivity|discriminate]|].
          exists ((key ++ r) :: ps). split; [reflexivity|]. rewrite Hop, No in Hk. eapply parts_some; eauto.
      + rewrite A in H. destruct (IH _ _ _ (pre ++ [v]) l buf Hp Lp Hl H Hz) as (ps & -> & P). exists ps. split; [reflexivity|].
        apply parts_hidden; [|exact P]. eapply visible_opts. exact Eo.
  Qed.

  Lemma marshal_parts k t fs l bz pre : resolve env t = RStruct fs -> has_method env t = false -> has_type env t (VStruct l) = true ->
    marshal_bare (S k) env c t (VStruct l) = EOk bz -> zlen bz < 2 ^ 63 -> preamble c t pre ->
    exists ps, bz = pre ++ concat ps /\ parts env c k 1 fs l ps.
  Proof.
    intros Hr Hh Ht H Hz P. destruct (marshal_struct env c Hs _ _ _ _ _ Hr Hh H) as (ci & k' & body & Ek & Hg & Hct & -> & Hp & He).
    injection Ek as <-. rewrite zlen_app in Hz. pose proof (zlen_nonneg (prefix_of (TIConc ci))).
    cbn [has_type] in Ht. rewrite Hr in Ht.
    destruct (fields_parts k fs 0 0 _ [] l body Hp eq_refl Ht He ltac:(lia)) as (ps & -> & Q). exists ps. split; [|exact Q].
    rewrite (preamble_prefix env c Hc Hs t fs (TIConc ci) pre Hr Hg P). reflexivity.
  Qed.
End Parts.
