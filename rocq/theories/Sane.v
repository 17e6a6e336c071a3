(** What holds of the codec after every history of calls, also when some of them
    panicked: all type information in it is that of the type it is about. *)
From Coq Require Import ZArith String List Bool Lia.
From Verif Require Import Base Prims PrimFacts Types Codec Registry RegistryFacts.
Import ListNotations.
Local Open Scope Z_scope.

Definition rinfo_ok (env : tenv) (ci : cinfo) : Prop := info_ok env ci /\ ci_reg ci <> None.
Definition impls_ok (env : tenv) (ii : iinfo) : Prop :=
  forall k l ci, In (k, l) (ii_impls ii) -> In ci l -> rinfo_ok env ci /\ implements env ci ii = true.

Record sane_codec (env : tenv) (c : codec) : Prop := {
  sa_types : forall t ci, assoc gotype_eqb t (cd_types c) = Some ci -> ci_type ci = t /\ info_ok env ci;
  sa_conc : forall ci, In ci (cd_concretes c) -> rinfo_ok env ci;
  sa_disfix : forall d ci, assoc beqb d (cd_disfix c) = Some ci -> rinfo_ok env ci;
  sa_names : forall n ci, assoc beqb n (cd_names c) = Some ci -> rinfo_ok env ci;
  sa_impls : forall ii, In ii (cd_ifaces c) -> impls_ok env ii
}.

Lemma sane_new env : sane_codec env new_codec.
Proof. split; cbn; try discriminate; contradiction. Qed.

Lemma add_impl_in pb ci m k l x : In (k, l) (add_impl pb ci m) -> In x l ->
  x = ci \/ exists l', In (k, l') m /\ In x l'.
Proof.
  induction m as [|[k0 l0] m IH]; cbn [add_impl].
  - intros [H|[]] Hx. inversion H; subst. destruct Hx as [<-|[]]. left; reflexivity.
  - destruct (beqb pb k0).
    + intros [H|H] Hx.
      * inversion H; subst. apply in_app_or in Hx. destruct Hx as [Hx|[<-|[]]]; [|left; reflexivity].
        right. exists l0. split; [left; reflexivity|assumption].
      * right. exists l. split; [right; assumption|assumption].
    + intros [H|H] Hx.
      * inversion H; subst. right. exists l. split; [left; reflexivity|assumption].
      * destruct (IH H Hx) as [->|(l' & H1 & H2)]; [left; reflexivity|].
        right. exists l'. split; [right; assumption|assumption].
Qed.

Lemma impls_ok_add env ii ci : impls_ok env ii -> rinfo_ok env ci -> implements env ci ii = true ->
  impls_ok env (with_impls (add_impl (ci_prefix ci) ci (ii_impls ii)) ii).
Proof.
  intros H1 H2 H3 k l x Hin Hx. cbn [with_impls ii_impls] in Hin.
  destruct (add_impl_in _ _ _ _ _ _ Hin Hx) as [->|(l' & Ha & Hb)]; [split; assumption|].
  exact (H1 _ _ _ Ha Hb).
Qed.

Lemma impls_ok_collect env cs : forall ii, impls_ok env ii -> (forall ci, In ci cs -> rinfo_ok env ci) ->
  impls_ok env (collect_implementers env cs ii).
Proof.
  unfold collect_implementers. induction cs as [|ci cs IH]; intros ii H1 H2; cbn [fold_left]; [assumption|].
  apply IH; [|intros; apply H2; right; assumption].
  destruct (implements env ci ii) eqn:E; [|assumption]. apply impls_ok_add; try assumption. apply H2; left; reflexivity.
Qed.

Lemma add_check_sane env ci : rinfo_ok env ci -> forall l r ok, add_check_conflicts env ci l = (r, ok) ->
  (forall ii, In ii l -> impls_ok env ii) -> forall ii, In ii r -> impls_ok env ii.
Proof.
  intros Hci. induction l as [|i0 l IH]; cbn [add_check_conflicts]; intros r ok.
  - intros H _. inversion H. contradiction.
  - intros H Hl. destruct (implements env ci i0) eqn:E; cbn [negb] in H.
    + destruct (check_conflicts _).
      * destruct (add_check_conflicts env ci l) as [r' ok']. inversion H; subst; clear H.
        intros ii [<-|Hin]; [apply impls_ok_add; try assumption; apply Hl; left; reflexivity|].
        eapply IH; [reflexivity| |eassumption]. intros; apply Hl; right; assumption.
      * inversion H; subst; clear H. intros ii [<-|Hin]; [|apply Hl; right; assumption].
        intros k l' x Hin Hx. cbn [with_impls ii_impls] in Hin. unfold restore_impl in Hin.
        assert (Hin' : In (k, l') (ii_impls i0) \/ l' = []).
        { destruct (assoc _ _ _); [left; assumption|]. apply in_app_or in Hin. destruct Hin as [Hin|[Hin|[]]]; [left; assumption|].
          inversion Hin. right; reflexivity. }
        destruct Hin' as [Hin'| ->]; [|contradiction].
        exact (Hl i0 (or_introl eq_refl) _ _ _ Hin' Hx).
    + destruct (add_check_conflicts env ci l) as [r' ok']. inversion H; subst; clear H.
      intros ii [<-|Hin]; [apply Hl; left; reflexivity|].
      eapply IH; [reflexivity| |eassumption]. intros; apply Hl; right; assumption.
Qed.

Lemma sane_register_concrete env c t name : sane_codec env c -> sane_codec env (fst (register_concrete env c t name)).
Proof.
  intros W. unfold register_concrete. destruct (cd_sealed c); [exact W|].
  assert (G : forall rt ptr, sane_codec env (fst match new_registered_info env rt ptr name with
      | EOk ci =>
          let '(ifs, ok) := add_check_conflicts env ci (cd_ifaces c) in
          let c' := set_ifaces ifs c in
          if negb ok then (c', Some "conflicts with other(s)"%string)
          else set_registered c' ci name
      | EPanic p => (c, Some p)
      | EErr e => (c, Some e)
      | EFuel => (c, Some "fuel"%string)
      end)).
  { intros rt ptr. destruct (new_registered_info env rt ptr name) as [ci| | |] eqn:En; try exact W.
    destruct (new_registered_spec _ _ _ _ _ En) as (_ & Ht & Hok & _ & r & Hr & _).
    assert (Hri : rinfo_ok env ci) by (split; [assumption|congruence]).
    destruct (add_check_conflicts env ci (cd_ifaces c)) as [ifs ok] eqn:Ea.
    pose proof (add_check_sane _ _ Hri _ _ _ Ea (sa_impls _ _ W)) as Hif.
    destruct ok; cbn [negb fst]; [|split; cbn [set_ifaces cd_types cd_concretes cd_disfix cd_names cd_ifaces]; try apply W; assumption].
    assert (T : forall t' ci', assoc gotype_eqb t' ((ci_type ci, ci) :: cd_types c) = Some ci' -> ci_type ci' = t' /\ info_ok env ci').
    { intros t' ci'. cbn [assoc]. destruct (gotype_eqb t' (ci_type ci)) eqn:E; [|apply W].
      intros H; inversion H; subst ci'. apply gotype_eqb_eq in E. split; [congruence|assumption]. }
    assert (K : forall ci', In ci' (cd_concretes c ++ [ci]) -> rinfo_ok env ci').
    { intros ci' H. apply in_app_or in H. destruct H as [H|[<-|[]]]; [apply (sa_conc _ _ W); assumption|assumption]. }
    unfold set_registered. cbn [set_ifaces cd_types cd_disfix cd_names cd_sealed cd_concretes cd_ifaces].
    destruct (assoc gotype_eqb (ci_type ci) (cd_types c)) eqn:E1; cbn [fst].
    { split; cbn [set_ifaces cd_types cd_concretes cd_disfix cd_names cd_ifaces]; try apply W; assumption. }
    destruct (assoc beqb (ci_disfix ci) (cd_disfix c)); cbn [fst].
    { split; cbn [set_ifaces cd_types cd_concretes cd_disfix cd_names cd_ifaces]; try apply W; try assumption. }
    destruct (assoc beqb name (cd_names c)); cbn [fst].
    { split; cbn [set_ifaces cd_types cd_concretes cd_disfix cd_names cd_ifaces]; try apply W; try assumption. }
    split; cbn [set_ifaces cd_types cd_concretes cd_disfix cd_names cd_ifaces]; try apply W; try assumption.
    - intros d ci'. cbn [assoc]. destruct (beqb d (ci_disfix ci)); [intros H; inversion H; subst; assumption|apply W].
    - intros n ci'. cbn [assoc]. destruct (beqb n name); [intros H; inversion H; subst; assumption|apply W]. }
  destruct t as [| | | |e| | | | |]; try apply G; [|exact W]. destruct e; try apply G; exact W.
Qed.

Lemma sane_register_interface env c i o : sane_codec env c -> sane_codec env (fst (register_interface env c i o)).
Proof.
  intros W. unfold register_interface. destruct (cd_sealed c); [exact W|].
  destruct (new_iface_info env i o) as [info| | |] eqn:En; try exact W.
  destruct (negb _); [exact W|]. destruct (find_iface _ _); [exact W|]. cbn [fst].
  split; cbn [set_ifaces cd_types cd_concretes cd_disfix cd_names cd_ifaces]; try apply W.
  intros ii Hin. apply in_app_or in Hin. destruct Hin as [Hin|[<-|[]]]; [apply (sa_impls _ _ W); assumption|].
  apply impls_ok_collect; [|apply W]. pose proof (new_iface_spec _ _ _ _ En) as [_ H]. intros k l ci Hi. rewrite H in Hi. contradiction.
Qed.

Lemma sane_step env c x : sane_codec env c -> sane_codec env (fst (step env c x)).
Proof.
  intros W. destruct x; cbn [step].
  - apply sane_register_interface; assumption.
  - apply sane_register_concrete; assumption.
  - cbn [fst seal]. split; cbn; apply W.
  - cbn [fst]. unfold get_type_info_st. cbv zeta.
    assert (G : forall rt, sane_codec env (fst match assoc gotype_eqb rt (cd_types c) with
      | Some ci => (c, EOk (TIConc ci))
      | None => match new_type_info env rt with
          | EOk ci => (add_type rt ci c, EOk (TIConc ci))
          | EErr e => (c, EErr e)
          | EPanic p => (c, EPanic p)
          | EFuel => (c, EFuel)
          end
      end)).
    { intros rt. destruct (assoc gotype_eqb rt (cd_types c)) eqn:Ea; [exact W|].
      destruct (new_type_info env rt) as [ci| | |] eqn:En; try exact W. cbn [fst].
      pose proof (new_type_info_spec _ _ _ En) as (Hc & Ht & Hr).
      split; cbn [add_type cd_types cd_concretes cd_disfix cd_names cd_ifaces]; try apply W.
      intros t' ci'. cbn [assoc]. destruct (gotype_eqb t' rt) eqn:E; [|apply W].
      intros H; inversion H; subst ci'. apply gotype_eqb_eq in E. split; [congruence|]. split.
      - rewrite unreg_unreg by assumption. congruence.
      - unfold reg_ok. rewrite Hr. exact I. }
    destruct (deref_type t); try apply G. exact W.
Qed.

Theorem sane_run env h : sane_codec env (run env new_codec h).
Proof.
  assert (G : forall h c, sane_codec env c -> sane_codec env (run env c h)).
  { induction h0 as [|x h0 IH]; intros c W; cbn [run]; [assumption|]. apply IH, sane_step, W. }
  apply G, sane_new.
Qed.

Lemma info_ok_parts env ci : info_ok env ci ->
  conc_type (ci_type ci) = true /\ parse_struct_info env (ci_type ci) = EOk (ci_fields ci) /\
  marshal_repr env (ci_type ci) = EOk (ci_marshal ci) /\ unmarshal_repr env (ci_type ci) = EOk (ci_unmarshal ci).
Proof.
  intros [H _]. pose proof (new_type_info_spec _ _ _ H) as (Hc & _ & _). split; [assumption|].
  assert (H' : ebind (parse_struct_info env (ci_type ci)) (fun fs =>
      ebind (marshal_repr env (ci_type ci)) (fun m =>
      ebind (unmarshal_repr env (ci_type ci)) (fun u =>
      EOk {| ci_type := ci_type ci; ci_fields := fs; ci_marshal := m; ci_unmarshal := u; ci_reg := None |}))) = EOk (unreg ci))
    by (destruct (ci_type ci); try discriminate; exact H).
  unfold ebind in H'. destruct (parse_struct_info env (ci_type ci)); try discriminate.
  destruct (marshal_repr env (ci_type ci)); try discriminate. destruct (unmarshal_repr env (ci_type ci)); try discriminate.
  unfold unreg in H'. injection H' as -> -> ->. auto.
Qed.

Lemma get_type_info_sane env c t ci : sane_codec env c -> get_type_info env c t = EOk (TIConc ci) ->
  ci_type ci = deref_type t /\ info_ok env ci.
Proof.
  intros W. unfold get_type_info. cbv zeta.
  assert (G : forall rt, match assoc gotype_eqb rt (cd_types c) with
      | Some ci => EOk (TIConc ci) | None => ebind (new_type_info env rt) (fun ci => EOk (TIConc ci)) end = EOk (TIConc ci) ->
      ci_type ci = rt /\ info_ok env ci).
  { intros rt. destruct (assoc gotype_eqb rt (cd_types c)) as [ci'|] eqn:E.
    - intros H; inversion H; subst. apply W; assumption.
    - unfold ebind. destruct (new_type_info env rt) as [ci'| | |] eqn:En; try discriminate.
      intros H; inversion H; subst. pose proof (new_type_info_spec _ _ _ En) as (Hc & Ht & Hr).
      split; [assumption|]. split.
      + rewrite unreg_unreg by assumption. congruence.
      + unfold reg_ok. rewrite Hr. exact I. }
  destruct (deref_type t); try apply G. destruct (find_iface _ _); discriminate.
Qed.

Lemma get_type_info_iface_sane env c t ii : get_type_info env c t = EOk (TIFace ii) ->
  In ii (cd_ifaces c) /\ deref_type t = TIface (ii_id ii).
Proof.
  unfold get_type_info. cbv zeta.
  destruct (deref_type t); try (destruct (assoc _ _ _); [discriminate|]; unfold ebind; destruct (new_type_info env _); discriminate).
  destruct (find_iface i (cd_ifaces c)) as [ii'|] eqn:E; [|discriminate]. intros H; inversion H; subst.
  apply find_iface_some in E. destruct E as [E1 E2]. subst. auto.
Qed.
