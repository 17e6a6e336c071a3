(** Invariants of the codec registry. *)
From Coq Require Import ZArith String List Bool Lia Permutation.
From Coq Require Import ZifyBool ZifyNat.
From Verif Require Import Base Prims PrimFacts Types Codec BinEnc BinDec Amino Registry SpecRegistry FuelFacts.
Import ListNotations.
Local Open Scope Z_scope.

(** ** Equality tests *)

Lemma beqb_eq a : forall b, beqb a b = true <-> a = b.
Proof.
  induction a as [|x a IH]; intros [|y b]; cbn [beqb]; split; try discriminate; try reflexivity.
  - rewrite andb_true_iff, IH. intros [H ->]. f_equal. lia.
  - intros H. injection H as -> ->. rewrite andb_true_iff, IH. split; [lia|reflexivity].
Qed.
Lemma beqb_refl a : beqb a a = true.
Proof. apply beqb_eq; reflexivity. Qed.
Lemma beqb_neq a b : a <> b -> beqb a b = false.
Proof. intros H. destruct (beqb a b) eqn:E; [apply beqb_eq in E; contradiction|reflexivity]. Qed.

Lemma prim_eqb_eq a b : prim_eqb a b = true <-> a = b.
Proof. destruct a, b; cbn; split; intros; try discriminate; reflexivity. Qed.

Lemma gotype_eqb_refl a : gotype_eqb a a = true.
Proof.
  induction a; cbn [gotype_eqb]; rewrite ?Nat.eqb_refl, ?IHa, ?IHa1, ?IHa2; try reflexivity.
  apply prim_eqb_eq; reflexivity.
Qed.
Lemma gotype_eqb_eq a b : gotype_eqb a b = true <-> a = b.
Proof.
  split; [|intros ->; apply gotype_eqb_refl]. revert b.
  induction a; intros b H; destruct b; cbn [gotype_eqb] in H; try discriminate; try reflexivity;
    try (apply andb_true_iff in H; destruct H as [H1 H2]); f_equal; auto;
    try (apply prim_eqb_eq; assumption); try (apply Nat.eqb_eq; assumption).
Qed.
Lemma gotype_eqb_neq a b : a <> b -> gotype_eqb a b = false.
Proof. intros H. destruct (gotype_eqb a b) eqn:E; [apply gotype_eqb_eq in E; contradiction|reflexivity]. Qed.

(** ** [get_type_info] and the type cache *)

Lemma deref_type_not_ptr t : forall e, deref_type t <> TPtr e.
Proof. induction t; intros; cbn [deref_type]; try discriminate. apply IHt. Qed.
Lemma deref_type_idem t : deref_type (deref_type t) = deref_type t.
Proof. induction t; try reflexivity. cbn [deref_type]. exact IHt. Qed.

Lemma get_type_info_deref env c t : get_type_info env c (deref_type t) = get_type_info env c t.
Proof. unfold get_type_info. rewrite deref_type_idem. reflexivity. Qed.

(** For a non-pointer, non-interface type. *)
Definition conc_type (t : gotype) : bool := match t with TPtr _ | TIface _ => false | _ => true end.

Lemma get_type_info_conc env c t : conc_type t = true ->
  get_type_info env c t = match assoc gotype_eqb t (cd_types c) with
                          | Some ci => EOk (TIConc ci)
                          | None => ebind (new_type_info env t) (fun ci => EOk (TIConc ci))
                          end.
Proof. destruct t; intros H; try discriminate; reflexivity. Qed.
Lemma get_type_info_iface env c i :
  get_type_info env c (TIface i) = match find_iface i (cd_ifaces c) with
                                   | Some ii => EOk (TIFace ii) | None => EErr "unregistered interface"%string end.
Proof. reflexivity. Qed.

Lemma get_type_info_st_res env c t : snd (get_type_info_st env c t) = get_type_info env c t.
Proof.
  unfold get_type_info_st, get_type_info. destruct (deref_type t) eqn:E; try reflexivity;
  (destruct (assoc _ _ _); [reflexivity|]; unfold ebind; destruct (new_type_info env _); reflexivity).
Qed.

Lemma get_type_info_st_cases env c t :
  fst (get_type_info_st env c t) = c \/
  exists rt ci, rt = deref_type t /\ conc_type rt = true /\ assoc gotype_eqb rt (cd_types c) = None /\
    new_type_info env rt = EOk ci /\ fst (get_type_info_st env c t) = add_type rt ci c.
Proof.
  unfold get_type_info_st. pose proof (deref_type_not_ptr t) as Hnp.
  destruct (deref_type t) eqn:E; try (left; reflexivity); try (exfalso; eapply Hnp; reflexivity);
  (destruct (assoc _ _ _) eqn:Ea; [left; reflexivity|];
   destruct (new_type_info env _) eqn:En; try (left; reflexivity);
   right; eexists _, _; splits; [reflexivity|reflexivity|eassumption|eassumption|reflexivity]).
Qed.

Theorem get_type_info_st_equiv env c t : codec_equiv env c (fst (get_type_info_st env c t)).
Proof.
  destruct (get_type_info_st_cases env c t) as [-> | (rt & ci & Hrt & Hconc & Ha & Hn & ->)]; [apply codec_equiv_refl|].
  split; try reflexivity. intros t'. rewrite <- (get_type_info_deref env c t'), <- (get_type_info_deref env (add_type rt ci c) t').
  pose proof (deref_type_not_ptr t') as Hnp'. generalize dependent (deref_type t'). intros t1 Hnp'.
  destruct (conc_type t1) eqn:E1.
  - rewrite !get_type_info_conc by assumption. cbn [cd_types add_type assoc].
    destruct (gotype_eqb t1 rt) eqn:Eq; [|apply rsim_refl].
    apply gotype_eqb_eq in Eq. subst t1. rewrite Ha, Hn. apply rsim_refl.
  - destruct t1; try discriminate; [exfalso; eapply Hnp'; reflexivity | apply rsim_refl].
Qed.

(** ** The invariant of panic-free histories *)

Definition impls_of (ii : iinfo) (p : bytes) : list cinfo :=
  match assoc beqb p (ii_impls ii) with Some l => l | None => [] end.
Definition unreg (ci : cinfo) : cinfo :=
  {| ci_type := ci_type ci; ci_fields := ci_fields ci; ci_marshal := ci_marshal ci;
     ci_unmarshal := ci_unmarshal ci; ci_reg := None |}.
Definition reg_ok (env : tenv) (ci : cinfo) : Prop :=
  match ci_reg ci with
  | Some r => name_to_disfix env (ri_name r) = EOk (ri_disamb r, ri_prefix r)
  | None => True
  end.
Definition ci_name (ci : cinfo) : option bytes := option_map ri_name (ci_reg ci).
Definition info_ok (env : tenv) (ci : cinfo) : Prop :=
  new_type_info env (ci_type ci) = EOk (unreg ci) /\ reg_ok env ci.

Record wf_codec (env : tenv) (c : codec) : Prop := {
  wc_types : forall t ci, assoc gotype_eqb t (cd_types c) = Some ci -> ci_type ci = t /\ info_ok env ci;
  wc_conc : forall ci, In ci (cd_concretes c) <->
              assoc gotype_eqb (ci_type ci) (cd_types c) = Some ci /\ ci_reg ci <> None;
  wc_disfix : forall d ci, assoc beqb d (cd_disfix c) = Some ci <-> In ci (cd_concretes c) /\ ci_disfix ci = d;
  wc_names : forall n ci, assoc beqb n (cd_names c) = Some ci <-> In ci (cd_concretes c) /\ ci_name ci = Some n;
  wc_nodup : NoDup (map ci_type (cd_concretes c));
  wc_ifids : NoDup (map ii_id (cd_ifaces c));
  wc_impls : forall ii p, In ii (cd_ifaces c) ->
               impls_of ii p = filter (fun ci => implements env ci ii && beqb (ci_prefix ci) p) (cd_concretes c);
  wc_nonempty : forall ii, In ii (cd_ifaces c) -> Forall (fun e => snd e <> []) (ii_impls ii);
  wc_conf : forall ii, In ii (cd_ifaces c) -> check_conflicts ii = true
}.

Lemma wf_new env : wf_codec env new_codec.
Proof.
  split; cbn; intros; try discriminate; try contradiction; try constructor; try tauto; try (intros; discriminate).
  - intros [H _]; discriminate.
Qed.

Lemma new_type_info_spec env t ci : new_type_info env t = EOk ci ->
  conc_type t = true /\ ci_type ci = t /\ ci_reg ci = None.
Proof.
  intros H. assert (Hc : conc_type t = true) by (destruct t; try reflexivity; discriminate).
  split; [exact Hc|].
  assert (H' : ebind (parse_struct_info env t) (fun fs =>
      ebind (marshal_repr env t) (fun m =>
      ebind (unmarshal_repr env t) (fun u =>
      EOk {| ci_type := t; ci_fields := fs; ci_marshal := m; ci_unmarshal := u; ci_reg := None |}))) = EOk ci)
    by (destruct t; try discriminate; exact H).
  unfold ebind in H'. destruct (parse_struct_info env t); try discriminate.
  destruct (marshal_repr env t); try discriminate. destruct (unmarshal_repr env t); try discriminate.
  inversion H'. split; reflexivity.
Qed.

Lemma unreg_unreg ci : ci_reg ci = None -> unreg ci = ci.
Proof. destruct ci; cbn. intros ->. reflexivity. Qed.

Lemma wf_add_type env c t ci : wf_codec env c -> assoc gotype_eqb t (cd_types c) = None ->
  new_type_info env t = EOk ci -> wf_codec env (add_type t ci c).
Proof.
  intros W Ha Hn. pose proof (new_type_info_spec _ _ _ Hn) as (Hc & Ht & Hr).
  split; cbn [add_type cd_types cd_concretes cd_ifaces cd_disfix cd_names]; try apply W.
  - intros t' ci'. cbn [assoc]. destruct (gotype_eqb t' t) eqn:E.
    + apply gotype_eqb_eq in E. intros H. inversion H; subst. split; [reflexivity|]. split.
      * rewrite unreg_unreg by assumption. exact Hn.
      * unfold reg_ok. rewrite Hr. exact I.
    + apply W.
  - intros ci'. cbn [assoc]. rewrite (wc_conc _ _ W). destruct (gotype_eqb (ci_type ci') t) eqn:E; [|tauto].
    apply gotype_eqb_eq in E. split.
    + intros [H _]. congruence.
    + intros [H H']. inversion H; subst. congruence.
Qed.

Lemma wf_use env c t : wf_codec env c -> wf_codec env (fst (get_type_info_st env c t)).
Proof.
  intros W. destruct (get_type_info_st_cases env c t) as [-> | (rt & ci & Hrt & Hconc & Ha & Hn & ->)]; [exact W|].
  apply wf_add_type; assumption.
Qed.

Lemma wf_seal env c : wf_codec env c -> wf_codec env (seal c).
Proof. intros W. split; apply W. Qed.

(** ** Implementer tables *)

Lemma add_impl_get p ci m : forall q,
  match assoc beqb q (add_impl p ci m) with Some l => l | None => [] end =
  match assoc beqb q m with Some l => l | None => [] end ++ (if beqb p q then [ci] else []).
Proof.
  induction m as [|[k l] m IH]; intros q; cbn [add_impl assoc].
  - destruct (beqb q p) eqn:E.
    + apply beqb_eq in E. subst. rewrite beqb_refl. reflexivity.
    + rewrite beqb_neq; [reflexivity|]. intros ->. rewrite beqb_refl in E. discriminate.
  - destruct (beqb p k) eqn:Ek; cbn [assoc].
    + apply beqb_eq in Ek. subst k. destruct (beqb q p) eqn:E.
      * apply beqb_eq in E. subst. rewrite beqb_refl. reflexivity.
      * rewrite (beqb_neq p q); [rewrite app_nil_r; reflexivity|]. intros ->. rewrite beqb_refl in E. discriminate.
    + destruct (beqb q k) eqn:E; [|apply IH]. apply beqb_eq in E. subst q. rewrite Ek, app_nil_r. reflexivity.
Qed.

Lemma add_impl_nonempty p ci m : Forall (fun e : bytes * list cinfo => snd e <> []) m ->
  Forall (fun e => snd e <> []) (add_impl p ci m).
Proof.
  induction 1 as [|[k l] m Hl Hm IH]; cbn [add_impl].
  - constructor; [discriminate|constructor].
  - destruct (beqb p k); constructor; try assumption. cbn. destruct l; discriminate.
Qed.

Lemma with_impls_id m ii : ii_id (with_impls m ii) = ii_id ii.
Proof. reflexivity. Qed.

Lemma collect_spec env cs : forall ii,
  ii_id (collect_implementers env cs ii) = ii_id ii /\
  (forall p, impls_of (collect_implementers env cs ii) p =
             impls_of ii p ++ filter (fun ci => implements env ci ii && beqb (ci_prefix ci) p) cs) /\
  (Forall (fun e => snd e <> []) (ii_impls ii) ->
   Forall (fun e => snd e <> []) (ii_impls (collect_implementers env cs ii))).
Proof.
  unfold collect_implementers. induction cs as [|ci cs IH]; intros ii; cbn [fold_left].
  - splits; try reflexivity; [intros; cbn; rewrite app_nil_r; reflexivity | auto].
  - destruct (implements env ci ii) eqn:E.
    + destruct (IH (with_impls (add_impl (ci_prefix ci) ci (ii_impls ii)) ii)) as (H1 & H2 & H3).
      splits.
      * rewrite H1. reflexivity.
      * intros p. rewrite H2. unfold impls_of at 1. cbn [ii_impls with_impls]. rewrite add_impl_get.
        cbn [filter]. rewrite E. cbn [andb]. fold (impls_of ii p). rewrite <- app_assoc. f_equal.
        destruct (beqb (ci_prefix ci) p); reflexivity.
      * intros H. apply H3. cbn [ii_impls with_impls]. apply add_impl_nonempty. exact H.
    + destruct (IH ii) as (H1 & H2 & H3). splits; try assumption.
      intros p. rewrite H2. cbn [filter]. rewrite E. reflexivity.
Qed.

Lemma new_iface_spec env i o ii : new_iface_info env i o = EOk ii -> ii_id ii = i /\ ii_impls ii = [].
Proof.
  unfold new_iface_info. destruct o as [o|]; [|intros H; inversion H; split; reflexivity].
  unfold ebind. destruct (emap _ _); intros H; inversion H; split; reflexivity.
Qed.

Lemma find_iface_none i l : find_iface i l = None <-> ~ In i (map ii_id l).
Proof.
  unfold find_iface. induction l as [|x l IH]; cbn [find map In]; [tauto|].
  destruct (ii_id x =? i)%nat eqn:E.
  - apply Nat.eqb_eq in E. split; [discriminate|]. intros H. exfalso. apply H. left; assumption.
  - apply Nat.eqb_neq in E. rewrite IH. tauto.
Qed.

Lemma find_iface_some i l ii : find_iface i l = Some ii -> In ii l /\ ii_id ii = i.
Proof.
  intros H. apply find_some in H. rewrite Nat.eqb_eq in H. exact H.
Qed.

Lemma find_iface_in l ii : NoDup (map ii_id l) -> In ii l -> find_iface (ii_id ii) l = Some ii.
Proof.
  unfold find_iface. induction l as [|x l IH]; cbn [find map In]; [tauto|]. intros Hn [->|H].
  - rewrite Nat.eqb_refl. reflexivity.
  - inversion Hn; subst. destruct (ii_id x =? ii_id ii)%nat eqn:E; [|apply IH; assumption].
    apply Nat.eqb_eq in E. exfalso. apply H2. rewrite E. apply in_map. assumption.
Qed.

Lemma NoDup_snoc {A} (l : list A) x : NoDup l -> ~ In x l -> NoDup (l ++ [x]).
Proof.
  intros H1 H2. apply NoDup_rev in H1. rewrite <- (rev_involutive (l ++ [x])). apply NoDup_rev.
  rewrite rev_app_distr. cbn. constructor; [rewrite <- in_rev; assumption | assumption].
Qed.

Lemma wf_register_interface env c i o c' : wf_codec env c ->
  register_interface env c i o = (c', None) -> wf_codec env c'.
Proof.
  intros W. unfold register_interface. destruct (cd_sealed c); [discriminate|].
  destruct (new_iface_info env i o) as [info| | |] eqn:E; try discriminate.
  apply new_iface_spec in E. destruct E as [Hid Him].
  destruct (collect_spec env (cd_concretes c) info) as (H1 & H2 & H3).
  set (info' := collect_implementers env (cd_concretes c) info) in *.
  destruct (check_conflicts info') eqn:Ec; [|discriminate]. cbn [negb].
  destruct (find_iface i (cd_ifaces c)) eqn:Ef; [discriminate|].
  intros H. inversion H; subst c'; clear H. apply find_iface_none in Ef.
  split; cbn [set_ifaces cd_types cd_concretes cd_ifaces cd_disfix cd_names]; try apply W.
  - rewrite map_app. apply NoDup_snoc; [apply W|]. rewrite H1, Hid. exact Ef.
  - intros ii p Hin. apply in_app_or in Hin. destruct Hin as [Hin|[<-|[]]]; [apply W; assumption|].
    rewrite H2. unfold impls_of. rewrite Him. cbn [assoc app]. apply filter_ext.
    intros ci. unfold implements. rewrite H1. reflexivity.
  - intros ii Hin. apply in_app_or in Hin. destruct Hin as [Hin|[<-|[]]]; [apply W; assumption|].
    apply H3. rewrite Him. constructor.
  - intros ii Hin. apply in_app_or in Hin. destruct Hin as [Hin|[<-|[]]]; [apply W; assumption|]. exact Ec.
Qed.

Lemma new_registered_spec env t ptr name ci : new_registered_info env t ptr name = EOk ci ->
  conc_type t = true /\ ci_type ci = t /\ info_ok env ci /\ ci_name ci = Some name /\
  exists r, ci_reg ci = Some r /\ ri_name r = name /\ ri_ptr r = ptr.
Proof.
  unfold new_registered_info, ebind. destruct (new_type_info env t) as [ci0| | |] eqn:E; try discriminate.
  destruct (name_to_disfix env name) as [[d p]| | |] eqn:En; try discriminate.
  intros H. inversion H; subst; clear H. pose proof (new_type_info_spec _ _ _ E) as (Hc & Ht & Hr).
  splits; try assumption.
  - unfold info_ok, unreg, reg_ok. cbn. split; [|assumption]. rewrite Ht. rewrite E.
    destruct ci0; cbn in *; subst; reflexivity.
  - reflexivity.
  - eexists; splits; reflexivity.
Qed.

Lemma add_check_spec env ci : forall l r, add_check_conflicts env ci l = (r, true) ->
  r = map (fun ii => if implements env ci ii then with_impls (add_impl (ci_prefix ci) ci (ii_impls ii)) ii else ii) l /\
  (forall ii, In ii l -> implements env ci ii = true ->
     check_conflicts (with_impls (add_impl (ci_prefix ci) ci (ii_impls ii)) ii) = true).
Proof.
  induction l as [|ii l IH]; cbn [add_check_conflicts map].
  - intros r H. inversion H. split; [reflexivity|intros ? []].
  - destruct (implements env ci ii) eqn:E; cbn [negb].
    + destruct (check_conflicts _) eqn:Ec.
      * destruct (add_check_conflicts env ci l) as [r' ok]. intros r H. inversion H; subst; clear H.
        destruct (IH r' eq_refl) as [-> H2]. split; [reflexivity|]. intros ii' [<-|Hin] Hi; [assumption|apply H2; assumption].
      * intros r H. inversion H.
    + destruct (add_check_conflicts env ci l) as [r' ok]. intros r H. inversion H; subst; clear H.
      destruct (IH r' eq_refl) as [-> H2]. split; [reflexivity|]. intros ii' [<-|Hin] Hi; [congruence|apply H2; assumption].
Qed.

(** What a successful RegisterConcrete did. *)
Lemma register_concrete_inv env c t name c' : register_concrete env c t name = (c', None) ->
  exists rt ptr ci, cd_sealed c = false /\
    ((t = TPtr rt /\ ptr = true) \/ (t = rt /\ ptr = false)) /\ conc_type rt = true /\
    new_registered_info env rt ptr name = EOk ci /\
    assoc gotype_eqb rt (cd_types c) = None /\
    assoc beqb (ci_disfix ci) (cd_disfix c) = None /\ assoc beqb name (cd_names c) = None /\
    (forall ii, In ii (cd_ifaces c) -> implements env ci ii = true ->
       check_conflicts (with_impls (add_impl (ci_prefix ci) ci (ii_impls ii)) ii) = true) /\
    c' = {| cd_sealed := cd_sealed c; cd_types := (rt, ci) :: cd_types c;
            cd_ifaces := map (fun ii => if implements env ci ii
                                        then with_impls (add_impl (ci_prefix ci) ci (ii_impls ii)) ii else ii) (cd_ifaces c);
            cd_concretes := cd_concretes c ++ [ci];
            cd_disfix := (ci_disfix ci, ci) :: cd_disfix c; cd_names := (name, ci) :: cd_names c |}.
Proof.
  unfold register_concrete. destruct (cd_sealed c) eqn:Es; [discriminate|].
  pose (reg := fun (rt : gotype) (ptr : bool) =>
      match new_registered_info env rt ptr name with
      | EOk ci =>
          let '(ifs, ok) := add_check_conflicts env ci (cd_ifaces c) in
          let c' := set_ifaces ifs c in
          if negb ok then (c', Some "conflicts with other(s)"%string)
          else set_registered c' ci name
      | EPanic p => (c, Some p)
      | EErr e => (c, Some e)
      | EFuel => (c, Some "fuel"%string)
      end : rres).
  assert (R : forall rt ptr, reg rt ptr = (c', None) -> ((t = TPtr rt /\ ptr = true) \/ (t = rt /\ ptr = false)) ->
    exists rt ptr ci, false = false /\
    ((t = TPtr rt /\ ptr = true) \/ (t = rt /\ ptr = false)) /\ conc_type rt = true /\
    new_registered_info env rt ptr name = EOk ci /\
    assoc gotype_eqb rt (cd_types c) = None /\
    assoc beqb (ci_disfix ci) (cd_disfix c) = None /\ assoc beqb name (cd_names c) = None /\
    (forall ii, In ii (cd_ifaces c) -> implements env ci ii = true ->
       check_conflicts (with_impls (add_impl (ci_prefix ci) ci (ii_impls ii)) ii) = true) /\
    c' = {| cd_sealed := false; cd_types := (rt, ci) :: cd_types c;
            cd_ifaces := map (fun ii => if implements env ci ii
                                        then with_impls (add_impl (ci_prefix ci) ci (ii_impls ii)) ii else ii) (cd_ifaces c);
            cd_concretes := cd_concretes c ++ [ci];
            cd_disfix := (ci_disfix ci, ci) :: cd_disfix c; cd_names := (name, ci) :: cd_names c |}).
  { intros rt ptr H Hsh. exists rt, ptr. unfold reg in H; clear reg.
    destruct (new_registered_info env rt ptr name) as [ci| | |] eqn:En; try discriminate. exists ci.
    destruct (new_registered_spec _ _ _ _ _ En) as (Hc & Ht & _ & _ & _).
    destruct (add_check_conflicts env ci (cd_ifaces c)) as [ifs ok] eqn:Ea. destruct ok; [|discriminate].
    cbn [negb] in H. apply add_check_spec in Ea. destruct Ea as [-> Hconf].
    unfold set_registered in H. cbn [cd_types set_ifaces cd_disfix cd_names cd_sealed cd_concretes cd_ifaces] in H.
    rewrite Ht in H.
    destruct (assoc gotype_eqb rt (cd_types c)) eqn:E1; [discriminate|].
    destruct (assoc beqb (ci_disfix ci) (cd_disfix c)) eqn:E2; [discriminate|].
    destruct (assoc beqb name (cd_names c)) eqn:E3; [discriminate|].
    inversion H. splits; try assumption; try reflexivity. rewrite Es. reflexivity. }
  destruct t; try (intros H; apply (R _ _ H); right; split; reflexivity); try discriminate.
  destruct t; try (intros H; apply (R _ _ H); left; split; reflexivity); try discriminate.
Qed.

Lemma assoc_map_in {A} p (m : list (bytes * A)) x : assoc beqb p m = Some x -> In (p, x) m.
Proof.
  induction m as [|[k y] m IH]; cbn [assoc]; [discriminate|]. destruct (beqb p k) eqn:E.
  - apply beqb_eq in E. intros H; inversion H; subst. left; reflexivity.
  - intros H. right. apply IH; assumption.
Qed.

Lemma wf_register_concrete env c t name c' : wf_codec env c ->
  register_concrete env c t name = (c', None) -> wf_codec env c'.
Proof.
  intros W H. apply register_concrete_inv in H.
  destruct H as (rt & ptr & ci & _ & _ & Hc & Hn & Ha & Hd & Hnm & Hconf & ->).
  destruct (new_registered_spec _ _ _ _ _ Hn) as (_ & Ht & Hok & Hname & r & Hreg & _).
  split; cbn [cd_types cd_concretes cd_ifaces cd_disfix cd_names].
  - intros t' ci'. cbn [assoc]. destruct (gotype_eqb t' rt) eqn:E; [|apply W].
    apply gotype_eqb_eq in E. intros H; inversion H; subst. split; [reflexivity|exact Hok].
  - intros ci'. rewrite in_app_iff. cbn [assoc In]. rewrite (wc_conc _ _ W).
    destruct (gotype_eqb (ci_type ci') rt) eqn:E.
    + apply gotype_eqb_eq in E. split.
      * intros [[H _]|[<-|[]]]; [congruence|]. split; congruence.
      * intros [H _]. inversion H. right; left; reflexivity.
    + split; [|tauto]. intros [H|[<-|[]]]; [exact H|]. rewrite Ht, gotype_eqb_refl in E. discriminate.
  - intros d ci'. cbn [assoc]. rewrite in_app_iff. cbn [In]. destruct (beqb d (ci_disfix ci)) eqn:E.
    + apply beqb_eq in E. subst d. split.
      * intros H; inversion H. subst. tauto.
      * intros [[H|[->|[]]] Hd']; [|reflexivity]. exfalso.
        assert (X : assoc beqb (ci_disfix ci) (cd_disfix c) = Some ci') by (apply W; split; assumption). congruence.
    + rewrite (wc_disfix _ _ W). split; [tauto|]. intros [[H|[<-|[]]] Hd']; [tauto|]. subst d. rewrite beqb_refl in E. discriminate.
  - intros n ci'. cbn [assoc]. rewrite in_app_iff. cbn [In]. destruct (beqb n name) eqn:E.
    + apply beqb_eq in E. subst n. split.
      * intros H; inversion H. subst. tauto.
      * intros [[H|[->|[]]] Hd']; [|reflexivity]. exfalso.
        assert (X : assoc beqb name (cd_names c) = Some ci') by (apply W; split; assumption). congruence.
    + rewrite (wc_names _ _ W). split; [tauto|]. intros [[H|[<-|[]]] Hd']; [tauto|]. rewrite Hname in Hd'. inversion Hd'; subst.
      rewrite beqb_refl in E. discriminate.
  - rewrite map_app. apply NoDup_snoc; [apply W|]. rewrite Ht. intros Hin. apply in_map_iff in Hin.
    destruct Hin as (ci' & Ht' & Hin). apply (wc_conc _ _ W) in Hin. rewrite Ht' in Hin. destruct Hin. congruence.
  - rewrite map_map. erewrite map_ext; [apply W|]. intros ii. cbn beta. destruct (implements env ci ii); reflexivity.
  - intros ii p Hin. apply in_map_iff in Hin. destruct Hin as (ii0 & <- & Hin).
    rewrite filter_app. cbn [filter].
    destruct (implements env ci ii0) eqn:Ei.
    + unfold impls_of. cbn [ii_impls with_impls]. rewrite add_impl_get. fold (impls_of ii0 p).
      rewrite (wc_impls _ _ W) by assumption.
      change (implements env ci (with_impls (add_impl (ci_prefix ci) ci (ii_impls ii0)) ii0)) with (implements env ci ii0).
      rewrite Ei. cbn [andb]. reflexivity.
    + rewrite Ei. cbn [andb]. rewrite app_nil_r. apply W; assumption.
  - intros ii Hin. apply in_map_iff in Hin. destruct Hin as (ii0 & <- & Hin).
    destruct (implements env ci ii0); [|apply W; assumption]. cbn [ii_impls with_impls].
    apply add_impl_nonempty. apply W; assumption.
  - intros ii Hin. apply in_map_iff in Hin. destruct Hin as (ii0 & <- & Hin).
    destruct (implements env ci ii0) eqn:Ei; [|apply W; assumption]. apply Hconf; assumption.
Qed.

Lemma wf_step env c x c' : wf_codec env c -> step env c x = (c', None) -> wf_codec env c'.
Proof.
  intros W. destruct x; cbn [step]; intros H.
  - eapply wf_register_interface; eassumption.
  - eapply wf_register_concrete; eassumption.
  - inversion H. apply wf_seal. exact W.
  - inversion H. apply wf_use. exact W.
Qed.

Theorem wf_run env : forall h c, wf_codec env c -> clean env c h = true -> wf_codec env (run env c h).
Proof.
  induction h as [|x h IH]; intros c W; cbn [run clean]; [intros _; exact W|].
  destruct (step env c x) as [c' [p|]] eqn:E; [discriminate|]. cbn [fst]. apply IH. eapply wf_step; eassumption.
Qed.

Theorem wf_history env h : clean env new_codec h = true -> wf_codec env (run env new_codec h).
Proof. apply wf_run, wf_new. Qed.

(** ** What a history registered *)

Definition reg_call (env : tenv) (x : gotype * bytes) : eres cinfo :=
  new_registered_info env (conc_of (fst x)) (is_ptr (fst x)) (snd x).

Lemma emap_app {A B} (f : A -> eres B) l1 l2 r1 r2 : emap f l1 = EOk r1 -> emap f l2 = EOk r2 ->
  emap f (l1 ++ l2) = EOk (r1 ++ r2).
Proof.
  revert r1. induction l1 as [|x l1 IH]; intros r1; cbn [emap app].
  - intros H H2. inversion H. exact H2.
  - unfold ebind. destruct (f x); try discriminate. destruct (emap f l1) eqn:E; try discriminate.
    intros H H2. inversion H; subst. rewrite (IH _ eq_refl H2). reflexivity.
Qed.
Lemma emap_in {A B} (f : A -> eres B) l r : emap f l = EOk r ->
  (forall x, In x l -> exists y, f x = EOk y /\ In y r) /\ (forall y, In y r -> exists x, In x l /\ f x = EOk y).
Proof.
  revert r. induction l as [|x l IH]; intros r; cbn [emap].
  - intros H; inversion H. split; intros ? [].
  - unfold ebind. destruct (f x) eqn:Ef; try discriminate. destruct (emap f l) eqn:E; try discriminate.
    intros H; inversion H; subst. destruct (IH _ eq_refl) as [H1 H2]. split.
    + intros y [<-|Hy]; [exists a; split; [assumption|left; reflexivity]|].
      destruct (H1 _ Hy) as (z & Hz & Hin). exists z. split; [assumption|right; assumption].
    + intros y [<-|Hy]; [exists x; split; [left; reflexivity|assumption]|].
      destruct (H2 _ Hy) as (z & Hz & Hin). exists z. split; [right; assumption|assumption].
Qed.
Lemma emap_perm_ok {A B} (f : A -> eres B) l l' : Permutation l l' -> forall r,
  emap f l = EOk r -> exists r', emap f l' = EOk r'.
Proof.
  induction 1; intros r; cbn [emap]; unfold ebind; eauto.
  - destruct (f x); try discriminate. destruct (emap f l) eqn:E; try discriminate. intros _.
    destruct (IHPermutation _ eq_refl) as [? ->]. eauto.
  - destruct (f x), (f y); try discriminate; destruct (emap f l); try discriminate; eauto.
  - intros H1. destruct (IHPermutation1 _ H1) as [? ?]. eapply IHPermutation2; eassumption.
Qed.
Lemma emap_perm {A B} (f : A -> eres B) l l' : Permutation l l' -> forall r r',
  emap f l = EOk r -> emap f l' = EOk r' -> Permutation r r'.
Proof.
  induction 1; intros r r'; cbn [emap]; unfold ebind.
  - intros H1 H2. inversion H1; inversion H2. constructor.
  - destruct (f x); try discriminate. destruct (emap f l) eqn:E1; try discriminate.
    destruct (emap f l') eqn:E2; try discriminate. intros H1 H2. inversion H1; inversion H2. constructor.
    apply IHPermutation; reflexivity.
  - destruct (f x), (f y); try discriminate; destruct (emap f l); try discriminate.
    intros H1 H2. inversion H1; inversion H2. constructor.
  - intros H1 H2. destruct (emap_perm_ok f _ _ H _ H1) as [r0 E].
    eapply perm_trans; [apply IHPermutation1|apply IHPermutation2]; eauto.
Qed.

(** The part of an interface's information fixed when it is registered. *)
Definition bare_iface (ii : iinfo) : iinfo := with_impls [] ii.
Definition iface_call (env : tenv) (x : ifid * option iopts) : eres iinfo := new_iface_info env (fst x) (snd x).

Lemma collect_bare env cs : forall ii, bare_iface (collect_implementers env cs ii) = bare_iface ii.
Proof.
  unfold collect_implementers. induction cs as [|ci cs IH]; intros ii; cbn [fold_left]; [reflexivity|].
  rewrite IH. destruct (implements env ci ii); reflexivity.
Qed.

Lemma use_keeps env c t : let c' := fst (get_type_info_st env c t) in
  cd_sealed c' = cd_sealed c /\ cd_concretes c' = cd_concretes c /\ cd_ifaces c' = cd_ifaces c /\
  cd_disfix c' = cd_disfix c /\ cd_names c' = cd_names c.
Proof.
  cbv zeta. destruct (get_type_info_st_cases env c t) as [-> | (rt & ci & _ & _ & _ & _ & ->)]; splits; reflexivity.
Qed.

Lemma run_registered env : forall h c, clean env c h = true ->
  exists cs is,
    emap (reg_call env) (conc_calls h) = EOk cs /\
    cd_concretes (run env c h) = cd_concretes c ++ cs /\
    emap (iface_call env) (iface_calls h) = EOk is /\
    map bare_iface (cd_ifaces (run env c h)) = map bare_iface (cd_ifaces c) ++ map bare_iface is.
Proof.
  induction h as [|x h IH]; intros c; cbn [run clean].
  - intros _. exists [], []. splits; try reflexivity; cbn; rewrite app_nil_r; reflexivity.
  - destruct (step env c x) as [c' [p|]] eqn:E; [discriminate|]. cbn [fst]. intros Hc.
    destruct (IH _ Hc) as (cs & is & H1 & H2 & H3 & H4). rewrite H2, H4. clear H2 H4 Hc IH.
    destruct x as [i o|t name| |t]; cbn [step] in E; unfold conc_calls, iface_calls in *; cbn [flat_map].
    + revert E. unfold register_interface. destruct (cd_sealed c); [discriminate|].
      destruct (new_iface_info env i o) as [info| | |] eqn:En; try discriminate.
      destruct (negb _); [discriminate|]. destruct (find_iface _ _); [discriminate|]. intros E; inversion E; subst; clear E.
      exists cs, (info :: is). cbn [set_ifaces cd_concretes cd_ifaces]. splits; try assumption; try reflexivity.
      * cbn [app emap]. unfold iface_call at 1. cbn [fst snd]. rewrite En. cbn [ebind]. rewrite H3. reflexivity.
      * rewrite map_app, <- app_assoc. cbn [map app]. rewrite collect_bare. reflexivity.
    + apply register_concrete_inv in E. destruct E as (rt & ptr & ci & _ & Hsh & Hct & Hn & _ & _ & _ & _ & ->).
      exists (ci :: cs), is. cbn [cd_concretes cd_ifaces]. splits; try assumption.
      * cbn [app emap]. unfold reg_call at 1. cbn [fst snd].
        replace (new_registered_info env (conc_of t) (is_ptr t) name) with (EOk ci).
        { cbn [ebind]. rewrite H1. reflexivity. }
        destruct Hsh as [[-> ->]|[-> ->]]; rewrite <- Hn; [reflexivity|]. destruct rt; try discriminate; reflexivity.
      * rewrite <- app_assoc. reflexivity.
      * f_equal. rewrite map_map. apply map_ext. intros ii. destruct (implements env ci ii); reflexivity.
    + inversion E. exists cs, is. splits; try assumption; reflexivity.
    + inversion E. destruct (use_keeps env c t) as (_ & K1 & K2 & _). cbv zeta in K1, K2. rewrite K1, K2.
      exists cs, is. splits; try assumption; reflexivity.
Qed.

Lemma impls_perm_prefix env c c' ii ii' p : wf_codec env c -> wf_codec env c' ->
  In ii (cd_ifaces c) -> In ii' (cd_ifaces c') -> Permutation (impls_of ii p) (impls_of ii' p) ->
  type_info_from_prefix ii p = type_info_from_prefix ii' p.
Proof.
  intros W W' H H' P.
  assert (N : forall c ii l, wf_codec env c -> In ii (cd_ifaces c) -> assoc beqb p (ii_impls ii) = Some l -> l <> []).
  { intros c0 ii0 l W0 H0 E. apply assoc_map_in in E. pose proof (wc_nonempty _ _ W0 _ H0) as F.
    rewrite Forall_forall in F. apply (F _ E). }
  unfold type_info_from_prefix, impls_of in *.
  destruct (assoc beqb p (ii_impls ii)) as [l|] eqn:E, (assoc beqb p (ii_impls ii')) as [l'|] eqn:E'.
  - pose proof (N _ _ _ W H E) as Nl. pose proof (N _ _ _ W' H' E') as Nl'. pose proof (Permutation_length P) as L.
    destruct l as [|a [|b l]], l' as [|a' [|b' l']]; try congruence; cbn in L; try lia.
    apply Permutation_length_1 in P. subst; reflexivity.
  - apply Permutation_sym, Permutation_nil in P. exfalso. exact (N _ _ _ W H E P).
  - apply Permutation_nil in P. exfalso. exact (N _ _ _ W' H' E' P).
  - reflexivity.
Qed.

Lemma filter_perm {A} (f : A -> bool) l l' : Permutation l l' -> Permutation (filter f l) (filter f l').
Proof.
  induction 1; cbn [filter]; try (destruct (f x)); try (destruct (f y)); try constructor; try assumption; try reflexivity.
  eapply perm_trans; eassumption.
Qed.

(** Panic-free histories that make the same registrations, in any order and
    with any uses of the codec in between, give codecs that behave alike. *)
Theorem order_equiv env h h' : clean env new_codec h = true -> clean env new_codec h' = true ->
  Permutation (conc_calls h) (conc_calls h') -> Permutation (iface_calls h) (iface_calls h') ->
  codec_equiv env (run env new_codec h) (run env new_codec h').
Proof.
  intros C C' PC PI. pose proof (wf_history _ _ C) as W. pose proof (wf_history _ _ C') as W'.
  destruct (run_registered _ _ _ C) as (cs & is & R1 & R2 & R3 & R4).
  destruct (run_registered _ _ _ C') as (cs' & is' & R1' & R2' & R3' & R4').
  cbn [new_codec cd_concretes cd_ifaces map app] in *.
  set (c := run env new_codec h) in *. set (c' := run env new_codec h') in *. clearbody c c'.
  assert (P : Permutation (cd_concretes c) (cd_concretes c')).
  { rewrite R2, R2'. exact (emap_perm _ _ _ PC _ _ R1 R1'). }
  assert (PIs : Permutation (map bare_iface (cd_ifaces c)) (map bare_iface (cd_ifaces c'))).
  { rewrite R4, R4'. apply Permutation_map. exact (emap_perm _ _ _ PI _ _ R3 R3'). }
  assert (FI : forall i c1 c2 ii, wf_codec env c2 -> Permutation (map bare_iface (cd_ifaces c1)) (map bare_iface (cd_ifaces c2)) ->
     find_iface i (cd_ifaces c1) = Some ii -> exists ii', In ii (cd_ifaces c1) /\ In ii' (cd_ifaces c2) /\
     find_iface i (cd_ifaces c2) = Some ii' /\ bare_iface ii' = bare_iface ii).
  { intros i c1 c2 ii W2 Pp Hf. apply find_iface_some in Hf. destruct Hf as [Hin Hid].
    assert (Hb : In (bare_iface ii) (map bare_iface (cd_ifaces c2))) by (eapply Permutation_in; [eassumption|apply in_map; assumption]).
    apply in_map_iff in Hb. destruct Hb as (ii' & Hb & Hin'). exists ii'. splits; try assumption.
    rewrite <- Hid. replace (ii_id ii) with (ii_id ii') by (apply (f_equal ii_id) in Hb; exact Hb).
    apply find_iface_in; [apply W2|assumption]. }
  split.
  - intros t. rewrite <- (get_type_info_deref env c t), <- (get_type_info_deref env c' t).
    pose proof (deref_type_not_ptr t) as Hnp. generalize dependent (deref_type t). clear t. intros t Hnp.
    destruct (conc_type t) eqn:Et.
    + rewrite !get_type_info_conc by assumption.
      assert (G : forall c1 c2 ci, wf_codec env c1 -> wf_codec env c2 -> Permutation (cd_concretes c1) (cd_concretes c2) ->
        assoc gotype_eqb t (cd_types c1) = Some ci -> ci_reg ci <> None -> assoc gotype_eqb t (cd_types c2) = Some ci).
      { intros c1 c2 ci W1 W2 Pp Ha Hr. pose proof (wc_types _ _ W1 _ _ Ha) as [Ht _]. subst t.
        assert (In ci (cd_concretes c2)) as Hin by (eapply Permutation_in; [eassumption|]; apply (wc_conc _ _ W1); auto).
        apply (wc_conc _ _ W2) in Hin. tauto. }
      assert (U : forall c1 ci, wf_codec env c1 -> assoc gotype_eqb t (cd_types c1) = Some ci -> ci_reg ci = None ->
        new_type_info env t = EOk ci).
      { intros c1 ci W1 Ha Hr. pose proof (wc_types _ _ W1 _ _ Ha) as [Ht [Hi _]]. subst t. rewrite Hi, unreg_unreg by assumption. reflexivity. }
      destruct (assoc gotype_eqb t (cd_types c)) as [ci|] eqn:E.
      * destruct (ci_reg ci) eqn:Er.
        -- rewrite (G c c' ci W W' P E) by congruence. reflexivity.
        -- destruct (assoc gotype_eqb t (cd_types c')) as [ci'|] eqn:E'.
           ++ destruct (ci_reg ci') eqn:Er'.
              ** rewrite (G c' c ci' W' W (Permutation_sym P) E') in E by congruence. congruence.
              ** pose proof (U _ _ W E Er). pose proof (U _ _ W' E' Er'). cbn. congruence.
           ++ rewrite (U _ _ W E Er). cbn. reflexivity.
      * destruct (assoc gotype_eqb t (cd_types c')) as [ci'|] eqn:E'.
        -- destruct (ci_reg ci') eqn:Er'.
           ++ rewrite (G c' c ci' W' W (Permutation_sym P) E') in E by congruence. congruence.
           ++ rewrite (U _ _ W' E' Er'). cbn. reflexivity.
        -- apply rsim_refl.
    + destruct t as [| | | | | | | |i|]; try discriminate; [exfalso; eapply Hnp; reflexivity|].
      rewrite !get_type_info_iface.
      destruct (find_iface i (cd_ifaces c)) as [ii|] eqn:E.
      * destruct (FI i c c' ii W' PIs E) as (ii' & Hin & Hin' & Hf & Hb). rewrite Hf. cbn [rsim tsim].
        assert (Hid : ii_id ii = ii_id ii') by (apply (f_equal ii_id) in Hb; symmetry; exact Hb).
        assert (PP : forall p, Permutation (impls_of ii p) (impls_of ii' p)).
        { intros p. rewrite (wc_impls _ _ W), (wc_impls _ _ W') by assumption.
          erewrite filter_ext; [apply filter_perm; exact P|]. intros ci. unfold implements. rewrite Hid. reflexivity. }
        split.
        -- exact Hid.
        -- apply (f_equal ii_always) in Hb. symmetry; exact Hb.
        -- intros p. apply Permutation_length. apply PP.
        -- intros p. eapply impls_perm_prefix; [exact W|exact W'|assumption|assumption|apply PP].
      * destruct (find_iface i (cd_ifaces c')) as [ii'|] eqn:E'; [|reflexivity].
        destruct (FI i c' c ii' W (Permutation_sym PIs) E') as (ii & _ & _ & Hf & _). congruence.
  - intros d. unfold type_info_from_disfix.
    assert (G : forall c1 c2 ci, wf_codec env c1 -> wf_codec env c2 -> Permutation (cd_concretes c1) (cd_concretes c2) ->
      assoc beqb d (cd_disfix c1) = Some ci -> assoc beqb d (cd_disfix c2) = Some ci).
    { intros c1 c2 ci W1 W2 Pp Ha. apply (wc_disfix _ _ W1) in Ha. apply (wc_disfix _ _ W2). split; [|apply Ha].
      eapply Permutation_in; [eassumption|apply Ha]. }
    destruct (assoc beqb d (cd_disfix c)) as [ci|] eqn:E; [rewrite (G _ _ _ W W' P E); reflexivity|].
    destruct (assoc beqb d (cd_disfix c')) as [ci|] eqn:E'; [|reflexivity].
    rewrite (G _ _ _ W' W (Permutation_sym P) E') in E. discriminate.
  - intros d. unfold type_info_from_name.
    assert (G : forall c1 c2 ci, wf_codec env c1 -> wf_codec env c2 -> Permutation (cd_concretes c1) (cd_concretes c2) ->
      assoc beqb d (cd_names c1) = Some ci -> assoc beqb d (cd_names c2) = Some ci).
    { intros c1 c2 ci W1 W2 Pp Ha. apply (wc_names _ _ W1) in Ha. apply (wc_names _ _ W2). split; [|apply Ha].
      eapply Permutation_in; [eassumption|apply Ha]. }
    destruct (assoc beqb d (cd_names c)) as [ci|] eqn:E; [rewrite (G _ _ _ W W' P E); reflexivity|].
    destruct (assoc beqb d (cd_names c')) as [ci|] eqn:E'; [|reflexivity].
    rewrite (G _ _ _ W' W (Permutation_sym P) E') in E. discriminate.
Qed.
