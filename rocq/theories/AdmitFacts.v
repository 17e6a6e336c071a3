(** Which histories of registrations are accepted (C77). *)
From Coq Require Import ZArith String List Bool Lia Permutation.
From Coq Require Import ZifyBool ZifyNat.
From Verif Require Import Base Prims Types Codec FuelFacts Registry SpecRegistry RegistryFacts RegistryProps SpecNorm SpecWritable WritableFacts SpecAdmit.
Import ListNotations.
Local Open Scope Z_scope.

Lemma parse_okb env fs : forall i num, okb (parse_fields env fs i num) =
  forallb (fun f => match field_opts 1 f with Some o => parsable_field env (sf_type f) o | None => true end) fs.
Proof.
  induction fs as [|f fs IH]; intros i num; [reflexivity|]. cbn [parse_fields forallb]. unfold field_opts at 1.
  destruct (sf_exported f); cbn [negb]; [|rewrite IH; reflexivity]. destruct (parse_field_options f) as [o|]; cbn [option_map]; [|rewrite IH; reflexivity].
  rewrite okb_bind.
  assert (U : match unpacked_list env (sf_type f) o with EOk up => okb (check_unsafe env (sf_type f) (set_num (u32 (Z.of_nat num + 1)) o)) | _ => false end = parsable_field env (sf_type f) (set_num 1 o)).
  { unfold unpacked_list, parsable_field, check_unsafe. cbn [set_num fo_unsafe].
    destruct (resolve env (sf_type f)) as [[]| |n e|e| | | | | | |]; try reflexivity; try (destruct (fo_unsafe o); reflexivity);
      (destruct (is_uint8 env e); cbn [orb]; [destruct (fo_unsafe o); reflexivity|]; rewrite <- (okb_typ3 env (deref_type e) o); destruct (type_to_typ3 _ _ _); cbn [ebind okb]; [destruct (fo_unsafe o)| | |]; reflexivity). }
  destruct (unpacked_list env (sf_type f) o) as [up| | |]; [|rewrite <- U; reflexivity..]. cbv zeta. rewrite <- U, okb_bind.
  destruct (check_unsafe _ _ _); [|reflexivity..]. rewrite okb_bind, <- (IH (S i) (S num)). destruct (parse_fields env fs (S i) (S num)); reflexivity.
Qed.
Lemma describe_okb env t : okb (new_type_info env t) = describable env t.
Proof.
  assert (P : okb (parse_struct_info env t) = parsable env t).
  { unfold parse_struct_info, parsable. destruct (resolve env t); try reflexivity. apply parse_okb. }
  assert (G : okb (ebind (parse_struct_info env t) (fun fs => ebind (marshal_repr env t) (fun m => ebind (unmarshal_repr env t) (fun u =>
      EOk {| ci_type := t; ci_fields := fs; ci_marshal := m; ci_unmarshal := u; ci_reg := None |})))) = parsable env t && (okb (marshal_repr env t) && okb (unmarshal_repr env t))).
  { rewrite okb_bind, <- P. destruct (parse_struct_info env t); cbn [okb andb]; [|reflexivity..].
    rewrite okb_bind. destruct (marshal_repr env t); cbn [okb andb]; [|reflexivity..]. rewrite okb_bind. destruct (unmarshal_repr env t); reflexivity. }
  unfold new_type_info, describable. destruct t as [p| | | | | | | | |id]; try (rewrite G; reflexivity); try (rewrite andb_comm; reflexivity).
  rewrite G. f_equal. unfold marshal_repr, unmarshal_repr. f_equal.
  - destruct (te_marshal env id) as [[|[] ?]|]; reflexivity.
  - destruct (te_unmarshal env id) as [[|[] ?]|]; reflexivity.
Qed.
Lemma named_iff env n d p : named env n d p <-> name_to_disfix env n = EOk (d, p).
Proof. unfold named. symmetry. apply name_to_disfix_exact. Qed.
Lemma named_fun env n d p d' p' : named env n d p -> named env n d' p' -> d = d' /\ p = p'.
Proof. rewrite !named_iff. intros -> H. injection H as -> ->. auto. Qed.

(** ** Histories, from the end *)
Lemma run_app env h : forall c h', run env c (h ++ h') = run env (run env c h) h'.
Proof. induction h as [|x h IH]; intros c h'; [reflexivity|]. apply IH. Qed.
Lemma clean_app env h : forall c h', clean env c (h ++ h') = clean env c h && clean env (run env c h) h'.
Proof. induction h as [|x h IH]; intros c h'; [reflexivity|]. cbn [app clean run]. destruct (step env c x) as [c' [p|]]; [reflexivity|]. apply IH. Qed.
Lemma conc_app h h' : conc_calls (h ++ h') = conc_calls h ++ conc_calls h'.
Proof. apply flat_map_app. Qed.
Lemma iface_app h h' : iface_calls (h ++ h') = iface_calls h ++ iface_calls h'.
Proof. apply flat_map_app. Qed.
Lemma earlier_snoc h x y z : earlier (h ++ [x]) y z <-> earlier h y z \/ (z = x /\ In y h).
Proof.
  unfold earlier. split.
  - intros (h1 & h2 & E & Hy). destruct h2 as [|w h2 _] using rev_ind.
    + apply app_inj_tail in E. destruct E as [-> ->]. right. auto.
    + rewrite app_comm_cons, app_assoc in E. apply app_inj_tail in E. destruct E as [-> _]. left. exists h1, h2. auto.
  - intros [(h1 & h2 & -> & Hy)|[-> Hy]]; [exists h1, (h2 ++ [x])|exists h, []]; split; try assumption; [rewrite <- app_assoc; reflexivity|reflexivity].
Qed.

Lemma sealed_run env h : cd_sealed (run env new_codec h) = true <-> In OSeal h.
Proof.
  induction h as [|x h IH] using rev_ind; [split; [discriminate|contradiction]|]. rewrite run_app, in_app_iff, <- IH. cbn [run]. set (c := run env new_codec h). clearbody c.
  assert (K : x <> OSeal -> cd_sealed (fst (step env c x)) = cd_sealed c).
  { intros N. destruct x as [i o|t n| |t]; [| |congruence|].
    - cbn [step]. unfold register_interface. destruct (cd_sealed c) eqn:E; [exact E|]. destruct (new_iface_info env i o); try exact E. destruct (negb _); [exact E|]. destruct (find_iface _ _); exact E.
    - cbn [step]. unfold register_concrete. destruct (cd_sealed c) eqn:E; [exact E|].
      assert (R : forall rt ptr, cd_sealed (fst match new_registered_info env rt ptr n with
          | EOk ci => let '(ifs, ok) := add_check_conflicts env ci (cd_ifaces c) in let c' := set_ifaces ifs c in if negb ok then (c', Some "conflicts with other(s)"%string) else set_registered c' ci n
          | EErr e => (c, Some e) | EPanic p => (c, Some p) | EFuel => (c, Some "fuel"%string) end) = false).
      { intros rt ptr. destruct (new_registered_info env rt ptr n) as [ci| | |]; try exact E. destruct (add_check_conflicts env ci (cd_ifaces c)) as [ifs ok]. cbv zeta.
        destruct (negb ok); [exact E|]. unfold set_registered. destruct (assoc _ _ _); [exact E|]. destruct (assoc _ _ _); [exact E|]. destruct (assoc _ _ _); exact E. }
      destruct t as [| | | |[]| | | | |]; try apply R; exact E.
    - destruct (use_keeps env c t) as [H _]. exact H. }
  cbn [In]. destruct x as [i o|t n| |t]; try (rewrite K by discriminate; intuition discriminate). cbn. intuition.
Qed.

(** ** Conflicts *)
Definition keys_once (ii : iinfo) : Prop := NoDup (map fst (ii_impls ii)).
Lemma add_impl_keys p ci m : NoDup (map fst m) -> NoDup (map fst (add_impl p ci m)) /\ forall q, In q (map fst (add_impl p ci m)) -> q = p \/ In q (map fst m).
Proof.
  induction m as [|[k l] m IH]; intros N; cbn [add_impl map fst].
  - split; [constructor; [intros []|constructor]|]. intros q [<-|[]]; auto.
  - inversion N as [|? ? N1 N2]; subst. destruct (beqb p k) eqn:E.
    + split; [exact N|]. intros q Hq. right. exact Hq.
    + destruct (IH N2) as [A B]. cbn [map fst]. split.
      * constructor; [|exact A]. intros H. destruct (B _ H) as [->|H']; [rewrite beqb_refl in E; discriminate|exact (N1 H')].
      * intros q [<-|Hq]; [right; left; reflexivity|]. destruct (B _ Hq); [auto|right; right; assumption].
Qed.
Lemma collect_keys env cs : forall ii, keys_once ii -> keys_once (collect_implementers env cs ii).
Proof.
  unfold collect_implementers. induction cs as [|ci cs IH]; intros ii H; [exact H|]. cbn [fold_left]. apply IH. destruct (implements env ci ii); [|exact H]. apply add_impl_keys. exact H.
Qed.
Lemma keys_step env c x c' : step env c x = (c', None) -> (forall ii, In ii (cd_ifaces c) -> keys_once ii) -> forall ii, In ii (cd_ifaces c') -> keys_once ii.
Proof.
  intros E H. destruct x as [i o|t n| |t]; cbn [step] in E.
  - revert E. unfold register_interface. destruct (cd_sealed c); [discriminate|]. destruct (new_iface_info env i o) as [info| | |] eqn:En; try discriminate.
    destruct (negb _); [discriminate|]. destruct (find_iface _ _); [discriminate|]. intros E; injection E as <-. cbn [set_ifaces cd_ifaces]. intros ii Hin. apply in_app_or in Hin.
    destruct Hin as [Hin|[<-|[]]]; [apply H, Hin|]. apply collect_keys. destruct (new_iface_spec _ _ _ _ En) as [_ X]. unfold keys_once. rewrite X. constructor.
  - apply register_concrete_inv in E. destruct E as (rt & ptr & ci & _ & _ & _ & _ & _ & _ & _ & _ & ->). cbn [cd_ifaces]. intros ii Hin. apply in_map_iff in Hin.
    destruct Hin as (ii0 & <- & Hin). destruct (implements env ci ii0); [|apply H, Hin]. apply add_impl_keys. apply H, Hin.
  - injection E as <-. exact H.
  - injection E as <-. destruct (use_keeps env c t) as (_ & _ & K & _). cbv zeta in K. rewrite K. exact H.
Qed.
Lemma keys_run env : forall h c, clean env c h = true -> (forall ii, In ii (cd_ifaces c) -> keys_once ii) -> forall ii, In ii (cd_ifaces (run env c h)) -> keys_once ii.
Proof.
  induction h as [|x h IH]; intros c; cbn [run clean]; [auto|]. destruct (step env c x) as [c' [p|]] eqn:E; [discriminate|]. intros C H. apply (IH c' C). exact (keys_step _ _ _ _ E H).
Qed.
Lemma assoc_in_once {A} (m : list (bytes * A)) k l : NoDup (map fst m) -> In (k, l) m -> assoc beqb k m = Some l.
Proof.
  induction m as [|[k' l'] m IH]; intros N H; [contradiction|]. inversion N as [|? ? N1 N2]; subst. cbn [assoc]. destruct H as [E|H].
  - injection E as -> ->. rewrite beqb_refl. reflexivity.
  - destruct (beqb k k') eqn:E; [|apply IH; assumption]. apply beqb_eq in E. subst k'. exfalso. apply N1. apply (in_map fst) in H. exact H.
Qed.
Lemma check_iff ii : keys_once ii -> (check_conflicts ii = true <-> forall p, (length (impls_of ii p) < 2)%nat \/ forall ci, In ci (impls_of ii p) -> In (ci_disfix ci) (ii_prio ii)).
Proof.
  intros N. assert (X : forall d l, existsb (beqb d) l = true <-> In d l).
  { intros d l. rewrite existsb_exists. split; [intros (y & H1 & H2); apply beqb_eq in H2; subst; exact H1|intros H; exists d; split; [exact H|apply beqb_refl]]. }
  unfold check_conflicts. rewrite forallb_forall. split.
  - intros H p. unfold impls_of. destruct (assoc beqb p (ii_impls ii)) as [l|] eqn:E; [|left; cbn; lia]. apply assoc_map_in in E. specialize (H _ E). cbn [snd] in H.
    apply orb_true_iff in H. destruct H as [H|H]; [left; apply Nat.ltb_lt; exact H|right]. rewrite forallb_forall in H. intros ci Hc. apply X, H, Hc.
  - intros H [k l] Hin. cbn [snd]. specialize (H k). unfold impls_of in H. rewrite (assoc_in_once _ _ _ N Hin) in H. apply orb_true_iff. destruct H as [H|H].
    + left. apply Nat.ltb_lt. exact H.
    + right. apply forallb_forall. intros ci Hc. apply X, H, Hc.
Qed.
(** Conflicts in terms of the registered types. *)
Definition apart (env : tenv) (cs : list cinfo) (i : ifid) (prio : list bytes) : Prop :=
  forall a b, In a cs -> In b cs -> a <> b -> te_impl env (TPtr (ci_type a)) i = true -> te_impl env (TPtr (ci_type b)) i = true -> ci_prefix a = ci_prefix b -> In (ci_disfix a) prio.
Lemma two_distinct {A} (l : list A) x : NoDup l -> In x l -> (2 <= length l)%nat -> exists y, In y l /\ y <> x.
Proof.
  intros N H L. destruct l as [|a [|b l]]; cbn in L; try lia. inversion N as [|? ? N1 _]; subst.
  destruct H as [<-|H]; [exists b; split; [right; left; reflexivity|intros ->; apply N1; left; reflexivity]|exists a; split; [left; reflexivity|intros ->; exact (N1 H)]].
Qed.
Lemma check_apart env cs ii : keys_once ii -> NoDup cs -> (forall p, impls_of ii p = filter (fun ci => te_impl env (TPtr (ci_type ci)) (ii_id ii) && beqb (ci_prefix ci) p) cs) ->
  (check_conflicts ii = true <-> apart env cs (ii_id ii) (ii_prio ii)).
Proof.
  intros K N F. rewrite check_iff by exact K. split.
  - intros H a b Ha Hb Ne Ia Ib Ep. destruct (H (ci_prefix a)) as [L|G].
    + rewrite F in L. assert (Fa : In a (filter (fun ci => te_impl env (TPtr (ci_type ci)) (ii_id ii) && beqb (ci_prefix ci) (ci_prefix a)) cs)) by (apply filter_In; rewrite Ia, beqb_refl; auto).
      assert (Fb : In b (filter (fun ci => te_impl env (TPtr (ci_type ci)) (ii_id ii) && beqb (ci_prefix ci) (ci_prefix a)) cs)) by (apply filter_In; rewrite Ib, Ep, beqb_refl; auto).
      destruct (filter _ cs) as [|x [|y l]]; [contradiction| |cbn in L; lia]. destruct Fa as [<-|[]], Fb as [<-|[]]. congruence.
    + apply G. rewrite F. apply filter_In. rewrite Ia, beqb_refl. auto.
  - intros H p. destruct (Nat.ltb_spec (length (impls_of ii p)) 2) as [L|L]; [left; exact L|right]. intros a Ha. rewrite F in Ha, L.
    destruct (two_distinct _ a (NoDup_filter _ N) Ha L) as (b & Hb & Ne). apply filter_In in Ha, Hb. destruct Ha as [Ha Ea], Hb as [Hb Eb]. apply andb_true_iff in Ea, Eb.
    destruct Ea as [Ea1 Ea2], Eb as [Eb1 Eb2]. apply beqb_eq in Ea2, Eb2. apply (H a b); try assumption; [intros ->; exact (Ne eq_refl)|congruence].
Qed.

(** ** Registering *)
Lemma emap_ok_iff {A B} (f : A -> eres B) l : okb (emap f l) = true <-> forall x, In x l -> okb (f x) = true.
Proof.
  induction l as [|x l IH]; cbn [emap]; [split; [intros _ ? []|reflexivity]|]. rewrite okb_bind. split.
  - destruct (f x) as [y| | |] eqn:E; try discriminate. rewrite okb_bind. intros H. destruct (emap f l); try discriminate H. intros z [<-|Hz]; [rewrite E; reflexivity|apply IH; [reflexivity|exact Hz]].
  - intros H. pose proof (H x (or_introl eq_refl)) as Hx. destruct (f x); try discriminate Hx. rewrite okb_bind.
    assert (Hl : okb (emap f l) = true) by (apply IH; intros z Hz; apply H; right; exact Hz). destruct (emap f l); try discriminate Hl. reflexivity.
Qed.
Lemma iface_ok env i o : (exists ii, new_iface_info env i o = EOk ii) <-> forall n, In n (listed o) -> exists d p, named env n d p.
Proof.
  assert (D : forall n, okb (ebind (name_to_disfix env n) (fun dp => EOk (to_disfix (fst dp) (snd dp)))) = true <-> exists d p, named env n d p).
  { intros n. rewrite okb_bind. destruct (name_to_disfix env n) as [[d p]| | |] eqn:E.
    - split; [intros _; exists d, p; apply named_iff; exact E|reflexivity].
    - split; [discriminate|]. intros (d0 & q0 & H). apply named_iff in H. congruence.
    - split; [discriminate|]. intros (d0 & q0 & H). apply named_iff in H. congruence.
    - split; [discriminate|]. intros (d0 & q0 & H). apply named_iff in H. congruence. }
  unfold new_iface_info. destruct o as [o|]; cbn [listed]; [|split; [intros _ ? []|intros _; eexists; reflexivity]].
  transitivity (okb (emap (fun n => ebind (name_to_disfix env n) (fun dp => EOk (to_disfix (fst dp) (snd dp)))) (io_prio o)) = true).
  - destruct (emap _ _); cbn [ebind okb]; split; try discriminate; try (intros [? ?]; discriminate); [reflexivity|intros _; eexists; reflexivity].
  - rewrite emap_ok_iff. split; intros H n Hn; apply D, H, Hn.
Qed.
Lemma prio_in env i o ii d : new_iface_info env i o = EOk ii -> (In d (ii_prio ii) <-> exists n a b, In n (listed o) /\ named env n a b /\ d = a ++ b).
Proof.
  unfold new_iface_info. destruct o as [o|]; cbn [listed].
  - destruct (emap _ (io_prio o)) as [ps| | |] eqn:E; cbn [ebind]; try discriminate. intros H. injection H as <-. cbn [ii_prio]. destruct (emap_in _ _ _ E) as [I1 I2]. split.
    + intros Hd. destruct (I2 _ Hd) as (n & Hn & X). destruct (name_to_disfix env n) as [[a b]| | |] eqn:En; cbn [ebind fst snd] in X; try discriminate. injection X as <-.
      exists n, a, b. split; [exact Hn|]. split; [apply named_iff; exact En|reflexivity].
    + intros (n & a & b & Hn & N & ->). destruct (I1 _ Hn) as (y & X & Hy). apply named_iff in N. rewrite N in X. injection X as <-. exact Hy.
  - intros H. injection H as <-. cbn [ii_prio]. split; [intros []|intros (? & ? & ? & [] & _)].
Qed.
Lemma register_concrete_ok env c t n ci : cd_sealed c = false -> conc_type (conc_of t) = true -> reg_call env (t, n) = EOk ci ->
  assoc gotype_eqb (conc_of t) (cd_types c) = None -> assoc beqb (ci_disfix ci) (cd_disfix c) = None -> assoc beqb n (cd_names c) = None ->
  (forall ii, In ii (cd_ifaces c) -> implements env ci ii = true -> check_conflicts (with_impls (add_impl (ci_prefix ci) ci (ii_impls ii)) ii) = true) ->
  snd (register_concrete env c t n) = None.
Proof.
  intros Hs Ht Hr Ha Hd Hn Hc. unfold register_concrete. rewrite Hs. unfold reg_call in Hr. cbn [fst snd] in Hr.
  assert (A : forall l, (forall ii, In ii l -> implements env ci ii = true -> check_conflicts (with_impls (add_impl (ci_prefix ci) ci (ii_impls ii)) ii) = true) ->
    snd (add_check_conflicts env ci l) = true).
  { induction l as [|ii l IH]; intros H; [reflexivity|]. cbn [add_check_conflicts]. assert (Hl : snd (add_check_conflicts env ci l) = true) by (apply IH; intros; apply H; [right|]; assumption).
    destruct (add_check_conflicts env ci l) as [r ok]. cbn [snd] in Hl. subst ok. destruct (implements env ci ii) eqn:E; cbn [negb]; [|reflexivity].
    rewrite (H ii (or_introl eq_refl) E). reflexivity. }
  specialize (A _ Hc).
  assert (Et : ci_type ci = conc_of t) by (destruct (new_registered_spec _ _ _ _ _ Hr) as (_ & X & _); exact X).
  assert (R : snd match new_registered_info env (conc_of t) (is_ptr t) n with
          | EOk ci => let '(ifs, ok) := add_check_conflicts env ci (cd_ifaces c) in let c' := set_ifaces ifs c in if negb ok then (c', Some "conflicts with other(s)"%string) else set_registered c' ci n
          | EErr e => (c, Some e) | EPanic p => (c, Some p) | EFuel => (c, Some "fuel"%string) end = None).
  { rewrite Hr. destruct (add_check_conflicts env ci (cd_ifaces c)) as [ifs ok]. cbn [snd] in A. subst ok. cbn [negb]. unfold set_registered. rewrite Et. cbn [set_ifaces cd_types cd_disfix cd_names].
    rewrite Ha, Hd, Hn. reflexivity. }
  destruct t as [| | | |e| | | | |]; try discriminate Ht; try exact R. cbn [conc_of is_ptr] in *. destruct e; try discriminate Ht; exact R.
Qed.

(** ** The codec after an accepted history, in terms of the calls *)
Section After.
  Variable env : tenv.
  Variable h : list op.
  Hypothesis C : clean env new_codec h = true.
  Let c := run env new_codec h.
  Lemma after_conc : exists cs, emap (reg_call env) (conc_calls h) = EOk cs /\ cd_concretes c = cs.
  Proof. destruct (run_registered _ _ _ C) as (cs & is & R1 & R2 & _). exists cs. split; [exact R1|]. exact R2. Qed.
  Lemma conc_in ci : In ci (cd_concretes c) <-> exists x, In x (conc_calls h) /\ reg_call env x = EOk ci.
  Proof.
    destruct after_conc as (cs & R1 & ->). destruct (emap_in _ _ _ R1) as [I1 I2]. split; [apply I2|]. intros (x & Hx & E). destruct (I1 _ Hx) as (y & E' & Hy). rewrite E in E'. injection E' as <-. exact Hy.
  Qed.
  Lemma after_iface ii : In ii (cd_ifaces c) -> exists o ii0, In (ii_id ii, o) (iface_calls h) /\ new_iface_info env (ii_id ii) o = EOk ii0 /\ ii_prio ii0 = ii_prio ii.
  Proof.
    intros H. destruct (run_registered _ _ _ C) as (cs & is & _ & _ & R3 & R4). cbn [new_codec cd_ifaces map app] in R4. apply (in_map bare_iface) in H. fold c in R4. rewrite R4 in H.
    apply in_map_iff in H. destruct H as (ii0 & E & H). destruct (emap_in _ _ _ R3) as [_ I2]. destruct (I2 _ H) as ([i o] & Hx & E'). unfold iface_call in E'. cbn [fst snd] in E'.
    pose proof (new_iface_spec _ _ _ _ E') as [Hid _]. assert (X1 : ii_id ii0 = ii_id ii) by exact (f_equal ii_id E). assert (X2 : ii_prio ii0 = ii_prio ii) by exact (f_equal ii_prio E).
    exists o, ii0. rewrite <- X1, Hid. split; [exact Hx|]. split; [exact E'|exact X2].
  Qed.
  Lemma iface_after i o : In (i, o) (iface_calls h) -> exists ii ii0, In ii (cd_ifaces c) /\ ii_id ii = i /\ new_iface_info env i o = EOk ii0 /\ ii_prio ii0 = ii_prio ii.
  Proof.
    intros H. destruct (run_registered _ _ _ C) as (cs & is & _ & _ & R3 & R4). cbn [new_codec cd_ifaces map app] in R4. destruct (emap_in _ _ _ R3) as [I1 _].
    destruct (I1 _ H) as (ii0 & E & Hin). unfold iface_call in E. cbn [fst snd] in E. pose proof (new_iface_spec _ _ _ _ E) as [Hid _].
    apply (in_map bare_iface) in Hin. rewrite <- R4 in Hin. apply in_map_iff in Hin. destruct Hin as (ii & Eb & Hin). exists ii, ii0. split; [exact Hin|].
    pose proof (f_equal ii_id Eb) as X1. pose proof (f_equal ii_prio Eb) as X2. cbn in X1, X2. split; [congruence|]. split; [exact E|congruence].
  Qed.
  Lemma iface_ids : map ii_id (cd_ifaces c) = map fst (iface_calls h).
  Proof.
    destruct (run_registered _ _ _ C) as (cs & is & _ & _ & R3 & R4). cbn [new_codec cd_ifaces map app] in R4. fold c in R4.
    assert (X : map ii_id (cd_ifaces c) = map ii_id is).
    { transitivity (map ii_id (map bare_iface (cd_ifaces c))); [rewrite map_map; reflexivity|]. rewrite R4, map_map. reflexivity. }
    rewrite X. clear -R3. revert is R3. induction (iface_calls h) as [|[i o] l IH]; intros is; cbn [emap]; [intros H; injection H as <-; reflexivity|].
    unfold iface_call at 1. cbn [fst snd]. destruct (new_iface_info env i o) as [ii| | |] eqn:E; try discriminate. cbn [ebind]. destruct (emap _ l); try discriminate. cbn [ebind]. intros H. injection H as <-.
    cbn [map]. rewrite (IH _ eq_refl). destruct (new_iface_spec _ _ _ _ E) as [-> _]. reflexivity.
  Qed.
  Lemma reg_call_parts x ci : reg_call env x = EOk ci -> ci_type ci = conc_of (fst x) /\ ci_name ci = Some (snd x) /\ exists d p, named env (snd x) d p /\ ci_disfix ci = d ++ p /\ ci_prefix ci = p.
  Proof.
    intros E. destruct (new_registered_spec _ _ _ _ _ E) as (_ & Ht & [_ Hok] & Hn & r & Hr & Hrn & _). split; [exact Ht|]. split; [exact Hn|].
    unfold reg_ok in Hok. rewrite Hr, Hrn in Hok. exists (ri_disamb r), (ri_prefix r). split; [apply named_iff; exact Hok|]. unfold ci_disfix, ci_prefix. rewrite Hr. split; reflexivity.
  Qed.
  Lemma types_after t : conc_type t = true -> describable env t = true ->
    (assoc gotype_eqb t (cd_types c) <> None <-> In t (map (fun x => conc_of (fst x)) (conc_calls h)) \/ exists u, In (OUse u) h /\ deref_type u = t).
  Proof.
    intros Ht Hd. subst c. revert C. induction h as [|x h' IH] using rev_ind; intros C'.
    - cbn. split; [congruence|]. intros [[]|(u & [] & _)].
    - rewrite clean_app in C'. apply andb_true_iff in C'. destruct C' as [C1 C2]. specialize (IH C1). rewrite run_app, conc_app, map_app, in_app_iff. cbn [run]. cbn [clean] in C2.
      assert (U : (exists u, In (OUse u) (h' ++ [x]) /\ deref_type u = t) <-> (exists u, In (OUse u) h' /\ deref_type u = t) \/ exists u, x = OUse u /\ deref_type u = t).
      { split.
        - intros (u & Hu & E). apply in_app_or in Hu. destruct Hu as [Hu|[->|[]]]; [left; exists u; auto|right; exists u; auto].
        - intros [(u & Hu & E)|(u & -> & E)]; exists u; (split; [apply in_or_app|exact E]); [left; exact Hu|right; left; reflexivity]. }
      rewrite U. clear U. revert IH C2. generalize (run env new_codec h'). intros c0 IH C2.
      destruct x as [i o|t0 n| |t0]; cbn [step fst] in C2 |- *.
      + assert (K : cd_types (fst (register_interface env c0 i o)) = cd_types c0).
        { unfold register_interface. destruct (cd_sealed c0); [reflexivity|]. destruct (new_iface_info env i o); try reflexivity. destruct (negb _); [reflexivity|]. destruct (find_iface _ _); reflexivity. }
        rewrite K, IH. cbn. intuition; destruct H0 as (? & ? & _); discriminate.
      + destruct (register_concrete env c0 t0 n) as [c' [p|]] eqn:E; [discriminate|]. apply register_concrete_inv in E. destruct E as (rt & ptr & ci & _ & Hsh & Hct & _ & _ & _ & _ & _ & ->).
        assert (Ert : conc_of t0 = rt) by (destruct Hsh as [[-> _]|[-> _]]; [reflexivity|destruct rt; try discriminate Hct; reflexivity]).
        cbn [fst cd_types assoc conc_calls flat_map app map In]. rewrite Ert. destruct (gotype_eqb t rt) eqn:Eq.
        * apply gotype_eqb_eq in Eq. subst rt. split; [intros _; left; right; left; congruence|discriminate].
        * rewrite IH. assert (rt <> t) by (intros ->; rewrite gotype_eqb_refl in Eq; discriminate). split; [intuition|]. intros [[X|[X|[]]]|[X|(u & X & _)]]; try tauto; discriminate.
      + cbn [seal cd_types]. rewrite IH. cbn. intuition; destruct H0 as (? & ? & _); discriminate.
      + cbn [conc_calls flat_map app map In]. destruct (get_type_info_st_cases env c0 t0) as [E|(rt & ci & E1 & E2 & E3 & E4 & E5)].
        * rewrite E. rewrite IH. split; [tauto|]. intros [[X|[]]|[X|(u & X & Y)]]; [tauto|tauto|]. injection X as <-.
          (* the use of a describable type that changes nothing found it there *)
          assert (K : assoc gotype_eqb t (cd_types c0) <> None); [|apply IH; exact K].
          intros K. assert (Z : fst (get_type_info_st env c0 t0) <> c0); [|congruence].
          unfold get_type_info_st. rewrite Y. rewrite <- describe_okb in Hd. destruct t; try discriminate Ht; rewrite K; (destruct (new_type_info env _) as [ci| | |]; try discriminate Hd; cbn [fst]; intros Z; apply (f_equal (fun c => length (cd_types c))) in Z; cbn in Z; lia).
        * rewrite E5. cbn [add_type cd_types assoc]. destruct (gotype_eqb t rt) eqn:Eq.
          -- apply gotype_eqb_eq in Eq. subst rt. split; [intros _|discriminate]. right. right. exists t0. auto.
          -- rewrite IH. assert (rt <> t) by (intros ->; rewrite gotype_eqb_refl in Eq; discriminate). split; [tauto|]. intros [[X|[]]|[X|(u & X & Y)]]; [tauto|tauto|]. injection X as <-. congruence.
  Qed.
End After.

Lemma apart_calls env calls cs i o ii0 : emap (reg_call env) calls = EOk cs -> NoDup (map (fun x => conc_of (fst x)) calls) -> new_iface_info env i o = EOk ii0 ->
  (apart env cs i (ii_prio ii0) <->
   forall x y d d' p, In x calls -> In y calls -> x <> y -> implementer env i x = true -> implementer env i y = true -> named env (snd x) d p -> named env (snd y) d' p ->
     exists n a b, In n (listed o) /\ named env n a b /\ d ++ p = a ++ b).
Proof.
  intros E N Ei. destruct (emap_in _ _ _ E) as [I1 I2].
  assert (Inj : forall x y, In x calls -> In y calls -> conc_of (fst x) = conc_of (fst y) -> x = y).
  { clear -N. induction calls as [|z l IH]; intros x y; cbn [In map] in *; [contradiction|]. inversion N as [|? ? N1 N2]; subst.
    intros [<-|Hx] [<-|Hy] Eq; [reflexivity|exfalso|exfalso|apply IH; assumption].
    - apply N1. rewrite Eq. apply (in_map (fun x => conc_of (fst x))) in Hy. exact Hy.
    - apply N1. rewrite <- Eq. apply (in_map (fun x => conc_of (fst x))) in Hx. exact Hx. }
  split.
  - intros H x y d d' p Hx Hy Ne Ix Iy Nx Ny. destruct (I1 _ Hx) as (a & Ea & Ha), (I1 _ Hy) as (b & Eb & Hb).
    destruct (reg_call_parts env _ _ Ea) as (Ta & _ & da & pa & Na & Da & Pa). destruct (reg_call_parts env _ _ Eb) as (Tb & _ & db & pb & Nb & Db & Pb).
    destruct (named_fun _ _ _ _ _ _ Nx Na) as [-> Xp]. destruct (named_fun _ _ _ _ _ _ Ny Nb) as [-> Yp].
    assert (Hd : In (ci_disfix a) (ii_prio ii0)).
    { apply (H a b); try assumption.
      - intros ->. apply Ne, Inj; try assumption. congruence.
      - rewrite Ta. exact Ix.
      - rewrite Tb. exact Iy.
      - congruence. }
    rewrite Da, <- Xp in Hd. apply (prio_in env i o ii0 _ Ei) in Hd. exact Hd.
  - intros H a b Ha Hb Ne Ia Ib Ep. destruct (I2 _ Ha) as (x & Hx & Ea), (I2 _ Hb) as (y & Hy & Eb).
    destruct (reg_call_parts env _ _ Ea) as (Ta & _ & da & pa & Na & Da & Pa). destruct (reg_call_parts env _ _ Eb) as (Tb & _ & db & pb & Nb & Db & Pb).
    apply (prio_in env i o ii0 _ Ei). rewrite Da. apply (H x y da db pa); try assumption.
    + intros ->. rewrite Ea in Eb. injection Eb as <-. exact (Ne eq_refl).
    + unfold implementer. rewrite <- Ta. exact Ia.
    + unfold implementer. rewrite <- Tb. exact Ib.
    + replace pa with pb by congruence. exact Nb.
Qed.

Lemma admissible_prefix env h x : admissible env (h ++ [x]) -> admissible env h.
Proof.
  intros [A1 A2 A3 A4 A5 A6 A7 A8 A9]. rewrite conc_app in *. rewrite iface_app in *. rewrite map_app in *.
  assert (I : forall {B} (z : B) l l', In z l -> In z (l ++ l')) by (intros; apply in_or_app; left; assumption).
  assert (ND : forall {B} (l l' : list B), NoDup (l ++ l') -> NoDup l).
  { intros B l l'. induction l as [|z l IH]; cbn; [constructor|]. intros N. inversion N; subst. constructor; [|apply IH; assumption]. intros X. apply H1, I, X. }
  split.
  - intros t n H. apply A1, I, H.
  - eapply ND, A2.
  - eapply ND, A3.
  - intros z y d p Hz Hy. apply A4; apply I; assumption.
  - eapply ND, A5.
  - intros i o n H. apply (A6 i o), I, H.
  - intros i o z y d d' p Hi Hz Hy. apply A7; apply I; assumption.
  - intros z Hz E. apply (A8 z Hz), earlier_snoc. left. exact E.
  - intros t n u E. apply (A9 t n u), earlier_snoc. left. exact E.
Qed.
Lemma NoDup_snoc_iff {A} (l : list A) x : NoDup (l ++ [x]) <-> NoDup l /\ ~ In x l.
Proof.
  split; [|intros [H1 H2]; apply NoDup_snoc; assumption]. intros H. split; [apply NoDup_remove_1 in H; rewrite app_nil_r in H; exact H|]. apply NoDup_remove_2 in H. rewrite app_nil_r in H. exact H.
Qed.

Section Step.
  Variable env : tenv.
  Variable h : list op.
  Hypothesis C : clean env new_codec h = true.
  Hypothesis A : admissible env h.
  Let c := run env new_codec h.
  Let W : wf_codec env c := wf_history env h C.
  Let Ids : map ii_id (cd_ifaces c) = map fst (iface_calls h) := iface_ids env h C.

  Lemma step_iface i o : snd (register_interface env c i o) = None <-> admissible env (h ++ [OIface i o]).
  Proof.
    assert (Ec : conc_calls (h ++ [OIface i o]) = conc_calls h) by (rewrite conc_app; apply app_nil_r).
    assert (Ei : iface_calls (h ++ [OIface i o]) = iface_calls h ++ [(i, o)]) by (rewrite iface_app; reflexivity).
    assert (Chk : forall ii0, new_iface_info env i o = EOk ii0 -> (check_conflicts (collect_implementers env (cd_concretes c) ii0) = true <-> apart env (cd_concretes c) i (ii_prio ii0))).
    { intros ii0 E0. destruct (new_iface_spec _ _ _ _ E0) as [Hid Him]. destruct (collect_spec env (cd_concretes c) ii0) as (S1 & S2 & _).
      rewrite (check_apart env (cd_concretes c)).
      - rewrite S1, Hid. replace (ii_prio (collect_implementers env (cd_concretes c) ii0)) with (ii_prio ii0); [reflexivity|].
        exact (eq_sym (f_equal ii_prio (collect_bare env (cd_concretes c) ii0))).
      - apply collect_keys. unfold keys_once. rewrite Him. constructor.
      - apply (NoDup_map_inv ci_type). apply W.
      - intros p. rewrite S2. unfold impls_of at 1. rewrite Him. cbn [assoc app]. rewrite S1. reflexivity. }
    unfold register_interface. split.
    - destruct (cd_sealed c) eqn:Es; [discriminate|]. destruct (new_iface_info env i o) as [ii0| | |] eqn:E0; try discriminate. specialize (Chk _ eq_refl).
      destruct (check_conflicts _); cbn [negb]; [|discriminate]. destruct (find_iface i (cd_ifaces c)) eqn:Ef; [discriminate|]. intros _.
      apply find_iface_none in Ef. rewrite Ids in Ef. destruct (after_conc env h C) as (cs & R1 & R2). fold c in R2.
      pose proof (proj1 (apart_calls env _ _ i o ii0 R1 (ad_types _ _ A) E0)) as Ap. rewrite <- R2 in Ap. specialize (Ap (proj1 Chk eq_refl)).
      split; rewrite ?Ec, ?Ei; try apply A.
      + rewrite map_app. apply NoDup_snoc; [apply A|exact Ef].
      + intros i' o' n H. apply in_app_or in H. destruct H as [H|[H|[]]]; [exact (ad_prio _ _ A _ _ _ H)|]. injection H as <- <-. apply (iface_ok env i o). eexists. exact E0.
      + intros i' o' x y d d' p H. apply in_app_or in H. destruct H as [H|[H|[]]]; [exact (ad_conflict _ _ A _ _ _ _ _ _ _ H)|]. injection H as <- <-. exact (Ap x y d d' p).
      + intros x Hx E. apply earlier_snoc in E. destruct E as [E|[_ E]]; [exact (ad_seal _ _ A _ Hx E)|]. apply (sealed_run env h) in E. fold c in E. congruence.
      + intros t n u E. apply earlier_snoc in E. destruct E as [E|[E _]]; [exact (ad_use _ _ A _ _ _ E)|discriminate].
    - intros [A1 A2 A3 A4 A5 A6 A7 A8 A9]. rewrite ?Ec, ?Ei in *.
      destruct (cd_sealed c) eqn:Es; [exfalso; apply (A8 (OIface i o) eq_refl), earlier_snoc; right; split; [reflexivity|]; apply (sealed_run env h); exact Es|].
      destruct (proj2 (iface_ok env i o)) as [ii0 E0]; [intros n Hn; apply (A6 i o n); [apply in_or_app; right; left; reflexivity|exact Hn]|]. rewrite E0. specialize (Chk _ E0).
      destruct (after_conc env h C) as (cs & R1 & R2). fold c in R2.
      assert (Ck : check_conflicts (collect_implementers env (cd_concretes c) ii0) = true).
      { apply Chk. rewrite R2. apply (apart_calls env _ _ i o ii0 R1 (ad_types _ _ A) E0). intros x y d d' p. apply (A7 i o). apply in_or_app; right; left; reflexivity. }
      rewrite Ck. cbn [negb]. assert (Ef : find_iface i (cd_ifaces c) = None); [|rewrite Ef; reflexivity].
      apply find_iface_none. rewrite Ids. rewrite map_app in A5. apply NoDup_snoc_iff in A5. apply A5.
  Qed.

  Lemma step_conc t n : snd (register_concrete env c t n) = None <-> admissible env (h ++ [OConc t n]).
  Proof.
    assert (Ec : conc_calls (h ++ [OConc t n]) = conc_calls h ++ [(t, n)]) by (rewrite conc_app; reflexivity).
    assert (Ei : iface_calls (h ++ [OConc t n]) = iface_calls h) by (rewrite iface_app; apply app_nil_r).
    destruct (after_conc env h C) as (cs & R1 & R2). fold c in R2.
    assert (Em : forall ci, reg_call env (t, n) = EOk ci -> emap (reg_call env) (conc_calls h ++ [(t, n)]) = EOk (cd_concretes c ++ [ci])).
    { intros ci E. rewrite R2. apply emap_app; [exact R1|]. cbn [emap]. rewrite E. reflexivity. }
    assert (Ic : forall ci, reg_call env (t, n) = EOk ci -> ~ In (conc_of t) (map (fun x => conc_of (fst x)) (conc_calls h)) -> NoDup (cd_concretes c ++ [ci])).
    { intros ci E Hn. apply NoDup_snoc; [apply (NoDup_map_inv ci_type); apply W|]. intros X. apply (conc_in env h C) in X. destruct X as (x & Hx & Ex). apply Hn.
      destruct (reg_call_parts env _ _ E) as (T1 & _). destruct (reg_call_parts env _ _ Ex) as (T2 & _). cbn [fst] in T1. rewrite <- T1, T2. apply (in_map (fun x => conc_of (fst x))) in Hx. exact Hx. }
    assert (Chk : forall ci ii, reg_call env (t, n) = EOk ci -> ~ In (conc_of t) (map (fun x => conc_of (fst x)) (conc_calls h)) -> In ii (cd_ifaces c) -> implements env ci ii = true ->
      (check_conflicts (with_impls (add_impl (ci_prefix ci) ci (ii_impls ii)) ii) = true <-> apart env (cd_concretes c ++ [ci]) (ii_id ii) (ii_prio ii))).
    { intros ci ii E Hn Hin Him. apply (check_apart env (cd_concretes c ++ [ci]) (with_impls (add_impl (ci_prefix ci) ci (ii_impls ii)) ii)).
      - apply add_impl_keys. apply (keys_run env h new_codec C); [intros ? []|exact Hin].
      - apply Ic; assumption.
      - intros p. unfold impls_of. cbn [ii_impls with_impls ii_id]. rewrite add_impl_get. fold (impls_of ii p). rewrite (wc_impls _ _ W ii p Hin), filter_app. f_equal.
        cbn [filter]. unfold implements in Him. rewrite Him. reflexivity. }
    split.
    - intros H. destruct (register_concrete env c t n) as [c' [p|]] eqn:E; [discriminate|]. clear H. apply register_concrete_inv in E.
      destruct E as (rt & ptr & ci & Es & Hsh & Hct & Hn & Ht & Hd & Hnm & Hck & _).
      assert (Ert : conc_of t = rt /\ is_ptr t = ptr) by (destruct Hsh as [[-> ->]|[-> ->]]; [split; reflexivity|destruct rt; try discriminate Hct; split; reflexivity]). destruct Ert as [Er Ep].
      assert (Er' : reg_call env (t, n) = EOk ci) by (unfold reg_call; cbn [fst snd]; rewrite Er, Ep; exact Hn).
      destruct (reg_call_parts env _ _ Er') as (T1 & T2 & d0 & p0 & N0 & D0 & P0). cbn [fst snd] in *.
      assert (Hdesc : describable env rt = true).
      { rewrite <- describe_okb. revert Hn. unfold new_registered_info. destruct (new_type_info env rt); try discriminate. reflexivity. }
      pose proof (types_after env h C rt Hct Hdesc) as Ty. fold c in Ty. rewrite Ht in Ty.
      assert (Nt : ~ In rt (map (fun x => conc_of (fst x)) (conc_calls h))) by (intros X; apply (proj2 Ty); [left; exact X|reflexivity]).
      assert (Nd : NoDup (map (fun x => conc_of (fst x)) (conc_calls h ++ [(t, n)]))) by (rewrite map_app; apply NoDup_snoc; [apply A|]; cbn [fst]; rewrite Er; exact Nt).
      split; rewrite ?Ec, ?Ei.
      + intros t' n' H. apply in_app_or in H. destruct H as [H|[H|[]]]; [exact (ad_conc _ _ A _ _ H)|]. injection H as <- <-. rewrite Er. split; [exact Hdesc|]. exists d0, p0. exact N0.
      + exact Nd.
      + rewrite map_app. apply NoDup_snoc; [apply A|]. cbn [snd]. intros X. apply in_map_iff in X. destruct X as (x & Ex & Hx).
        destruct (proj1 (emap_in _ _ _ R1) _ Hx) as (y & Ey & Hy). rewrite <- R2 in Hy. destruct (reg_call_parts env _ _ Ey) as (_ & Yn & _). rewrite Ex in Yn.
        assert (Z : assoc beqb n (cd_names c) = Some y) by (apply (wc_names _ _ W); split; assumption). congruence.
      + assert (K : forall x d p, In x (conc_calls h) -> named env (snd x) d p -> named env n d p -> snd x = n).
        { intros x d p Hx Nx Nn. exfalso. destruct (proj1 (emap_in _ _ _ R1) _ Hx) as (y & Ey & Hy). rewrite <- R2 in Hy. destruct (reg_call_parts env _ _ Ey) as (_ & _ & dy & py & Ny & Dy & _).
          destruct (named_fun _ _ _ _ _ _ Nx Ny) as [-> ->]. destruct (named_fun _ _ _ _ _ _ Nn N0) as [-> ->].
          assert (Z : assoc beqb (ci_disfix ci) (cd_disfix c) = Some y) by (apply (wc_disfix _ _ W); split; [exact Hy|congruence]). congruence. }
        intros x y d p Hx Hy Nx Ny. apply in_app_or in Hx, Hy. destruct Hx as [Hx|[<-|[]]], Hy as [Hy|[<-|[]]]; cbn [snd] in *.
        * exact (ad_disfix _ _ A _ _ _ _ Hx Hy Nx Ny).
        * exact (K _ _ _ Hx Nx Ny).
        * symmetry. exact (K _ _ _ Hy Ny Nx).
        * reflexivity.
      + apply A.
      + apply A.
      + intros i o x y d d' p Hi. destruct (iface_after env h C i o Hi) as (ii & ii0 & Hin & Hid & E0 & Epr). fold c in Hin.
        refine (proj1 (apart_calls env _ _ i o ii0 (Em ci Er') Nd E0) _ x y d d' p). rewrite Epr.
        destruct (implements env ci ii) eqn:Him.
        * rewrite <- Hid. apply (proj1 (Chk ci ii Er' ltac:(rewrite Er; exact Nt) Hin Him)). exact (Hck ii Hin Him).
        * pose proof (wc_conf _ _ W ii Hin) as K. rewrite (check_apart env (cd_concretes c)) in K;
            [|apply (keys_run env h new_codec C); [intros ? []|exact Hin]|apply (NoDup_map_inv ci_type); apply W|intros q; apply (wc_impls _ _ W ii q Hin)].
          rewrite Hid in K. unfold implements in Him. rewrite Hid in Him. intros a b Ha Hb Ne Ia Ib Eq. apply in_app_or in Ha, Hb.
          destruct Ha as [Ha|[<-|[]]]; [|congruence]. destruct Hb as [Hb|[<-|[]]]; [|congruence]. exact (K a b Ha Hb Ne Ia Ib Eq).
      + intros x Hx E. apply earlier_snoc in E. destruct E as [E|[_ E]]; [exact (ad_seal _ _ A _ Hx E)|]. apply (sealed_run env h) in E. fold c in E. congruence.
      + intros t' n' u E. apply earlier_snoc in E. destruct E as [E|[E Hu]]; [exact (ad_use _ _ A _ _ _ E)|]. injection E as -> ->. rewrite Er. intros X. apply (proj2 Ty); [|reflexivity]. right. exists u. auto.
    - intros [A1 A2 A3 A4 A5 A6 A7 A8 A9]. rewrite ?Ec, ?Ei in *.
      destruct (A1 t n) as [Hdesc (d0 & p0 & N0)]; [apply in_or_app; right; left; reflexivity|]. rewrite map_app in A2, A3. apply NoDup_snoc_iff in A2, A3. destruct A2 as [_ A2], A3 as [_ A3]. cbn [fst snd] in *.
      assert (Hct : conc_type (conc_of t) = true) by (unfold describable in Hdesc; destruct (conc_of t); try reflexivity; rewrite andb_false_r in Hdesc; discriminate).
      assert (Er : exists ci, reg_call env (t, n) = EOk ci).
      { unfold reg_call, new_registered_info. cbn [fst snd]. rewrite <- describe_okb in Hdesc. destruct (new_type_info env (conc_of t)); try discriminate Hdesc. cbn [ebind].
        rewrite (proj1 (named_iff _ _ _ _) N0). eexists. reflexivity. }
      destruct Er as [ci Er]. destruct (reg_call_parts env _ _ Er) as (T1 & T2 & d1 & p1 & N1 & D1 & P1). cbn [fst snd] in *.
      apply (register_concrete_ok env c t n ci); try assumption.
      + destruct (cd_sealed c) eqn:Es; [|reflexivity]. exfalso. apply (A8 (OConc t n) eq_refl), earlier_snoc. right. split; [reflexivity|]. apply (sealed_run env h). exact Es.
      + destruct (assoc gotype_eqb (conc_of t) (cd_types c)) eqn:Ea; [exfalso|reflexivity].
        assert (X : assoc gotype_eqb (conc_of t) (cd_types c) <> None) by congruence. apply (types_after env h C _ Hct Hdesc) in X. destruct X as [X|(u & Hu & X)]; [exact (A2 X)|].
        apply (A9 t n u); [|exact X]. apply earlier_snoc. right. auto.
      + destruct (assoc beqb (ci_disfix ci) (cd_disfix c)) as [y|] eqn:Ea; [exfalso|reflexivity]. apply (wc_disfix _ _ W) in Ea. destruct Ea as [Hy Dy].
        apply (conc_in env h C) in Hy. destruct Hy as (x & Hx & Ex). destruct (reg_call_parts env _ _ Ex) as (_ & _ & dx & px & Nx & Dx & Px).
        assert (Q : dx = d1 /\ px = p1).
        { destruct (disfix_parts env (snd x) dx px (proj1 (named_iff _ _ _ _) Nx)) as (L1 & _). destruct (disfix_parts env n d1 p1 (proj1 (named_iff _ _ _ _) N1)) as (L2 & _).
          assert (Z : dx ++ px = d1 ++ p1) by congruence. rewrite <- L2 in L1. clear -L1 Z. revert d1 L1 Z. induction dx as [|z dx IH]; intros [|z' d1] L Z; try discriminate L; [auto|]. cbn [app length] in *. injection Z as -> Z. injection L as L. destruct (IH _ L Z) as [-> ->]. auto. }
        destruct Q as [-> ->]. apply A3. replace n with (snd x); [apply in_map; exact Hx|]. apply (A4 x (t, n) d1 p1); [apply in_or_app; left; exact Hx|apply in_or_app; right; left; reflexivity|exact Nx|exact N1].
      + destruct (assoc beqb n (cd_names c)) as [y|] eqn:Ea; [exfalso|reflexivity]. apply (wc_names _ _ W) in Ea. destruct Ea as [Hy Ny].
        apply (conc_in env h C) in Hy. destruct Hy as (x & Hx & Ex). destruct (reg_call_parts env _ _ Ex) as (_ & Xn & _). apply A3. rewrite Xn in Ny. injection Ny as <-. apply in_map. exact Hx.
      + intros ii Hin Him. apply (Chk ci ii Er A2 Hin Him). destruct (after_iface env h C ii Hin) as (o & ii0 & Hi & E0 & Epr). rewrite <- Epr.
        apply (apart_calls env _ _ (ii_id ii) o ii0 (Em ci Er)); [rewrite map_app; apply NoDup_snoc; [apply A|exact A2]|exact E0|]. intros x y d d' p. apply (A7 (ii_id ii) o). exact Hi.
  Qed.

  Lemma step_other x : registers x = false -> snd (step env c x) = None <-> admissible env (h ++ [x]).
  Proof.
    intros R. split; [|destruct x; try discriminate R; reflexivity]. intros _.
    assert (Ec : conc_calls (h ++ [x]) = conc_calls h) by (rewrite conc_app; destruct x; try discriminate R; apply app_nil_r).
    assert (Ei : iface_calls (h ++ [x]) = iface_calls h) by (rewrite iface_app; destruct x; try discriminate R; apply app_nil_r).
    split; rewrite ?Ec, ?Ei; try apply A.
    - intros z Hz E. apply earlier_snoc in E. destruct E as [E|[-> _]]; [exact (ad_seal _ _ A _ Hz E)|congruence].
    - intros t n u E. apply earlier_snoc in E. destruct E as [E|[<- _]]; [exact (ad_use _ _ A _ _ _ E)|discriminate R].
  Qed.
End Step.

Theorem admits env h : clean env new_codec h = true <-> admissible env h.
Proof.
  induction h as [|x h IH] using rev_ind.
  - split; [intros _|reflexivity]. split; cbn; try (intros; contradiction); try constructor; [|intros ? ? ? (h1 & h2 & E & _); destruct h1; discriminate].
    intros ? _ (h1 & h2 & E & _). destruct h1; discriminate.
  - rewrite clean_app, andb_true_iff. cbn [clean].
    assert (S : clean env new_codec h = true -> admissible env h -> snd (step env (run env new_codec h) x) = None <-> admissible env (h ++ [x])).
    { intros C A. destruct (registers x) eqn:R; [|exact (step_other env h A x R)]. destruct x as [i o|t n| |]; try discriminate R; [exact (step_iface env h C A i o)|exact (step_conc env h C A t n)]. }
    split.
    + intros [C H]. apply (S C (proj1 IH C)). destruct (step env (run env new_codec h) x) as [c' [p|]]; [discriminate|reflexivity].
    + intros A. pose proof (admissible_prefix _ _ _ A) as A0. pose proof (proj2 IH A0) as C. split; [exact C|]. apply (S C A0) in A. destruct (step env (run env new_codec h) x) as [c' [p|]]; [discriminate|reflexivity].
Qed.
(** Registrations alone: their order does not matter. *)
Lemma earlier_registers h y x : forallb registers h = true -> earlier h y x -> registers y = true.
Proof. intros H (h1 & h2 & -> & Hy). rewrite forallb_app in H. apply andb_true_iff in H. destruct H as [H _]. rewrite forallb_forall in H. apply H, Hy. Qed.
Lemma admissible_perm env h h' : Permutation h h' -> forallb registers h = true -> admissible env h -> admissible env h'.
Proof.
  intros P R [A1 A2 A3 A4 A5 A6 A7 A8 A9].
  assert (R' : forallb registers h' = true) by (apply forallb_forall; intros x Hx; rewrite forallb_forall in R; apply R; eapply Permutation_in; [apply Permutation_sym; exact P|exact Hx]).
  assert (Pc : Permutation (conc_calls h') (conc_calls h)) by (apply Permutation_sym, Permutation_flat_map; exact P).
  assert (Pi : Permutation (iface_calls h') (iface_calls h)) by (apply Permutation_sym, Permutation_flat_map; exact P).
  assert (Ic : forall x, In x (conc_calls h') -> In x (conc_calls h)) by (intros x; apply Permutation_in; exact Pc).
  assert (Ii : forall x, In x (iface_calls h') -> In x (iface_calls h)) by (intros x; apply Permutation_in; exact Pi).
  split.
  - intros t n H. apply A1, Ic, H.
  - eapply Permutation_NoDup; [apply Permutation_map, Permutation_sym, Pc|exact A2].
  - eapply Permutation_NoDup; [apply Permutation_map, Permutation_sym, Pc|exact A3].
  - intros x y d p Hx Hy. apply A4; apply Ic; assumption.
  - eapply Permutation_NoDup; [apply Permutation_map, Permutation_sym, Pi|exact A5].
  - intros i o n H. apply (A6 i o), Ii, H.
  - intros i o x y d d' p Hi Hx Hy. apply (A7 i o x y d d' p); auto.
  - intros x Hx E. apply (earlier_registers _ _ _ R') in E. discriminate.
  - intros t n u E. apply (earlier_registers _ _ _ R') in E. discriminate.
Qed.
Theorem order_free env h h' : Permutation h h' -> forallb registers h = true -> clean env new_codec h = clean env new_codec h'.
Proof.
  intros P R. assert (R' : forallb registers h' = true) by (apply forallb_forall; intros x Hx; rewrite forallb_forall in R; apply R; eapply Permutation_in; [apply Permutation_sym; exact P|exact Hx]).
  destruct (clean env new_codec h) eqn:E, (clean env new_codec h') eqn:E'; try reflexivity.
  - apply admits in E. apply (admissible_perm _ _ _ P R) in E. apply admits in E. congruence.
  - apply admits in E'. apply (admissible_perm _ _ _ (Permutation_sym P) R') in E'. apply admits in E'. congruence.
Qed.
