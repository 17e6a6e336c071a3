(** Facts for C94: names of basic types have no part in JSON.  As in NamedFacts.v, for the
    JSON functions. *)
From Coq Require Import ZArith String List Bool Lia.
From Coq Require Import ZifyBool ZifyNat.
From Verif Require Import Base Prims PrimFacts Types Codec BinEnc BinDec Amino Registry RegistryFacts ValueInd JsonText Json Sane DecSafe EncFacts RoundTrip TopFacts SpecNamed.
Import ListNotations.
Local Open Scope Z_scope.

Section Named.
Variable bas : tid -> bool.
Variables env env' : tenv.
(** ** Related type information *)
Record olike (o o' : fopts) : Prop := {
  ol_name : fo_json_name o' = fo_json_name o;
  ol_omit : fo_omitempty o' = fo_omitempty o;
  ol_unsafe : fo_unsafe o' = fo_unsafe o
}.
Record flike (f f' : finfo) : Prop := {
  fl_index : fi_index f' = fi_index f;
  fl_type : fi_type f' = fi_type f \/
    (exists p, basic bas env (fi_type f) p /\ basic bas env' (fi_type f') p);
  fl_unpacked : fi_unpacked f' = fi_unpacked f;
  fl_opts : olike (fi_opts f) (fi_opts f')
}.
Record clike (ci ci' : cinfo) : Prop := {
  cl_type : ci_type ci' = ci_type ci;
  cl_fields : Forall2 flike (ci_fields ci) (ci_fields ci');
  cl_marshal : ci_marshal ci' = ci_marshal ci;
  cl_unmarshal : ci_unmarshal ci' = ci_unmarshal ci;
  cl_reg : ci_reg ci' = ci_reg ci
}.
Definition keyed {K A} (R : A -> A -> Prop) (p q : K * A) : Prop := fst q = fst p /\ R (snd p) (snd q).
Record ilike (i i' : iinfo) : Prop := {
  il_id : ii_id i' = ii_id i;
  il_prio : ii_prio i' = ii_prio i;
  il_impls : Forall2 (keyed (Forall2 clike)) (ii_impls i) (ii_impls i');
  il_always : ii_always i' = ii_always i
}.
Definition tlike (t t' : tinfo) : Prop :=
  match t, t' with
  | TIConc ci, TIConc ci' => clike ci ci'
  | TIFace ii, TIFace ii' => ilike ii ii'
  | _, _ => False
  end.
Record dlike (c c' : codec) : Prop := {
  dl_sealed : cd_sealed c' = cd_sealed c;
  dl_types : Forall2 (keyed clike) (cd_types c) (cd_types c');
  dl_ifaces : Forall2 ilike (cd_ifaces c) (cd_ifaces c');
  dl_conc : Forall2 clike (cd_concretes c) (cd_concretes c');
  dl_disfix : Forall2 (keyed clike) (cd_disfix c) (cd_disfix c');
  dl_names : Forall2 (keyed clike) (cd_names c) (cd_names c')
}.
Definition erel {A} (R : A -> A -> Prop) (x x' : eres A) : Prop :=
  match x, x' with
  | EOk a, EOk a' => R a a'
  | EErr e, EErr e' => e' = e
  | EPanic p, EPanic p' => p' = p
  | EFuel, EFuel => True
  | _, _ => False
  end.
Definition orel {A} (R : A -> A -> Prop) (x x' : option A) : Prop :=
  match x, x' with Some a, Some a' => R a a' | None, None => True | _, _ => False end.

Lemma set_num_like k o o' : olike o o' -> olike (set_num k o) (set_num k o').
Proof. intros [? ? ?]. split; cbn; assumption || reflexivity. Qed.
Lemma olike_refl o : olike o o.
Proof. split; reflexivity. Qed.
Lemma tlike_type i i' : tlike i i' -> ti_type i' = ti_type i.
Proof. destruct i, i'; cbn; try contradiction; intros H; [apply H|]. rewrite (il_id _ _ H). reflexivity. Qed.
Lemma Forall2_len {A} (R : A -> A -> Prop) l l' : Forall2 R l l' -> length l' = length l.
Proof. induction 1; cbn; congruence. Qed.
Lemma assoc_like {K A} (eqb : K -> K -> bool) (R : A -> A -> Prop) k l l' : Forall2 (keyed R) l l' -> orel R (assoc eqb k l) (assoc eqb k l').
Proof.
  induction 1 as [|[a b] [a' b'] l l' [H1 H2] H IH]; cbn [assoc]; [exact I|]. cbn in H1, H2. subst a'. destruct (eqb k a); [exact H2|exact IH].
Qed.
Lemma find_iface_like i l l' : Forall2 ilike l l' -> orel ilike (find_iface i l) (find_iface i l').
Proof.
  unfold find_iface. induction 1 as [|a a' l l' H1 H IH]; cbn [find]; [exact I|]. rewrite (il_id _ _ H1). destruct (Nat.eqb _ _); [exact H1|exact IH].
Qed.
Lemma ebind_like {A B} (R : A -> A -> Prop) (S : B -> B -> Prop) x x' k k' :
  erel R x x' -> (forall a a', R a a' -> erel S (k a) (k' a')) -> erel S (ebind x k) (ebind x' k').
Proof. intros H Hk. destruct x, x'; cbn in *; try contradiction; try congruence. apply Hk, H. Qed.
Lemma ebind_eq {A B} (R : A -> A -> Prop) (x x' : eres A) (k k' : A -> eres B) :
  erel R x x' -> (forall a a', R a a' -> k' a' = k a) -> ebind x' k' = ebind x k.
Proof. intros H Hk. destruct x, x'; cbn in *; try contradiction; try congruence. apply Hk, H. Qed.
Lemma erel_refl {A} (x : eres A) : erel eq x x.
Proof. destruct x; cbn; auto. Qed.

  Hypothesis Hr : retyped bas env env'.

  (** ** Types *)
  Lemma resolve_like t : match resolve env t with
    | RStruct fs => exists fs', resolve env' t = RStruct fs' /\ Forall2 (same_field bas env env') fs fs'
    | r => resolve env' t = r end.
  Proof.
    destruct t; try reflexivity. cbn. pose proof (ry_def _ _ _ Hr id) as H. destruct (te_def env id) as [fs|u], (te_def env' id) as [fs'|u']; cbn in H; try contradiction.
    - eauto.
    - subst u'. destruct u; reflexivity.
  Qed.

  Lemma zero_like t : zero env' t = zero env t.
  Proof. induction t; cbn; try reflexivity; [now rewrite IHt|apply (ry_zero _ _ _ Hr)]. Qed.
  Lemma is_uint8_like t : is_uint8 env' t = is_uint8 env t.
  Proof. unfold is_uint8. pose proof (resolve_like t) as H. destruct (resolve env t); try (rewrite H; reflexivity). destruct H as (? & -> & _). reflexivity. Qed.
  Lemma is_struct_like t : is_struct env' t = is_struct env t.
  Proof. unfold is_struct. pose proof (resolve_like t) as H. destruct (resolve env t); try (rewrite H; reflexivity). destruct H as (? & -> & _). reflexivity. Qed.
  Lemma is_list_kind_like t : is_list_kind env' t = is_list_kind env t.
  Proof. unfold is_list_kind. pose proof (resolve_like t) as H. destruct (resolve env t); try (rewrite H; reflexivity). destruct H as (? & -> & _). reflexivity. Qed.
  Lemma isr_like t : is_struct_or_repeated_struct env' t = is_struct_or_repeated_struct env t.
  Proof. unfold is_struct_or_repeated_struct. pose proof (resolve_like t) as H. destruct (resolve env t); try (rewrite H; auto using is_struct_like). destruct H as (? & -> & _). reflexivity. Qed.
  Lemma multidim_like k : forall t, multidim_bytes k env' t = multidim_bytes k env t.
  Proof.
    induction k as [|k IH]; intros t; cbn [multidim_bytes]; [reflexivity|]. pose proof (resolve_like t) as H. destruct (resolve env t); try (rewrite H; auto).
    destruct H as (? & -> & _). reflexivity.
  Qed.
  Lemma unpacked_like t o o' : unpacked_list env' t o' = unpacked_list env t o.
  Proof.
    unfold unpacked_list. pose proof (resolve_like t) as H1.
    assert (forall e, ebind (type_to_typ3 env' (deref_type e) o') (fun typ3 => EOk (typ3 =? Typ3ByteLength)) =
                      ebind (type_to_typ3 env (deref_type e) o) (fun typ3 => EOk (typ3 =? Typ3ByteLength))) as H.
    { intros e. unfold type_to_typ3. pose proof (resolve_like (deref_type e)) as H2. destruct (resolve env (deref_type e)) as [p| | | | | | | | | |]; try (rewrite H2; reflexivity).
      - rewrite H2. destruct p; try reflexivity; destruct (fo_fixed64 o), (fo_fixed64 o'), (fo_fixed32 o), (fo_fixed32 o'); reflexivity.
      - destruct H2 as (? & -> & _). reflexivity. }
    destruct (resolve env t); try (rewrite H1; rewrite ?is_uint8_like, ?H; reflexivity).
    destruct H1 as (? & -> & _). reflexivity.
  Qed.
  Lemma unsafe_like t o o' : olike o o' -> check_unsafe env' t o' = check_unsafe env t o.
  Proof.
    intros H. unfold check_unsafe. rewrite (ol_unsafe _ _ H). pose proof (resolve_like t) as H1. destruct (resolve env t); try (rewrite H1; reflexivity).
    destruct H1 as (? & -> & _). reflexivity.
  Qed.
  Lemma dpz_like v : forall t, deref_pointers_zero env' t v = deref_pointers_zero env t v.
  Proof. induction v using value_ind'; intros ty; cbn [deref_pointers_zero]; auto; apply zero_like. Qed.
  Lemma base_like t : forall v, base_of env' t v = base_of env t v.
  Proof. induction t; intros v; cbn [base_of]; try reflexivity. rewrite zero_like. apply IHt. Qed.
  Lemma default_like t : default_value env' t = default_value env t.
  Proof. unfold default_value. rewrite zero_like. reflexivity. Qed.
  Lemma prefer_like t v : prefer_nil env' t v = prefer_nil env t v.
  Proof. unfold prefer_nil. rewrite zero_like. reflexivity. Qed.
  Lemma to_repr_like t v : to_repr env' t v = to_repr env t v.
  Proof. destruct t; try reflexivity. cbn. rewrite (ry_marshal _ _ _ Hr). reflexivity. Qed.
  Lemma from_repr_like t v w : from_repr env' t v w = from_repr env t v w.
  Proof. destruct t; try reflexivity. cbn. rewrite (ry_unmarshal _ _ _ Hr). reflexivity. Qed.
  Lemma mrepr_like t : marshal_repr env' t = marshal_repr env t.
  Proof. destruct t; try reflexivity. cbn. rewrite (ry_marshal _ _ _ Hr). reflexivity. Qed.
  Lemma urepr_like t : unmarshal_repr env' t = unmarshal_repr env t.
  Proof. destruct t; try reflexivity. cbn. rewrite (ry_unmarshal _ _ _ Hr). reflexivity. Qed.
  Lemma pts_like v t : is_pointer_to_struct env' v t = is_pointer_to_struct env v t.
  Proof. unfold is_pointer_to_struct. rewrite !is_struct_like, is_list_kind_like, isr_like. reflexivity. Qed.
  Lemma disfix_like n : name_to_disfix env' n = name_to_disfix env n.
  Proof. unfold name_to_disfix. rewrite (ry_hash _ _ _ Hr). reflexivity. Qed.

  (** ** Type information *)
  Lemma pfo_like f f' : same_field bas env env' f f' -> parse_field_options f' = parse_field_options f.
  Proof. intros [_ _ Hb Ha Hj Hn]. unfold parse_field_options. rewrite Hb, Ha, Hj, Hn. reflexivity. Qed.
  Lemma basic_resolve e t p : basic bas e t p -> resolve e t = RPrim p.
  Proof. clear. intros [->|(id & -> & _ & E & _)]; [reflexivity|]. cbn [resolve]. rewrite E. reflexivity. Qed.
  Lemma basic_deref e t p : basic bas e t p -> deref_type t = t.
  Proof. clear. intros [->|(id & -> & _)]; reflexivity. Qed.
  Lemma parse_like fs fs' : Forall2 (same_field bas env env') fs fs' -> forall i n, erel (Forall2 flike) (parse_fields env fs i n) (parse_fields env' fs' i n).
  Proof.
    induction 1 as [|f f' fs fs' H1 H IH]; intros i n; cbn [parse_fields]; [constructor|]. rewrite (sa_exported _ _ _ _ _ H1).
    destruct (negb (sf_exported f)); [apply IH|]. rewrite (pfo_like _ _ H1). destruct (parse_field_options f) as [o|]; [|apply IH].
    destruct (sa_type _ _ _ _ _ H1) as [Ht|(p & K & K')].
    - rewrite Ht. rewrite (unpacked_like _ o o). eapply ebind_like; [apply erel_refl|]. intros up up' <-. cbv zeta.
      rewrite (unsafe_like _ _ _ (olike_refl _)). eapply ebind_like; [apply erel_refl|]. intros _ _ _.
      eapply ebind_like; [apply IH|]. intros r r' Hrr. cbn. constructor; [|exact Hrr]. split; try reflexivity; [left; reflexivity|]. apply olike_refl.
    - unfold unpacked_list, check_unsafe. rewrite (basic_resolve _ _ _ K), (basic_resolve _ _ _ K'). cbn [ebind].
      eapply ebind_like; [apply erel_refl|]. intros _ _ _.
      eapply ebind_like; [apply IH|]. intros r r' Hrr. cbn. constructor; [|exact Hrr]. split; try reflexivity; [|apply olike_refl]. right. exists p. auto.
  Qed.
  Lemma psi_like t : erel (Forall2 flike) (parse_struct_info env t) (parse_struct_info env' t).
  Proof.
    unfold parse_struct_info. pose proof (resolve_like t) as H. destruct (resolve env t); try (rewrite H; constructor).
    destruct H as (? & -> & H). apply parse_like, H.
  Qed.
  Lemma nti_like t : erel clike (new_type_info env t) (new_type_info env' t).
  Proof.
    assert (erel clike
      (ebind (parse_struct_info env t) (fun fs => ebind (marshal_repr env t) (fun m => ebind (unmarshal_repr env t) (fun u =>
        EOk {| ci_type := t; ci_fields := fs; ci_marshal := m; ci_unmarshal := u; ci_reg := None |}))))
      (ebind (parse_struct_info env' t) (fun fs => ebind (marshal_repr env' t) (fun m => ebind (unmarshal_repr env' t) (fun u =>
        EOk {| ci_type := t; ci_fields := fs; ci_marshal := m; ci_unmarshal := u; ci_reg := None |}))))) as H.
    { eapply ebind_like; [apply psi_like|]. intros fs fs' Hf. rewrite mrepr_like, urepr_like. eapply ebind_like; [apply erel_refl|]. intros m m' <-.
      eapply ebind_like; [apply erel_refl|]. intros u u' <-. cbn. split; auto. }
    unfold new_type_info. destruct t; try exact H; reflexivity.
  Qed.
  Lemma gti_like c c' t : dlike c c' -> erel tlike (get_type_info env c t) (get_type_info env' c' t).
  Proof.
    intros D. unfold get_type_info. cbv zeta.
    assert (erel tlike
      (match assoc gotype_eqb (deref_type t) (cd_types c) with Some ci => EOk (TIConc ci) | None => ebind (new_type_info env (deref_type t)) (fun ci => EOk (TIConc ci)) end)
      (match assoc gotype_eqb (deref_type t) (cd_types c') with Some ci => EOk (TIConc ci) | None => ebind (new_type_info env' (deref_type t)) (fun ci => EOk (TIConc ci)) end)) as H.
    { pose proof (assoc_like gotype_eqb clike (deref_type t) _ _ (dl_types _ _ D)) as Ha.
      destruct (assoc gotype_eqb (deref_type t) (cd_types c)), (assoc gotype_eqb (deref_type t) (cd_types c')); cbn in Ha; try contradiction; [exact Ha|].
      eapply ebind_like; [apply nti_like|]. intros a a' Hx. exact Hx. }
    destruct (deref_type t); try exact H. pose proof (find_iface_like i _ _ (dl_ifaces _ _ D)) as Hf.
    destruct (find_iface i (cd_ifaces c)), (find_iface i (cd_ifaces c')); cbn in Hf; try contradiction; cbn; auto.
  Qed.

  (** ** Registration *)
  Definition rlike (r r' : rres) : Prop := dlike (fst r) (fst r') /\ snd r' = snd r.
  Lemma use_like c c' t : dlike c c' -> dlike (fst (get_type_info_st env c t)) (fst (get_type_info_st env' c' t)).
  Proof.
    intros D. unfold get_type_info_st. cbv zeta.
    assert (dlike
      (fst (match assoc gotype_eqb (deref_type t) (cd_types c) with Some ci => (c, EOk (TIConc ci)) | None =>
              match new_type_info env (deref_type t) with
              | EOk ci => (add_type (deref_type t) ci c, EOk (TIConc ci)) | EErr e => (c, EErr e) | EPanic p => (c, EPanic p) | EFuel => (c, EFuel) end end))
      (fst (match assoc gotype_eqb (deref_type t) (cd_types c') with Some ci => (c', EOk (TIConc ci)) | None =>
              match new_type_info env' (deref_type t) with
              | EOk ci => (add_type (deref_type t) ci c', EOk (TIConc ci)) | EErr e => (c', EErr e) | EPanic p => (c', EPanic p) | EFuel => (c', EFuel) end end))) as H.
    { pose proof (assoc_like gotype_eqb clike (deref_type t) _ _ (dl_types _ _ D)) as Ha.
      destruct (assoc gotype_eqb (deref_type t) (cd_types c)), (assoc gotype_eqb (deref_type t) (cd_types c')); cbn in Ha; try contradiction; [exact D|].
      pose proof (nti_like (deref_type t)) as Hn. destruct (new_type_info env (deref_type t)), (new_type_info env' (deref_type t)); cbn in Hn; try contradiction; try exact D.
      destruct D. split; cbn; auto. constructor; [split; auto|assumption]. }
    destruct (deref_type t); try exact H. exact D.
  Qed.
  Lemma prefix_like ci ci' : clike ci ci' -> ci_prefix ci' = ci_prefix ci.
  Proof. intros H. unfold ci_prefix. rewrite (cl_reg _ _ H). reflexivity. Qed.
  Lemma cdisfix_like ci ci' : clike ci ci' -> ci_disfix ci' = ci_disfix ci.
  Proof. intros H. unfold ci_disfix. rewrite (cl_reg _ _ H). reflexivity. Qed.
  Lemma add_impl_like pb ci ci' m m' : clike ci ci' -> Forall2 (keyed (Forall2 clike)) m m' ->
    Forall2 (keyed (Forall2 clike)) (add_impl pb ci m) (add_impl pb ci' m').
  Proof.
    intros Hc. induction 1 as [|[k l] [k' l'] m m' [H1 H2] H IH]; cbn [add_impl].
    - constructor; [|constructor]. split; [reflexivity|]. constructor; [exact Hc|constructor].
    - cbn in H1, H2. subst k'. destruct (beqb pb k); constructor; try assumption; split; cbn; auto. apply Forall2_app; [assumption|]. constructor; [exact Hc|constructor].
  Qed.
  Lemma with_impls_like m m' ii ii' : ilike ii ii' -> Forall2 (keyed (Forall2 clike)) m m' -> ilike (with_impls m ii) (with_impls m' ii').
  Proof. intros [? ? ? ?] H. split; cbn; assumption. Qed.
  Lemma implements_like ci ci' ii ii' : clike ci ci' -> ilike ii ii' -> implements env' ci' ii' = implements env ci ii.
  Proof. intros H1 H2. unfold implements. rewrite (cl_type _ _ H1), (il_id _ _ H2). apply (ry_impl _ _ _ Hr). Qed.
  Lemma collect_like cs cs' : Forall2 clike cs cs' -> forall ii ii', ilike ii ii' -> ilike (collect_implementers env cs ii) (collect_implementers env' cs' ii').
  Proof.
    unfold collect_implementers. induction 1 as [|ci ci' cs cs' H1 H IH]; intros ii ii' Hi; cbn [fold_left]; [exact Hi|]. apply IH.
    rewrite (implements_like _ _ _ _ H1 Hi), (prefix_like _ _ H1). destruct (implements env ci ii); [|exact Hi].
    apply with_impls_like; [exact Hi|]. apply add_impl_like; [exact H1|]. apply (il_impls _ _ Hi).
  Qed.
  Lemma conflicts_like ii ii' : ilike ii ii' -> check_conflicts ii' = check_conflicts ii.
  Proof.
    intros [_ Hp Hi _]. unfold check_conflicts. rewrite Hp. induction Hi as [|[k l] [k' l'] m m' [H1 H2] H IH]; cbn [forallb]; [reflexivity|].
    rewrite IH. f_equal. cbn in *. clear -H2. f_equal; [rewrite (Forall2_len _ _ _ H2); reflexivity|].
    induction H2 as [|a a' l l' H1 H IH]; cbn [forallb]; [reflexivity|]. rewrite IH, (cdisfix_like _ _ H1). reflexivity.
  Qed.
  Lemma emap_ext {A B} (f g : A -> eres B) l : (forall a, f a = g a) -> emap f l = emap g l.
  Proof. intros H. induction l; cbn; [reflexivity|]. rewrite H, IHl. reflexivity. Qed.
  Lemma new_iface_like i o : erel ilike (new_iface_info env i o) (new_iface_info env' i o).
  Proof.
    destruct o as [o|]; cbn [new_iface_info]; [|split; cbn; auto].
    rewrite (emap_ext (fun n => ebind (name_to_disfix env' n) (fun dp => EOk (to_disfix (fst dp) (snd dp)))) (fun n => ebind (name_to_disfix env n) (fun dp => EOk (to_disfix (fst dp) (snd dp)))) (io_prio o)) by (intros; now rewrite disfix_like).
    eapply ebind_like; [apply erel_refl|]. intros a a' <-. split; cbn; auto.
  Qed.
  Lemma set_ifaces_like l l' c c' : dlike c c' -> Forall2 ilike l l' -> dlike (set_ifaces l c) (set_ifaces l' c').
  Proof. intros [? ? ? ? ? ?] H. split; cbn; assumption. Qed.
  Lemma reg_iface_like c c' i o : dlike c c' -> rlike (register_interface env c i o) (register_interface env' c' i o).
  Proof.
    intros D. unfold register_interface. rewrite (dl_sealed _ _ D). destruct (cd_sealed c); [split; [exact D|reflexivity]|].
    pose proof (new_iface_like i o) as Hn. destruct (new_iface_info env i o) as [a| | |], (new_iface_info env' i o) as [a'| | |]; cbn in Hn; try contradiction; try (subst; split; [exact D|reflexivity]).
    cbv zeta. pose proof (collect_like _ _ (dl_conc _ _ D) _ _ Hn) as Hc. rewrite (conflicts_like _ _ Hc). destruct (negb _); [split; [exact D|reflexivity]|].
    pose proof (find_iface_like i _ _ (dl_ifaces _ _ D)) as Hf.
    destruct (find_iface i (cd_ifaces c)), (find_iface i (cd_ifaces c')); cbn in Hf; try contradiction; (split; [|reflexivity]); [exact D|].
    cbn [fst]. apply set_ifaces_like; [exact D|]. apply Forall2_app; [apply (dl_ifaces _ _ D)|]. constructor; [exact Hc|constructor].
  Qed.
  Lemma nri_like t p n : erel clike (new_registered_info env t p n) (new_registered_info env' t p n).
  Proof.
    unfold new_registered_info. eapply ebind_like; [apply nti_like|]. intros a a' Ha. rewrite disfix_like. eapply ebind_like; [apply erel_refl|].
    intros d d' <-. destruct Ha. split; cbn; auto.
  Qed.
  Lemma restore_like pb m m' : Forall2 (keyed (Forall2 clike)) m m' -> Forall2 (keyed (Forall2 clike)) (restore_impl pb m) (restore_impl pb m').
  Proof.
    intros H. unfold restore_impl. pose proof (assoc_like beqb (Forall2 clike) pb _ _ H) as Ha. destruct (assoc beqb pb m), (assoc beqb pb m'); cbn in Ha; try contradiction; [exact H|].
    apply Forall2_app; [exact H|]. constructor; [split; cbn; auto|constructor].
  Qed.
  Lemma add_check_like ci ci' l l' : clike ci ci' -> Forall2 ilike l l' ->
    Forall2 ilike (fst (add_check_conflicts env ci l)) (fst (add_check_conflicts env' ci' l')) /\
    snd (add_check_conflicts env' ci' l') = snd (add_check_conflicts env ci l).
  Proof.
    intros Hc. induction 1 as [|ii ii' l l' H1 H IH]; cbn [add_check_conflicts]; [split; [constructor|reflexivity]|].
    rewrite (implements_like _ _ _ _ Hc H1), (prefix_like _ _ Hc).
    destruct (add_check_conflicts env ci l) as [r ok], (add_check_conflicts env' ci' l') as [r' ok']. cbn [fst snd] in IH. destruct IH as [IH1 ->].
    destruct (negb (implements env ci ii)); [split; [constructor; assumption|reflexivity]|]. cbv zeta.
    pose proof (with_impls_like _ _ _ _ H1 (add_impl_like (ci_prefix ci) _ _ _ _ Hc (il_impls _ _ H1))) as Hw. rewrite (conflicts_like _ _ Hw).
    destruct (check_conflicts _); (split; [|reflexivity]); constructor; try assumption.
    apply with_impls_like; [exact H1|]. apply restore_like, (il_impls _ _ H1).
  Qed.
  Lemma set_reg_like c c' ci ci' n : dlike c c' -> clike ci ci' -> rlike (set_registered c ci n) (set_registered c' ci' n).
  Proof.
    intros D Hc. unfold set_registered. rewrite (cl_type _ _ Hc), (cdisfix_like _ _ Hc).
    pose proof (assoc_like gotype_eqb clike (ci_type ci) _ _ (dl_types _ _ D)) as Ha.
    destruct (assoc gotype_eqb (ci_type ci) (cd_types c)), (assoc gotype_eqb (ci_type ci) (cd_types c')); cbn in Ha; try contradiction; [split; [exact D|reflexivity]|]. cbv zeta.
    assert (Forall2 (keyed clike) ((ci_type ci, ci) :: cd_types c) ((ci_type ci, ci') :: cd_types c')) as Ht
      by (constructor; [split; auto|apply (dl_types _ _ D)]).
    assert (Forall2 clike (cd_concretes c ++ [ci]) (cd_concretes c' ++ [ci'])) as Hl
      by (apply Forall2_app; [apply (dl_conc _ _ D)|constructor; [exact Hc|constructor]]).
    clear Ha. pose proof (assoc_like beqb clike (ci_disfix ci) _ _ (dl_disfix _ _ D)) as Ha.
    destruct (assoc beqb (ci_disfix ci) (cd_disfix c)), (assoc beqb (ci_disfix ci) (cd_disfix c')); cbn in Ha; try contradiction;
      [split; [destruct D; split; cbn; assumption|reflexivity]|].
    clear Ha. pose proof (assoc_like beqb clike n _ _ (dl_names _ _ D)) as Ha.
    destruct (assoc beqb n (cd_names c)), (assoc beqb n (cd_names c')); cbn in Ha; try contradiction; (split; [|reflexivity]); destruct D; split; cbn; try assumption;
      (constructor; [split; auto|assumption]).
  Qed.
  Lemma reg_conc_like c c' t n : dlike c c' -> rlike (register_concrete env c t n) (register_concrete env' c' t n).
  Proof.
    intros D. unfold register_concrete. rewrite (dl_sealed _ _ D). destruct (cd_sealed c); [split; [exact D|reflexivity]|]. cbv zeta.
    assert (forall rt p, rlike
      (match new_registered_info env rt p n with
       | EOk ci => let '(ifs, ok) := add_check_conflicts env ci (cd_ifaces c) in
          if negb ok then (set_ifaces ifs c, Some "conflicts with other(s)"%string) else set_registered (set_ifaces ifs c) ci n
       | EErr e => (c, Some e) | EPanic p => (c, Some p) | EFuel => (c, Some "fuel"%string) end)
      (match new_registered_info env' rt p n with
       | EOk ci => let '(ifs, ok) := add_check_conflicts env' ci (cd_ifaces c') in
          if negb ok then (set_ifaces ifs c', Some "conflicts with other(s)"%string) else set_registered (set_ifaces ifs c') ci n
       | EErr e => (c', Some e) | EPanic p => (c', Some p) | EFuel => (c', Some "fuel"%string) end)) as H.
    { intros rt p. pose proof (nri_like rt p n) as Hn. destruct (new_registered_info env rt p n) as [ci| | |], (new_registered_info env' rt p n) as [ci'| | |];
        cbn in Hn; try contradiction; try (subst; split; [exact D|reflexivity]).
      pose proof (add_check_like _ _ _ _ Hn (dl_ifaces _ _ D)) as [H1 H2].
      destruct (add_check_conflicts env ci (cd_ifaces c)) as [r ok], (add_check_conflicts env' ci' (cd_ifaces c')) as [r' ok']. cbn [fst snd] in H1, H2. subst ok'.
      pose proof (set_ifaces_like _ _ _ _ D H1) as D'. destruct (negb ok); [split; [exact D'|reflexivity]|]. apply set_reg_like; assumption. }
    destruct t; try apply H; try (split; [exact D|reflexivity]). destruct t; try apply H; split; try exact D; reflexivity.
  Qed.
  Lemma step_like c c' x : dlike c c' -> rlike (step env c x) (step env' c' x).
  Proof.
    intros D. destruct x; cbn [step]; [apply reg_iface_like, D|apply reg_conc_like, D| |]; (split; [|reflexivity]); cbn [fst].
    - destruct D. split; cbn; auto.
    - apply use_like, D.
  Qed.
  Lemma run_like h : forall c c', dlike c c' -> dlike (run env c h) (run env' c' h).
  Proof. induction h as [|x h IH]; intros c c' D; cbn [run]; [exact D|]. apply IH. apply (step_like _ _ x D). Qed.
  Lemma clean_like h : forall c c', dlike c c' -> clean env' c' h = clean env c h.
  Proof.
    induction h as [|x h IH]; intros c c' D; cbn [clean]; [reflexivity|]. destruct (step_like _ _ x D) as [D1 D2].
    destruct (step env c x) as [d p], (step env' c' x) as [d' p']. cbn [fst snd] in D1, D2. subst p'. destruct p; [reflexivity|]. apply IH, D1.
  Qed.
  Lemma new_like : dlike new_codec new_codec.
  Proof. split; cbn; auto. Qed.

  (** ** JSON *)
  Variable je : jenv.
  Lemma deep_zero_kin p t t' v : basic bas env t p -> basic bas env' t' p -> deep_zero env' t' v = deep_zero env t v.
  Proof. intros K K'. destruct v; cbn [deep_zero]; rewrite (basic_resolve _ _ _ K), (basic_resolve _ _ _ K'); reflexivity. Qed.
  Lemma forall2b_like l : Forall (fun w => forall t, deep_zero env' t w = deep_zero env t w) l -> forall fs fs', Forall2 (same_field bas env env') fs fs' ->
    forall2b (fun f w => deep_zero env' (sf_type f) w) fs' l = forall2b (fun f w => deep_zero env (sf_type f) w) fs l.
  Proof.
    induction 1 as [|w l H1 H IH]; intros fs fs' F; destruct F as [|f f' fs fs' F1 F]; cbn [forall2b]; try reflexivity.
    f_equal; [|apply IH, F]. destruct (sa_type _ _ _ _ _ F1) as [->|(p & K & K')]; [apply H1|apply (deep_zero_kin p); assumption].
  Qed.
  Lemma deep_zero_like v : forall ty, deep_zero env' ty v = deep_zero env ty v.
  Proof.
    induction v using value_ind'; intros ty; cbn [deep_zero]; pose proof (resolve_like ty) as Hty;
      (destruct (resolve env ty) eqn:Er; try (rewrite Hty); [..|destruct Hty as (fs' & -> & Hty)|]); try reflexivity.
    - induction H as [|w l H1 H IH]; cbn [forallb]; [reflexivity|]. rewrite H1, IH. reflexivity.
    - apply forall2b_like; assumption.
  Qed.
  Lemma is_empty_like t v : is_empty env' t v = is_empty env t v.
  Proof. unfold is_empty. destruct (deref_pointers v) as [w []]; [reflexivity|]. rewrite deep_zero_like. reflexivity. Qed.
  Lemma is_empty_kin p t t' v : basic bas env t p -> basic bas env' t' p -> is_empty env' t' v = is_empty env t v.
  Proof.
    intros K K'. unfold is_empty. destruct (deref_pointers v) as [w []]; [reflexivity|]. rewrite (deep_zero_kin p t t' w K K').
    assert (is_ptr t' = false) as -> by (destruct K' as [->|(id & -> & _)]; reflexivity). assert (is_ptr t = false) as -> by (destruct K as [->|(id & -> & _)]; reflexivity). reflexivity.
  Qed.
  Section Codec.
  Variables c c' : codec.
  Hypothesis D : dlike c c'.
  Hypothesis Hs : sane_codec env c.
  Hypothesis Hs' : sane_codec env' c'.
  Hypothesis Hj : no_json_methods bas je.
  (** What is known of the integer types. *)
  Definition plain (t : gotype) (i : tinfo) : Prop := exists ci, i = TIConc ci /\ ci_type ci = t /\ ci_marshal ci = None /\ ci_unmarshal ci = None.
  Lemma gti_basic env0 c0 t p : sane_codec env0 c0 -> basic bas env0 t p -> exists i, get_type_info env0 c0 t = EOk i /\ plain t i.
  Proof.
    clear. intros S B. pose proof (basic_deref _ _ _ B) as Dt. assert (X : exists ci, get_type_info env0 c0 t = EOk (TIConc ci)).
    { unfold get_type_info. rewrite Dt. destruct B as [->|(id & -> & _ & E & M & U)].
      - destruct (assoc gotype_eqb (TPrim p) (cd_types c0)); eauto. eexists. reflexivity.
      - destruct (assoc gotype_eqb (TNamed id) (cd_types c0)); eauto. unfold new_type_info, parse_struct_info, marshal_repr, unmarshal_repr. cbn [resolve]. rewrite E, M, U. eexists. reflexivity. }
    destruct X as [ci X]. exists (TIConc ci). split; [exact X|]. exists ci. pose proof (gti_minfo _ _ _ _ S X) as [T Ok]. rewrite Dt in T.
    pose proof (minfo_method _ _ _ T Ok) as M. pose proof (minfo_unmethod _ _ _ T Ok) as U. splits; try assumption; try reflexivity.
    - destruct (ci_marshal ci); [|reflexivity]. destruct M as (id & f & E & Y & _). destruct B as [B|(id' & B & _ & _ & B' & _)]; congruence.
    - destruct (ci_unmarshal ci); [|reflexivity]. destruct U as (id & f & E & Y & _). destruct B as [B|(id' & B & _ & _ & _ & B')]; congruence.
  Qed.
  Section Enc.
  Variables rec rec' : tinfo -> value -> bool -> fopts -> eres bytes.
  Hypothesis Hrec : forall i i' v ad o o', tlike i i' -> olike o o' -> rec' i' v ad o' = rec i v ad o.
  Hypothesis Hkin : forall p t t' i i' v ad o o', basic bas env t p -> basic bas env' t' p -> plain t i -> plain t' i' -> olike o o' -> rec' i' v ad o' = rec i v ad o.
  Lemma j_interface_like v o o' : olike o o' -> json_interface env' c' rec' v o' = json_interface env c rec v o.
  Proof.
    intros Ho. unfold json_interface. destruct v; try reflexivity. destruct o0 as [[ct cv]|]; [|reflexivity].
    destruct (deref_pointers cv) as [crv [|]]; [reflexivity|].
    destruct crv; try reflexivity;
      (eapply ebind_eq; [apply (gti_like _ _ _ D)|]; intros i i' Hi; rewrite (Hrec _ _ _ _ _ _ Hi Ho);
       destruct i as [ci|], i' as [ci'|]; cbn in Hi; try contradiction; [|reflexivity]; rewrite (cl_reg _ _ Hi); reflexivity).
  Qed.
  Lemma j_elems_like i i' ad o o' l : tlike i i' -> olike o o' -> json_elems rec' i' l ad o' = json_elems rec i l ad o.
  Proof. intros Hi Ho. induction l as [|v l IH]; cbn [json_elems]; [reflexivity|]. rewrite IH, (Hrec _ _ _ _ _ _ Hi Ho). reflexivity. Qed.
  Lemma j_list_like ert v ad o o' : olike o o' -> json_list env' c' rec' ert v ad o' = json_list env c rec ert v ad o.
  Proof.
    intros Ho. unfold json_list. destruct v as [| | | | | | l | [l|] | | | | | | |]; try reflexivity;
    (rewrite is_uint8_like; destruct (is_uint8 env ert); [reflexivity|]; eapply ebind_eq; [apply (gti_like _ _ _ D)|]; intros i i' Hi;
     rewrite (j_elems_like _ _ _ _ _ _ Hi Ho); reflexivity).
  Qed.
  Lemma j_fields_like l ad fs fs' : Forall2 flike fs fs' -> json_fields env' c' rec' fs' l ad = json_fields env c rec fs l ad.
  Proof.
    induction 1 as [|f f' fs fs' [Hx Htt _ Ho] H IH]; cbn [json_fields]; [reflexivity|]. cbv zeta. rewrite Hx, (ol_name _ _ Ho), (ol_omit _ _ Ho).
    destruct Htt as [Ht|(p & K & K')].
    - rewrite Ht, is_empty_like. eapply ebind_eq; [apply (gti_like _ _ _ D)|]. intros i i' Hi. rewrite IH, (Hrec _ _ _ _ _ _ Hi Ho). reflexivity.
    - destruct (gti_basic env c _ p Hs K) as (i & Ga & Pa). destruct (gti_basic env' c' _ p Hs' K') as (i' & Ga' & Pa'). rewrite Ga, Ga'. cbn [ebind].
      rewrite (is_empty_kin p _ _ _ K K'), IH, (Hkin p _ _ i i' _ _ _ _ K K' Pa Pa' Ho). reflexivity.
  Qed.
  Lemma j_struct_like ci ci' v ad : clike ci ci' -> json_struct env' c' rec' ci' v ad = json_struct env c rec ci v ad.
  Proof. intros Hc. unfold json_struct. destruct v; try reflexivity. rewrite (j_fields_like _ _ _ _ (cl_fields _ _ Hc)). reflexivity. Qed.
  Lemma j_members_like vt o o' : olike o o' -> forall l, json_members env' c' rec' vt l o' = json_members env c rec vt l o.
  Proof.
    intros Ho. induction l as [|[k v] l IH]; cbn [json_members]; [reflexivity|]. destruct k; try reflexivity. rewrite IH.
    assert (match deref_pointers v with (_, true) => EOk null | (w, false) => ebind (get_type_info env' c' (deref_type vt)) (fun info => rec' info w (val_is_ptr v) o') end =
            match deref_pointers v with (_, true) => EOk null | (w, false) => ebind (get_type_info env c (deref_type vt)) (fun info => rec info w (val_is_ptr v) o) end) as ->; [|reflexivity].
    destruct (deref_pointers v) as [w [|]]; [reflexivity|]. eapply ebind_eq; [apply (gti_like _ _ _ D)|]. intros i i' Hi. apply Hrec; assumption.
  Qed.
  Lemma j_map_like kt vt v o o' : olike o o' -> json_map env' c' rec' kt vt v o' = json_map env c rec kt vt v o.
  Proof.
    intros Ho. unfold json_map. pose proof (resolve_like kt) as H. destruct (resolve env kt) as [[]| | | | | | | | | |]; try (rewrite H; reflexivity); [rewrite H|destruct H as (? & -> & _); reflexivity].
    destruct v as [| | | | | | | | | | | [l|] | | |]; try reflexivity. rewrite (j_members_like _ _ _ Ho). reflexivity.
  Qed.
  Lemma j_switch_like i i' v ad o o' : tlike i i' -> olike o o' -> json_switch env' je c' rec' i' v ad o' = json_switch env je c rec i v ad o.
  Proof.
    intros Hi Ho. unfold json_switch. rewrite (tlike_type _ _ Hi). pose proof (resolve_like (ti_type i)) as H.
    destruct (resolve env (ti_type i)); try (rewrite H); try reflexivity; try (apply j_list_like, Ho); try (apply j_map_like, Ho); try (apply j_interface_like, Ho).
    - unfold json_prim. rewrite (ol_unsafe _ _ Ho). reflexivity.
    - destruct i as [ci|], i' as [ci'|]; cbn in Hi; try contradiction; [apply j_struct_like, Hi|reflexivity].
    - destruct H as (? & -> & _). destruct i as [ci|], i' as [ci'|]; cbn in Hi; try contradiction; [apply j_struct_like, Hi|reflexivity].
  Qed.
  End Enc.
  Lemma encode_json_kin k p t t' i i' v ad o o' : basic bas env t p -> basic bas env' t' p -> plain t i -> plain t' i' -> olike o o' ->
    encode_json k env' je c' i' v ad o' = encode_json k env je c i v ad o.
  Proof.
    intros K K' (ci & -> & T & M & _) (ci' & -> & T' & M' & _) Ho. destruct k as [|k]; [reflexivity|]. cbn [encode_json].
    destruct ci as [ty fs m u r], ci' as [ty' fs' m' u' r']; cbn in T, M, T', M'. subst. unfold json_switch. cbn [ti_type ci_type]. rewrite (basic_resolve _ _ _ K), (basic_resolve _ _ _ K').
    assert (E : forall w, json_prim je p w o' = json_prim je p w o) by (intros w; unfold json_prim; rewrite (ol_unsafe _ _ Ho); reflexivity).
    assert (N : forall e ty w b, basic bas e ty p -> marshal_override je ty w b = None).
    { intros e ty w b [->|(id & -> & Hi & _)]; [reflexivity|]. cbn [marshal_override]. destruct (Hj id Hi) as [-> _]. reflexivity. }
    destruct v; try reflexivity; (destruct (deref_pointers _) as [w [|]]; [reflexivity|]; rewrite (N _ _ w _ K), (N _ _ w _ K'); apply E).
  Qed.
  Lemma encode_json_like k : forall i i' v ad o o', tlike i i' -> olike o o' -> encode_json k env' je c' i' v ad o' = encode_json k env je c i v ad o.
  Proof.
    induction k as [|k IH]; intros i i' v ad o o' Hi Ho; [reflexivity|]. cbn [encode_json].
    assert (forall w ad, match i' with
            | TIConc {| ci_type := t; ci_marshal := Some r |} => ebind (to_repr env' t w) (fun rv => ebind (get_type_info env' c' r) (fun rinfo => encode_json k env' je c' rinfo rv false o'))
            | _ => json_switch env' je c' (encode_json k env' je c') i' w ad o' end =
            match i with
            | TIConc {| ci_type := t; ci_marshal := Some r |} => ebind (to_repr env t w) (fun rv => ebind (get_type_info env c r) (fun rinfo => encode_json k env je c rinfo rv false o))
            | _ => json_switch env je c (encode_json k env je c) i w ad o end) as H.
    { intros w ad'. pose proof (j_switch_like _ _ IH (encode_json_kin k) i i' w ad' o o' Hi Ho) as Hsw. destruct i as [ci|ii], i' as [ci'|ii']; cbn in Hi; try contradiction; [|exact Hsw].
      destruct Hi as [Ht _ Hm _ _]. destruct ci as [t fs m u r], ci' as [t' fs' m' u' r']; cbn in Ht, Hm. subst t' m'. destruct m as [m|]; [|exact Hsw].
      rewrite to_repr_like. eapply ebind_eq; [apply erel_refl|]. intros a a' <-. eapply ebind_eq; [apply (gti_like _ _ _ D)|]. intros x x' Hx. apply IH; assumption. }
    destruct v; try reflexivity; (destruct (deref_pointers _) as [w [|]]; [reflexivity|]; cbv zeta; rewrite (tlike_type _ _ Hi); destruct (marshal_override _ _ _ _); [reflexivity|apply H]).
  Qed.
  Lemma marshal_json_like k t v : marshal_json k env' je c' t v = marshal_json k env je c t v.
  Proof.
    unfold marshal_json. eapply ebind_eq; [apply (gti_like _ _ _ D)|]. intros i i' Hi. rewrite (encode_json_like _ _ _ _ _ _ _ Hi (olike_refl _)).
    eapply ebind_eq; [apply erel_refl|]. intros a a' <-. destruct i as [ci|], i' as [ci'|]; cbn in Hi; try contradiction; [|reflexivity].
    destruct Hi as [_ _ _ _ Hg]. destruct ci, ci'; cbn in Hg. subst. reflexivity.
  Qed.

  Section Zero.
  Hypothesis Hz : forall id p, te_def env id = UType (TPrim p) -> te_zero env id = zero_prim p.
  Lemma zero_basic p t t' : basic bas env t p -> basic bas env' t' p -> zero env' t' = zero env t.
  Proof.
    intros K K'. assert (zero env t = zero_prim p) as -> by (destruct K as [->|(id & -> & _ & E & _)]; [reflexivity|exact (Hz _ _ E)]).
    destruct K' as [->|(id & -> & _ & E & _)]; [reflexivity|]. cbn [zero]. rewrite (ry_zero _ _ _ Hr). apply Hz. pose proof (ry_def _ _ _ Hr id) as H. rewrite E in H.
    destruct (te_def env id); cbn in H; [contradiction|congruence].
  Qed.
  Section Dec.
  Variables rec rec' : bytes -> tinfo -> gotype -> value -> fopts -> eres value.
  Hypothesis Hrec : forall b i i' t v o o', tlike i i' -> olike o o' -> rec' b i' t v o' = rec b i t v o.
  Hypothesis Hkin : forall p t t' b i i' v o o', basic bas env t p -> basic bas env' t' p -> plain t i -> plain t' i' -> olike o o' -> rec' b i' t' v o' = rec b i t v o.
  Lemma tifn_like n : erel clike (type_info_from_name c n) (type_info_from_name c' n).
  Proof.
    unfold type_info_from_name. pose proof (assoc_like beqb clike n _ _ (dl_names _ _ D)) as Ha.
    destruct (assoc beqb n (cd_names c)), (assoc beqb n (cd_names c')); cbn in Ha; try contradiction; [exact Ha|reflexivity].
  Qed.
  Lemma u_interface_like ii ii' bz o o' : ilike ii ii' -> olike o o' -> unjson_interface env' c' rec' ii' bz o' = unjson_interface env c rec ii bz o.
  Proof.
    intros Hi Ho. unfold unjson_interface. eapply ebind_eq; [apply erel_refl|]. intros nd nd' <-. eapply ebind_eq; [apply tifn_like|]. intros ci ci' Hc. cbv zeta.
    rewrite (Hrec (snd nd) (TIConc ci) (TIConc ci') _ _ o o' Hc Ho), (cl_reg _ _ Hc), (cl_type _ _ Hc), (il_id _ _ Hi), zero_like, (ry_impl _ _ _ Hr). reflexivity.
  Qed.
  Lemma u_elems_like i i' t o o' : tlike i i' -> olike o o' -> forall raws l, unjson_elems rec' i' t raws l o' = unjson_elems rec i t raws l o.
  Proof.
    intros Hi Ho. induction raws as [|b raws IH]; intros [|v l]; cbn [unjson_elems]; try reflexivity. rewrite (Hrec _ _ _ _ _ _ _ Hi Ho), IH. reflexivity.
  Qed.
  Lemma u_array_like n t bz v o o' : olike o o' -> unjson_array env' c' rec' n t bz v o' = unjson_array env c rec n t bz v o.
  Proof.
    intros Ho. unfold unjson_array. rewrite is_uint8_like. destruct (is_uint8 env t); [reflexivity|]. eapply ebind_eq; [apply (gti_like _ _ _ D)|]. intros i i' Hi.
    eapply ebind_eq; [apply erel_refl|]. intros raws raws' <-. destruct (negb _); [reflexivity|]. destruct v; try reflexivity. rewrite (u_elems_like _ _ _ _ _ Hi Ho). reflexivity.
  Qed.
  Lemma u_slice_like t bz v o o' : olike o o' -> unjson_slice env' c' rec' t bz v o' = unjson_slice env c rec t bz v o.
  Proof.
    intros Ho. unfold unjson_slice. rewrite is_uint8_like. destruct (is_uint8 env t); [reflexivity|]. eapply ebind_eq; [apply (gti_like _ _ _ D)|]. intros i i' Hi.
    eapply ebind_eq; [apply erel_refl|]. intros raws raws' <-. rewrite (u_elems_like _ _ _ _ _ Hi Ho), zero_like. reflexivity.
  Qed.
  Lemma u_fields_like m o o' fs fs' : olike o o' -> Forall2 flike fs fs' -> forall l, unjson_fields env' c' rec' fs' m l o' = unjson_fields env c rec fs m l o.
  Proof.
    intros Ho. induction 1 as [|f f' fs fs' [Hx Htt _ Hfo] H IH]; intros l; cbn [unjson_fields]; [reflexivity|]. cbv zeta. rewrite Hx, (ol_name _ _ Hfo), (ol_omit _ _ Hfo).
    destruct Htt as [Ht|(p & K & K')].
    - rewrite Ht, zero_like. eapply ebind_eq; [apply (gti_like _ _ _ D)|]. intros i i' Hi. destruct (assoc beqb _ m) as [[|b r]|]; [apply IH| |apply IH]. rewrite (Hrec _ _ _ _ _ _ _ Hi Ho).
      eapply ebind_eq; [apply erel_refl|]. intros w w' <-. apply IH.
    - destruct (gti_basic env c _ p Hs K) as (i & Ga & Pa). destruct (gti_basic env' c' _ p Hs' K') as (i' & Ga' & Pa'). rewrite Ga, Ga'. cbn [ebind].
      rewrite (zero_basic p _ _ K K').
      destruct (assoc beqb _ m) as [[|b r]|]; [apply IH| |apply IH]. rewrite (Hkin p _ _ _ i i' _ _ _ K K' Pa Pa' Ho).
      eapply ebind_eq; [apply erel_refl|]. intros w w' <-. apply IH.
  Qed.
  Lemma u_struct_like ci ci' bz v o o' : clike ci ci' -> olike o o' -> unjson_struct env' c' rec' ci' bz v o' = unjson_struct env c rec ci bz v o.
  Proof.
    intros Hc Ho. unfold unjson_struct. eapply ebind_eq; [apply erel_refl|]. intros m m' <-. destruct v; try reflexivity. rewrite (u_fields_like _ _ _ _ _ Ho (cl_fields _ _ Hc)). reflexivity.
  Qed.
  Lemma u_members_like kt vt i i' o o' : tlike i i' -> olike o o' -> forall m, unjson_members env' rec' kt vt i' m o' = unjson_members env rec kt vt i m o.
  Proof.
    intros Hi Ho. induction m as [|[k b] m IH]; cbn [unjson_members]; [reflexivity|]. rewrite (Hrec _ _ _ _ _ _ _ Hi Ho), zero_like, IH. reflexivity.
  Qed.
  Lemma u_map_like kt vt bz o o' : olike o o' -> unjson_map env' c' rec' kt vt bz o' = unjson_map env c rec kt vt bz o.
  Proof.
    intros Ho. unfold unjson_map. eapply ebind_eq; [apply erel_refl|]. intros m m' <-. pose proof (resolve_like kt) as H.
    destruct (resolve env kt) as [[]| | | | | | | | | |]; try (rewrite H; reflexivity); [rewrite H|destruct H as (? & -> & _); reflexivity].
    eapply ebind_eq; [apply (gti_like _ _ _ D)|]. intros i i' Hi. rewrite (u_members_like _ _ _ _ _ _ Hi Ho). reflexivity.
  Qed.
  Lemma u_switch_like i i' bz v o o' : tlike i i' -> olike o o' -> unjson_switch env' je c' rec' i' bz v o' = unjson_switch env je c rec i bz v o.
  Proof.
    intros Hi Ho. unfold unjson_switch. rewrite (tlike_type _ _ Hi). pose proof (resolve_like (ti_type i)) as H.
    destruct (resolve env (ti_type i)); try (rewrite H); try reflexivity; try (apply u_array_like, Ho); try (apply u_slice_like, Ho); try (apply u_map_like, Ho).
    - unfold unjson_prim. rewrite (ol_unsafe _ _ Ho). reflexivity.
    - destruct i as [ci|], i' as [ci'|]; cbn in Hi; try contradiction; [apply u_struct_like; assumption|reflexivity].
    - destruct i as [ci|ii], i' as [ci'|ii']; cbn in Hi; try contradiction; [reflexivity|apply u_interface_like; assumption].
    - destruct H as (? & -> & _). destruct i as [ci|], i' as [ci'|]; cbn in Hi; try contradiction; [apply u_struct_like; assumption|reflexivity].
  Qed.
  End Dec.
  Lemma decode_json_kin k p t t' bz i i' v o o' : basic bas env t p -> basic bas env' t' p -> plain t i -> plain t' i' -> olike o o' ->
    decode_json k env' je c' bz i' t' v o' = decode_json k env je c bz i t v o.
  Proof.
    intros K K' (ci & -> & T & _ & M) (ci' & -> & T' & _ & M') Ho. destruct k as [|k]; [reflexivity|]. cbn [decode_json].
    destruct ci as [ty fs m u r], ci' as [ty' fs' m' u' r']; cbn in T, M, T', M'. subst. unfold unjson_switch. cbn [ti_type ci_type].
    rewrite (basic_resolve _ _ _ K), (basic_resolve _ _ _ K'), (zero_basic p _ _ K K').
    assert (E : unjson_prim je p bz o' = unjson_prim je p bz o) by (unfold unjson_prim; rewrite (ol_unsafe _ _ Ho); reflexivity). rewrite E.
    destruct K as [->|(id & -> & Hi & _)], K' as [->|(id' & -> & Hi' & _)]; cbn [deref_type]; try reflexivity;
      try (destruct (Hj id Hi) as [_ ->]); try (destruct (Hj id' Hi') as [_ ->]); reflexivity.
  Qed.
  Lemma decode_json_like k : forall bz i i' t v o o', tlike i i' -> olike o o' -> decode_json k env' je c' bz i' t v o' = decode_json k env je c bz i t v o.
  Proof.
    induction k as [|k IH]; intros bz i i' t v o o' Hi Ho; [reflexivity|]. cbn [decode_json]. rewrite base_like, zero_like. cbv zeta.
    assert (match i' with
            | TIConc {| ci_type := ct; ci_unmarshal := Some r |} => ebind (get_type_info env' c' r) (fun rinfo => ebind (decode_json k env' je c' bz rinfo r (zero env' r) o') (fun rv =>
                ebind (from_repr env' ct (base_of env t v) rv) (fun ve => match snd ve with Some e => EErr e | None => EOk (fst ve) end)))
            | _ => unjson_switch env' je c' (decode_json k env' je c') i' bz (base_of env t v) o' end =
            match i with
            | TIConc {| ci_type := ct; ci_unmarshal := Some r |} => ebind (get_type_info env c r) (fun rinfo => ebind (decode_json k env je c bz rinfo r (zero env r) o) (fun rv =>
                ebind (from_repr env ct (base_of env t v) rv) (fun ve => match snd ve with Some e => EErr e | None => EOk (fst ve) end)))
            | _ => unjson_switch env je c (decode_json k env je c) i bz (base_of env t v) o end) as H.
    { pose proof (u_switch_like _ _ IH (decode_json_kin k) i i' bz (base_of env t v) o o' Hi Ho) as Hsw. destruct i as [ci|ii], i' as [ci'|ii']; cbn in Hi; try contradiction; [|exact Hsw].
      destruct Hi as [Ht _ _ Hm _]. destruct ci as [ct fs m u r], ci' as [ct' fs' m' u' r']; cbn in Ht, Hm. subst ct' u'. destruct u as [u|]; [|exact Hsw].
      eapply ebind_eq; [apply (gti_like _ _ _ D)|]. intros x x' Hx. rewrite zero_like, (IH _ _ _ _ _ _ _ Hx Ho). eapply ebind_eq; [apply erel_refl|]. intros a a' <-. rewrite from_repr_like. reflexivity. }
    rewrite H. destruct i as [ci|ii], i' as [ci'|ii']; cbn in Hi; try contradiction; reflexivity.
  Qed.
  Lemma unmarshal_json_like k bz t v : unmarshal_json k env' je c' bz t v = unmarshal_json k env je c bz t v.
  Proof.
    unfold unmarshal_json. destruct bz as [|b r]; [reflexivity|]. eapply ebind_eq; [apply (gti_like _ _ _ D)|]. intros i i' Hi.
    pose proof (fun bz => decode_json_like k bz i i' t v no_opts no_opts Hi (olike_refl _)) as Hd. destruct i as [ci|], i' as [ci'|]; cbn in Hi; try contradiction; [|apply Hd].
    destruct Hi as [_ _ _ _ Hg]. destruct ci as [ct fs m u r0], ci' as [ct' fs' m' u' r0']; cbn in Hg. subst r0'. destruct r0; [|apply Hd].
    eapply ebind_eq; [apply erel_refl|]. intros nd nd' <-. rewrite Hd. reflexivity.
  Qed.
  End Zero.
  End Codec.
End Named.
