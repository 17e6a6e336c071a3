(** Facts for C92: the widths of integer fields have no part in the binary format. *)
From Coq Require Import ZArith String List Bool Lia.
From Coq Require Import ZifyBool ZifyNat.
From Verif Require Import Base Prims PrimFacts Types Codec BinEnc BinDec Amino Registry RegistryFacts ValueInd SpecWiden Sane DecSafe EncFacts RoundTrip TopFacts.
Import ListNotations.
Local Open Scope Z_scope.

Section Narrow.
Variable narrow : bool.
(** ** Related type information *)
Record olike (o o' : fopts) : Prop := {
  ol_f64 : fo_fixed64 o' = fo_fixed64 o;
  ol_f32 : fo_fixed32 o' = fo_fixed32 o;
  ol_num : fo_num o' = fo_num o;
  ol_unsafe : fo_unsafe o' = fo_unsafe o;
  ol_we : fo_write_empty o' = fo_write_empty o;
  ol_ee : fo_empty_elements o' = fo_empty_elements o
}.
Record flike (f f' : finfo) : Prop := {
  fl_index : fi_index f' = fi_index f;
  fl_type : fi_type f' = fi_type f \/
    (exists p p', fi_type f = TPrim p /\ fi_type f' = TPrim p' /\ kin_prim narrow p p' /\ fo_fixed64 (fi_opts f) = false /\ fo_fixed32 (fi_opts f) = false);
  fl_unpacked : fi_unpacked f' = fi_unpacked f;
  fl_opts : olike (fi_opts f) (fi_opts f')
}.
Record clike (ci ci' : cinfo) : Prop := {
  cl_type : ci_type ci' = ci_type ci;
  cl_fields : Forall2 flike (ci_fields ci) (ci_fields ci');
  cl_marshal : ci_marshal ci' = ci_marshal ci;
  cl_unmarshal : ci_unmarshal ci' = ci_unmarshal ci;
  cl_reg : ci_reg ci' = ci_reg ci
}.
Definition keyed {K A} (R : A -> A -> Prop) (p q : K * A) : Prop := fst q = fst p /\ R (snd p) (snd q).
Record ilike (i i' : iinfo) : Prop := {
  il_id : ii_id i' = ii_id i;
  il_prio : ii_prio i' = ii_prio i;
  il_impls : Forall2 (keyed (Forall2 clike)) (ii_impls i) (ii_impls i');
  il_always : ii_always i' = ii_always i
}.
Definition tlike (t t' : tinfo) : Prop :=
  match t, t' with
  | TIConc ci, TIConc ci' => clike ci ci'
  | TIFace ii, TIFace ii' => ilike ii ii'
  | _, _ => False
  end.
Record dlike (c c' : codec) : Prop := {
  dl_sealed : cd_sealed c' = cd_sealed c;
  dl_types : Forall2 (keyed clike) (cd_types c) (cd_types c');
  dl_ifaces : Forall2 ilike (cd_ifaces c) (cd_ifaces c');
  dl_conc : Forall2 clike (cd_concretes c) (cd_concretes c');
  dl_disfix : Forall2 (keyed clike) (cd_disfix c) (cd_disfix c');
  dl_names : Forall2 (keyed clike) (cd_names c) (cd_names c')
}.
Definition erel {A} (R : A -> A -> Prop) (x x' : eres A) : Prop :=
  match x, x' with
  | EOk a, EOk a' => R a a'
  | EErr e, EErr e' => e' = e
  | EPanic p, EPanic p' => p' = p
  | EFuel, EFuel => True
  | _, _ => False
  end.
Definition orel {A} (R : A -> A -> Prop) (x x' : option A) : Prop :=
  match x, x' with Some a, Some a' => R a a' | None, None => True | _, _ => False end.

Lemma set_num_like k o o' : olike o o' -> olike (set_num k o) (set_num k o').
Proof. intros [? ? ? ? ? ?]. split; cbn; assumption || reflexivity. Qed.
Lemma olike_refl o : olike o o.
Proof. split; reflexivity. Qed.
Lemma tlike_type i i' : tlike i i' -> ti_type i' = ti_type i.
Proof. destruct i, i'; cbn; try contradiction; intros H; [apply H|]. rewrite (il_id _ _ H). reflexivity. Qed.
Lemma Forall2_len {A} (R : A -> A -> Prop) l l' : Forall2 R l l' -> length l' = length l.
Proof. induction 1; cbn; congruence. Qed.
Lemma assoc_like {K A} (eqb : K -> K -> bool) (R : A -> A -> Prop) k l l' : Forall2 (keyed R) l l' -> orel R (assoc eqb k l) (assoc eqb k l').
Proof.
  induction 1 as [|[a b] [a' b'] l l' [H1 H2] H IH]; cbn [assoc]; [exact I|]. cbn in H1, H2. subst a'. destruct (eqb k a); [exact H2|exact IH].
Qed.
Lemma find_iface_like i l l' : Forall2 ilike l l' -> orel ilike (find_iface i l) (find_iface i l').
Proof.
  unfold find_iface. induction 1 as [|a a' l l' H1 H IH]; cbn [find]; [exact I|]. rewrite (il_id _ _ H1). destruct (Nat.eqb _ _); [exact H1|exact IH].
Qed.
Lemma ebind_like {A B} (R : A -> A -> Prop) (S : B -> B -> Prop) x x' k k' :
  erel R x x' -> (forall a a', R a a' -> erel S (k a) (k' a')) -> erel S (ebind x k) (ebind x' k').
Proof. intros H Hk. destruct x, x'; cbn in *; try contradiction; try congruence. apply Hk, H. Qed.
Lemma ebind_eq {A B} (R : A -> A -> Prop) (x x' : eres A) (k k' : A -> eres B) :
  erel R x x' -> (forall a a', R a a' -> k' a' = k a) -> ebind x' k' = ebind x k.
Proof. intros H Hk. destruct x, x'; cbn in *; try contradiction; try congruence. apply Hk, H. Qed.
Lemma erel_refl {A} (x : eres A) : erel eq x x.
Proof. destruct x; cbn; auto. Qed.

Lemma dbind_eq {A B} (r r' : dres A) (k k' : A -> nat -> option error -> dres B) :
  r' = r -> (forall a n e, k' a n e = k a n e) -> dbind r' k' = dbind r k.
Proof. intros -> Hk. destruct r; cbn; auto. Qed.
Lemma slide_eq {A} bz n (k k' : bytes -> dres A) : (forall b, k' b = k b) -> slide bz n k' = slide bz n k.
Proof. intros H. unfold slide. destruct (_ <? _)%nat; auto. Qed.
Lemma eget_eq {A B} (R : A -> A -> Prop) (x x' : eres A) (ke ke' : error -> dres B) (k k' : A -> dres B) :
  erel R x x' -> (forall e, ke' e = ke e) -> (forall a a', R a a' -> k' a' = k a) -> eget x' ke' k' = eget x ke k.
Proof. intros H He Hk. destruct x, x'; cbn in *; try contradiction; try congruence. apply Hk, H. Qed.
Lemma enter_eq {A} (v : A) b bz k k' : (forall z n, k' z n = k z n) -> enter v b bz k' = enter v b bz k.
Proof. intros H. unfold enter. destruct b; [apply H|]. apply dbind_eq; [reflexivity|]. intros. apply slide_eq. intros _. destruct e; auto. Qed.

Section Renamed.
  Variables env env' : tenv.
  Hypothesis Hr : resized narrow env env'.

  (** ** Types *)
  Lemma resolve_like t : match resolve env t with
    | RStruct fs => exists fs', resolve env' t = RStruct fs' /\ Forall2 (same_field narrow) fs fs'
    | r => resolve env' t = r end.
  Proof.
    destruct t; try reflexivity. cbn. pose proof (rs_def _ _ _ Hr id) as H. destruct (te_def env id) as [fs|u], (te_def env' id) as [fs'|u']; cbn in H; try contradiction.
    - eauto.
    - subst u'. destruct u; reflexivity.
  Qed.

  Lemma zero_like t : zero env' t = zero env t.
  Proof. induction t; cbn; try reflexivity; [now rewrite IHt|apply (rs_zero _ _ _ Hr)]. Qed.
  Lemma is_uint8_like t : is_uint8 env' t = is_uint8 env t.
  Proof. unfold is_uint8. pose proof (resolve_like t) as H. destruct (resolve env t); try (rewrite H; reflexivity). destruct H as (? & -> & _). reflexivity. Qed.
  Lemma is_struct_like t : is_struct env' t = is_struct env t.
  Proof. unfold is_struct. pose proof (resolve_like t) as H. destruct (resolve env t); try (rewrite H; reflexivity). destruct H as (? & -> & _). reflexivity. Qed.
  Lemma is_list_kind_like t : is_list_kind env' t = is_list_kind env t.
  Proof. unfold is_list_kind. pose proof (resolve_like t) as H. destruct (resolve env t); try (rewrite H; reflexivity). destruct H as (? & -> & _). reflexivity. Qed.
  Lemma isr_like t : is_struct_or_repeated_struct env' t = is_struct_or_repeated_struct env t.
  Proof. unfold is_struct_or_repeated_struct. pose proof (resolve_like t) as H. destruct (resolve env t); try (rewrite H; auto using is_struct_like). destruct H as (? & -> & _). reflexivity. Qed.
  Lemma multidim_like k : forall t, multidim_bytes k env' t = multidim_bytes k env t.
  Proof.
    induction k as [|k IH]; intros t; cbn [multidim_bytes]; [reflexivity|]. pose proof (resolve_like t) as H. destruct (resolve env t); try (rewrite H; auto).
    destruct H as (? & -> & _). reflexivity.
  Qed.
  Lemma typ3_like t o o' : olike o o' -> type_to_typ3 env' t o' = type_to_typ3 env t o.
  Proof.
    intros H. unfold type_to_typ3. rewrite (ol_f64 _ _ H), (ol_f32 _ _ H). pose proof (resolve_like t) as H1. destruct (resolve env t); try (rewrite H1; reflexivity).
    destruct H1 as (? & -> & _). reflexivity.
  Qed.
  Lemma unpacked_like t o o' : olike o o' -> unpacked_list env' t o' = unpacked_list env t o.
  Proof.
    intros H. unfold unpacked_list. pose proof (resolve_like t) as H1.
    destruct (resolve env t); try (rewrite H1; rewrite ?is_uint8_like, ?(typ3_like _ _ _ H); reflexivity).
    destruct H1 as (? & -> & _). reflexivity.
  Qed.
  Lemma unsafe_like t o o' : olike o o' -> check_unsafe env' t o' = check_unsafe env t o.
  Proof.
    intros H. unfold check_unsafe. rewrite (ol_unsafe _ _ H). pose proof (resolve_like t) as H1. destruct (resolve env t); try (rewrite H1; reflexivity).
    destruct H1 as (? & -> & _). reflexivity.
  Qed.
  Lemma dpz_like v : forall t, deref_pointers_zero env' t v = deref_pointers_zero env t v.
  Proof. induction v using value_ind'; intros ty; cbn [deref_pointers_zero]; auto; apply zero_like. Qed.
  Lemma base_like t : forall v, base_of env' t v = base_of env t v.
  Proof. induction t; intros v; cbn [base_of]; try reflexivity. rewrite zero_like. apply IHt. Qed.
  Lemma default_like t : default_value env' t = default_value env t.
  Proof. unfold default_value. rewrite zero_like. reflexivity. Qed.
  Lemma prefer_like t v : prefer_nil env' t v = prefer_nil env t v.
  Proof. unfold prefer_nil. rewrite zero_like. reflexivity. Qed.
  Lemma to_repr_like t v : to_repr env' t v = to_repr env t v.
  Proof. destruct t; try reflexivity. cbn. rewrite (rs_marshal _ _ _ Hr). reflexivity. Qed.
  Lemma from_repr_like t v w : from_repr env' t v w = from_repr env t v w.
  Proof. destruct t; try reflexivity. cbn. rewrite (rs_unmarshal _ _ _ Hr). reflexivity. Qed.
  Lemma mrepr_like t : marshal_repr env' t = marshal_repr env t.
  Proof. destruct t; try reflexivity. cbn. rewrite (rs_marshal _ _ _ Hr). reflexivity. Qed.
  Lemma urepr_like t : unmarshal_repr env' t = unmarshal_repr env t.
  Proof. destruct t; try reflexivity. cbn. rewrite (rs_unmarshal _ _ _ Hr). reflexivity. Qed.
  Lemma pts_like v t : is_pointer_to_struct env' v t = is_pointer_to_struct env v t.
  Proof. unfold is_pointer_to_struct. rewrite !is_struct_like, is_list_kind_like, isr_like. reflexivity. Qed.
  Lemma disfix_like n : name_to_disfix env' n = name_to_disfix env n.
  Proof. unfold name_to_disfix. rewrite (rs_hash _ _ _ Hr). reflexivity. Qed.

  (** ** Type information *)
  Lemma pfo_like f f' : same_field narrow f f' -> orel olike (parse_field_options f) (parse_field_options f').
  Proof.
    intros [_ _ Hb Ha Hh _]. unfold parse_field_options. rewrite Hb, Ha.
    assert (beqb (sf_json f') (bs "-") = beqb (sf_json f) (bs "-")) as ->.
    { rewrite Hh. reflexivity. }
    destruct (beqb (sf_json f) (bs "-")); [exact I|]. split; reflexivity.
  Qed.
  Lemma kin_int p p' : kin_prim narrow p p' -> match p, p' with
    | (PInt | PInt64 | PInt32), (PInt | PInt64 | PInt32) | (PUint | PUint64 | PUint32), (PUint | PUint64 | PUint32) => narrow = false -> p <> PInt32 /\ p' <> PInt32 /\ p <> PUint32 /\ p' <> PUint32
    | _, _ => False end.
  Proof.
    clear. unfold kin_prim. intros [[[->|[->|[-> ->]]] [->|[->|[? ->]]]]|[[->|[->|[-> ->]]] [->|[->|[? ->]]]]]; intros; subst; repeat split; discriminate.
  Qed.
  Lemma kin_unpacked p p' o o' : kin_prim narrow p p' -> unpacked_list env' (TPrim p') o' = unpacked_list env (TPrim p) o.
  Proof. reflexivity. Qed.
  Lemma kin_unsafe p p' o o' : kin_prim narrow p p' -> check_unsafe env' (TPrim p') o' = check_unsafe env (TPrim p) o.
  Proof. intros K. apply kin_int in K. unfold check_unsafe. destruct p, p'; try contradiction; cbn; destruct (fo_unsafe o), (fo_unsafe o'); reflexivity. Qed.
  Lemma kin_typ3 p p' o o' : kin_prim narrow p p' -> olike o o' -> fo_fixed64 o = false -> fo_fixed32 o = false ->
    type_to_typ3 env (TPrim p) o = EOk Typ3Varint /\ type_to_typ3 env' (TPrim p') o' = EOk Typ3Varint.
  Proof.
    intros K Ho F6 F3. apply kin_int in K. unfold type_to_typ3. cbn [resolve]. rewrite (ol_f64 _ _ Ho), (ol_f32 _ _ Ho), F6, F3.
    destruct p, p'; try contradiction; split; reflexivity.
  Qed.
  Lemma parse_like fs fs' : Forall2 (same_field narrow) fs fs' -> forall i n, erel (Forall2 flike) (parse_fields env fs i n) (parse_fields env' fs' i n).
  Proof.
    induction 1 as [|f f' fs fs' H1 H IH]; intros i n; cbn [parse_fields]; [constructor|]. rewrite (sa_exported _ _ _ H1).
    destruct (negb (sf_exported f)); [apply IH|]. pose proof (pfo_like _ _ H1) as Ho. destruct (sa_type _ _ _ H1) as [Ht|(p & p' & T & T' & K & B6 & B3)].
    - rewrite Ht. destruct (parse_field_options f) as [o|], (parse_field_options f') as [o'|]; cbn in Ho; try contradiction; [|apply IH].
      rewrite (unpacked_like _ _ _ Ho). eapply ebind_like; [apply erel_refl|]. intros up up' <-. cbv zeta.
      rewrite (unsafe_like _ _ _ (set_num_like _ _ _ Ho)). eapply ebind_like; [apply erel_refl|]. intros _ _ _.
      eapply ebind_like; [apply IH|]. intros r r' Hrr. cbn. constructor; [|exact Hrr]. split; try reflexivity; [left; reflexivity|]. cbn. apply set_num_like, Ho.
    - assert (F : forall o, parse_field_options f = Some o -> fo_fixed64 o = false /\ fo_fixed32 o = false).
      { intros o X. unfold parse_field_options in X. destruct (beqb (sf_json f) _); [discriminate X|].
        assert (B : forall a b : bytes, a <> b -> beqb a b = false) by (intros a b N; destruct (beqb a b) eqn:Y; [apply beqb_eq in Y; contradiction|reflexivity]).
        cbv zeta in X. rewrite (B _ _ B6), (B _ _ B3) in X. inversion X. cbn. auto. }
      rewrite T, T'. destruct (parse_field_options f) as [o|], (parse_field_options f') as [o'|]; cbn in Ho; try contradiction; [|apply IH].
      destruct (F o eq_refl) as [F6 F3].
      rewrite (kin_unpacked p p' o o' K). eapply ebind_like; [apply erel_refl|]. intros up up' <-. cbv zeta.
      rewrite (kin_unsafe p p' (set_num (u32 (Z.of_nat n + 1)) o) _ K). eapply ebind_like; [apply erel_refl|]. intros _ _ _.
      eapply ebind_like; [apply IH|]. intros r r' Hrr. cbn. constructor; [|exact Hrr]. split; try reflexivity.
      + right. exists p, p'. cbn. destruct o; cbn in F6, F3; auto.
      + cbn. apply set_num_like, Ho.
  Qed.
  Lemma psi_like t : erel (Forall2 flike) (parse_struct_info env t) (parse_struct_info env' t).
  Proof.
    unfold parse_struct_info. pose proof (resolve_like t) as H. destruct (resolve env t); try (rewrite H; constructor).
    destruct H as (? & -> & H). apply parse_like, H.
  Qed.
  Lemma nti_like t : erel clike (new_type_info env t) (new_type_info env' t).
  Proof.
    assert (erel clike
      (ebind (parse_struct_info env t) (fun fs => ebind (marshal_repr env t) (fun m => ebind (unmarshal_repr env t) (fun u =>
        EOk {| ci_type := t; ci_fields := fs; ci_marshal := m; ci_unmarshal := u; ci_reg := None |}))))
      (ebind (parse_struct_info env' t) (fun fs => ebind (marshal_repr env' t) (fun m => ebind (unmarshal_repr env' t) (fun u =>
        EOk {| ci_type := t; ci_fields := fs; ci_marshal := m; ci_unmarshal := u; ci_reg := None |}))))) as H.
    { eapply ebind_like; [apply psi_like|]. intros fs fs' Hf. rewrite mrepr_like, urepr_like. eapply ebind_like; [apply erel_refl|]. intros m m' <-.
      eapply ebind_like; [apply erel_refl|]. intros u u' <-. cbn. split; auto. }
    unfold new_type_info. destruct t; try exact H; reflexivity.
  Qed.
  Lemma gti_like c c' t : dlike c c' -> erel tlike (get_type_info env c t) (get_type_info env' c' t).
  Proof.
    intros D. unfold get_type_info. cbv zeta.
    assert (erel tlike
      (match assoc gotype_eqb (deref_type t) (cd_types c) with Some ci => EOk (TIConc ci) | None => ebind (new_type_info env (deref_type t)) (fun ci => EOk (TIConc ci)) end)
      (match assoc gotype_eqb (deref_type t) (cd_types c') with Some ci => EOk (TIConc ci) | None => ebind (new_type_info env' (deref_type t)) (fun ci => EOk (TIConc ci)) end)) as H.
    { pose proof (assoc_like gotype_eqb clike (deref_type t) _ _ (dl_types _ _ D)) as Ha.
      destruct (assoc gotype_eqb (deref_type t) (cd_types c)), (assoc gotype_eqb (deref_type t) (cd_types c')); cbn in Ha; try contradiction; [exact Ha|].
      eapply ebind_like; [apply nti_like|]. intros a a' Hx. exact Hx. }
    destruct (deref_type t); try exact H. pose proof (find_iface_like i _ _ (dl_ifaces _ _ D)) as Hf.
    destruct (find_iface i (cd_ifaces c)), (find_iface i (cd_ifaces c')); cbn in Hf; try contradiction; cbn; auto.
  Qed.

  (** ** Registration *)
  Definition rlike (r r' : rres) : Prop := dlike (fst r) (fst r') /\ snd r' = snd r.
  Lemma use_like c c' t : dlike c c' -> dlike (fst (get_type_info_st env c t)) (fst (get_type_info_st env' c' t)).
  Proof.
    intros D. unfold get_type_info_st. cbv zeta.
    assert (dlike
      (fst (match assoc gotype_eqb (deref_type t) (cd_types c) with Some ci => (c, EOk (TIConc ci)) | None =>
              match new_type_info env (deref_type t) with
              | EOk ci => (add_type (deref_type t) ci c, EOk (TIConc ci)) | EErr e => (c, EErr e) | EPanic p => (c, EPanic p) | EFuel => (c, EFuel) end end))
      (fst (match assoc gotype_eqb (deref_type t) (cd_types c') with Some ci => (c', EOk (TIConc ci)) | None =>
              match new_type_info env' (deref_type t) with
              | EOk ci => (add_type (deref_type t) ci c', EOk (TIConc ci)) | EErr e => (c', EErr e) | EPanic p => (c', EPanic p) | EFuel => (c', EFuel) end end))) as H.
    { pose proof (assoc_like gotype_eqb clike (deref_type t) _ _ (dl_types _ _ D)) as Ha.
      destruct (assoc gotype_eqb (deref_type t) (cd_types c)), (assoc gotype_eqb (deref_type t) (cd_types c')); cbn in Ha; try contradiction; [exact D|].
      pose proof (nti_like (deref_type t)) as Hn. destruct (new_type_info env (deref_type t)), (new_type_info env' (deref_type t)); cbn in Hn; try contradiction; try exact D.
      destruct D. split; cbn; auto. constructor; [split; auto|assumption]. }
    destruct (deref_type t); try exact H. exact D.
  Qed.
  Lemma prefix_like ci ci' : clike ci ci' -> ci_prefix ci' = ci_prefix ci.
  Proof. intros H. unfold ci_prefix. rewrite (cl_reg _ _ H). reflexivity. Qed.
  Lemma cdisfix_like ci ci' : clike ci ci' -> ci_disfix ci' = ci_disfix ci.
  Proof. intros H. unfold ci_disfix. rewrite (cl_reg _ _ H). reflexivity. Qed.
  Lemma add_impl_like pb ci ci' m m' : clike ci ci' -> Forall2 (keyed (Forall2 clike)) m m' ->
    Forall2 (keyed (Forall2 clike)) (add_impl pb ci m) (add_impl pb ci' m').
  Proof.
    intros Hc. induction 1 as [|[k l] [k' l'] m m' [H1 H2] H IH]; cbn [add_impl].
    - constructor; [|constructor]. split; [reflexivity|]. constructor; [exact Hc|constructor].
    - cbn in H1, H2. subst k'. destruct (beqb pb k); constructor; try assumption; split; cbn; auto. apply Forall2_app; [assumption|]. constructor; [exact Hc|constructor].
  Qed.
  Lemma with_impls_like m m' ii ii' : ilike ii ii' -> Forall2 (keyed (Forall2 clike)) m m' -> ilike (with_impls m ii) (with_impls m' ii').
  Proof. intros [? ? ? ?] H. split; cbn; assumption. Qed.
  Lemma implements_like ci ci' ii ii' : clike ci ci' -> ilike ii ii' -> implements env' ci' ii' = implements env ci ii.
  Proof. intros H1 H2. unfold implements. rewrite (cl_type _ _ H1), (il_id _ _ H2). apply (rs_impl _ _ _ Hr). Qed.
  Lemma collect_like cs cs' : Forall2 clike cs cs' -> forall ii ii', ilike ii ii' -> ilike (collect_implementers env cs ii) (collect_implementers env' cs' ii').
  Proof.
    unfold collect_implementers. induction 1 as [|ci ci' cs cs' H1 H IH]; intros ii ii' Hi; cbn [fold_left]; [exact Hi|]. apply IH.
    rewrite (implements_like _ _ _ _ H1 Hi), (prefix_like _ _ H1). destruct (implements env ci ii); [|exact Hi].
    apply with_impls_like; [exact Hi|]. apply add_impl_like; [exact H1|]. apply (il_impls _ _ Hi).
  Qed.
  Lemma conflicts_like ii ii' : ilike ii ii' -> check_conflicts ii' = check_conflicts ii.
  Proof.
    intros [_ Hp Hi _]. unfold check_conflicts. rewrite Hp. induction Hi as [|[k l] [k' l'] m m' [H1 H2] H IH]; cbn [forallb]; [reflexivity|].
    rewrite IH. f_equal. cbn in *. clear -H2. f_equal; [rewrite (Forall2_len _ _ _ H2); reflexivity|].
    induction H2 as [|a a' l l' H1 H IH]; cbn [forallb]; [reflexivity|]. rewrite IH, (cdisfix_like _ _ H1). reflexivity.
  Qed.
  Lemma emap_ext {A B} (f g : A -> eres B) l : (forall a, f a = g a) -> emap f l = emap g l.
  Proof. intros H. induction l; cbn; [reflexivity|]. rewrite H, IHl. reflexivity. Qed.
  Lemma new_iface_like i o : erel ilike (new_iface_info env i o) (new_iface_info env' i o).
  Proof.
    destruct o as [o|]; cbn [new_iface_info]; [|split; cbn; auto].
    rewrite (emap_ext (fun n => ebind (name_to_disfix env' n) (fun dp => EOk (to_disfix (fst dp) (snd dp)))) (fun n => ebind (name_to_disfix env n) (fun dp => EOk (to_disfix (fst dp) (snd dp)))) (io_prio o)) by (intros; now rewrite disfix_like).
    eapply ebind_like; [apply erel_refl|]. intros a a' <-. split; cbn; auto.
  Qed.
  Lemma set_ifaces_like l l' c c' : dlike c c' -> Forall2 ilike l l' -> dlike (set_ifaces l c) (set_ifaces l' c').
  Proof. intros [? ? ? ? ? ?] H. split; cbn; assumption. Qed.
  Lemma reg_iface_like c c' i o : dlike c c' -> rlike (register_interface env c i o) (register_interface env' c' i o).
  Proof.
    intros D. unfold register_interface. rewrite (dl_sealed _ _ D). destruct (cd_sealed c); [split; [exact D|reflexivity]|].
    pose proof (new_iface_like i o) as Hn. destruct (new_iface_info env i o) as [a| | |], (new_iface_info env' i o) as [a'| | |]; cbn in Hn; try contradiction; try (subst; split; [exact D|reflexivity]).
    cbv zeta. pose proof (collect_like _ _ (dl_conc _ _ D) _ _ Hn) as Hc. rewrite (conflicts_like _ _ Hc). destruct (negb _); [split; [exact D|reflexivity]|].
    pose proof (find_iface_like i _ _ (dl_ifaces _ _ D)) as Hf.
    destruct (find_iface i (cd_ifaces c)), (find_iface i (cd_ifaces c')); cbn in Hf; try contradiction; (split; [|reflexivity]); [exact D|].
    cbn [fst]. apply set_ifaces_like; [exact D|]. apply Forall2_app; [apply (dl_ifaces _ _ D)|]. constructor; [exact Hc|constructor].
  Qed.
  Lemma nri_like t p n : erel clike (new_registered_info env t p n) (new_registered_info env' t p n).
  Proof.
    unfold new_registered_info. eapply ebind_like; [apply nti_like|]. intros a a' Ha. rewrite disfix_like. eapply ebind_like; [apply erel_refl|].
    intros d d' <-. destruct Ha. split; cbn; auto.
  Qed.
  Lemma restore_like pb m m' : Forall2 (keyed (Forall2 clike)) m m' -> Forall2 (keyed (Forall2 clike)) (restore_impl pb m) (restore_impl pb m').
  Proof.
    intros H. unfold restore_impl. pose proof (assoc_like beqb (Forall2 clike) pb _ _ H) as Ha. destruct (assoc beqb pb m), (assoc beqb pb m'); cbn in Ha; try contradiction; [exact H|].
    apply Forall2_app; [exact H|]. constructor; [split; cbn; auto|constructor].
  Qed.
  Lemma add_check_like ci ci' l l' : clike ci ci' -> Forall2 ilike l l' ->
    Forall2 ilike (fst (add_check_conflicts env ci l)) (fst (add_check_conflicts env' ci' l')) /\
    snd (add_check_conflicts env' ci' l') = snd (add_check_conflicts env ci l).
  Proof.
    intros Hc. induction 1 as [|ii ii' l l' H1 H IH]; cbn [add_check_conflicts]; [split; [constructor|reflexivity]|].
    rewrite (implements_like _ _ _ _ Hc H1), (prefix_like _ _ Hc).
    destruct (add_check_conflicts env ci l) as [r ok], (add_check_conflicts env' ci' l') as [r' ok']. cbn [fst snd] in IH. destruct IH as [IH1 ->].
    destruct (negb (implements env ci ii)); [split; [constructor; assumption|reflexivity]|]. cbv zeta.
    pose proof (with_impls_like _ _ _ _ H1 (add_impl_like (ci_prefix ci) _ _ _ _ Hc (il_impls _ _ H1))) as Hw. rewrite (conflicts_like _ _ Hw).
    destruct (check_conflicts _); (split; [|reflexivity]); constructor; try assumption.
    apply with_impls_like; [exact H1|]. apply restore_like, (il_impls _ _ H1).
  Qed.
  Lemma set_reg_like c c' ci ci' n : dlike c c' -> clike ci ci' -> rlike (set_registered c ci n) (set_registered c' ci' n).
  Proof.
    intros D Hc. unfold set_registered. rewrite (cl_type _ _ Hc), (cdisfix_like _ _ Hc).
    pose proof (assoc_like gotype_eqb clike (ci_type ci) _ _ (dl_types _ _ D)) as Ha.
    destruct (assoc gotype_eqb (ci_type ci) (cd_types c)), (assoc gotype_eqb (ci_type ci) (cd_types c')); cbn in Ha; try contradiction; [split; [exact D|reflexivity]|]. cbv zeta.
    assert (Forall2 (keyed clike) ((ci_type ci, ci) :: cd_types c) ((ci_type ci, ci') :: cd_types c')) as Ht
      by (constructor; [split; auto|apply (dl_types _ _ D)]).
    assert (Forall2 clike (cd_concretes c ++ [ci]) (cd_concretes c' ++ [ci'])) as Hl
      by (apply Forall2_app; [apply (dl_conc _ _ D)|constructor; [exact Hc|constructor]]).
    clear Ha. pose proof (assoc_like beqb clike (ci_disfix ci) _ _ (dl_disfix _ _ D)) as Ha.
    destruct (assoc beqb (ci_disfix ci) (cd_disfix c)), (assoc beqb (ci_disfix ci) (cd_disfix c')); cbn in Ha; try contradiction;
      [split; [destruct D; split; cbn; assumption|reflexivity]|].
    clear Ha. pose proof (assoc_like beqb clike n _ _ (dl_names _ _ D)) as Ha.
    destruct (assoc beqb n (cd_names c)), (assoc beqb n (cd_names c')); cbn in Ha; try contradiction; (split; [|reflexivity]); destruct D; split; cbn; try assumption;
      (constructor; [split; auto|assumption]).
  Qed.
  Lemma reg_conc_like c c' t n : dlike c c' -> rlike (register_concrete env c t n) (register_concrete env' c' t n).
  Proof.
    intros D. unfold register_concrete. rewrite (dl_sealed _ _ D). destruct (cd_sealed c); [split; [exact D|reflexivity]|]. cbv zeta.
    assert (forall rt p, rlike
      (match new_registered_info env rt p n with
       | EOk ci => let '(ifs, ok) := add_check_conflicts env ci (cd_ifaces c) in
          if negb ok then (set_ifaces ifs c, Some "conflicts with other(s)"%string) else set_registered (set_ifaces ifs c) ci n
       | EErr e => (c, Some e) | EPanic p => (c, Some p) | EFuel => (c, Some "fuel"%string) end)
      (match new_registered_info env' rt p n with
       | EOk ci => let '(ifs, ok) := add_check_conflicts env' ci (cd_ifaces c') in
          if negb ok then (set_ifaces ifs c', Some "conflicts with other(s)"%string) else set_registered (set_ifaces ifs c') ci n
       | EErr e => (c', Some e) | EPanic p => (c', Some p) | EFuel => (c', Some "fuel"%string) end)) as H.
    { intros rt p. pose proof (nri_like rt p n) as Hn. destruct (new_registered_info env rt p n) as [ci| | |], (new_registered_info env' rt p n) as [ci'| | |];
        cbn in Hn; try contradiction; try (subst; split; [exact D|reflexivity]).
      pose proof (add_check_like _ _ _ _ Hn (dl_ifaces _ _ D)) as [H1 H2].
      destruct (add_check_conflicts env ci (cd_ifaces c)) as [r ok], (add_check_conflicts env' ci' (cd_ifaces c')) as [r' ok']. cbn [fst snd] in H1, H2. subst ok'.
      pose proof (set_ifaces_like _ _ _ _ D H1) as D'. destruct (negb ok); [split; [exact D'|reflexivity]|]. apply set_reg_like; assumption. }
    destruct t; try apply H; try (split; [exact D|reflexivity]). destruct t; try apply H; split; try exact D; reflexivity.
  Qed.
  Lemma step_like c c' x : dlike c c' -> rlike (step env c x) (step env' c' x).
  Proof.
    intros D. destruct x; cbn [step]; [apply reg_iface_like, D|apply reg_conc_like, D| |]; (split; [|reflexivity]); cbn [fst].
    - destruct D. split; cbn; auto.
    - apply use_like, D.
  Qed.
  Lemma run_like h : forall c c', dlike c c' -> dlike (run env c h) (run env' c' h).
  Proof. induction h as [|x h IH]; intros c c' D; cbn [run]; [exact D|]. apply IH. apply (step_like _ _ x D). Qed.
  Lemma clean_like h : forall c c', dlike c c' -> clean env' c' h = clean env c h.
  Proof.
    induction h as [|x h IH]; intros c c' D; cbn [clean]; [reflexivity|]. destruct (step_like _ _ x D) as [D1 D2].
    destruct (step env c x) as [d p], (step env' c' x) as [d' p']. cbn [fst snd] in D1, D2. subst p'. destruct p; [reflexivity|]. apply IH, D1.
  Qed.
  Lemma new_like : dlike new_codec new_codec.
  Proof. split; cbn; auto. Qed.

  (** ** Encoding *)
  Section Codec.
  Variables c c' : codec.
  Hypothesis D : dlike c c'.
  Hypothesis Hs : sane_codec env c.
  Hypothesis Hs' : sane_codec env' c'.
  (** What is known of the integer types. *)
  Definition plain_prim (p : prim) (i : tinfo) : Prop := exists ci, i = TIConc ci /\ ci_type ci = TPrim p /\ ci_marshal ci = None /\ ci_unmarshal ci = None.
  Lemma gti_prim env0 c0 p : sane_codec env0 c0 -> exists i, get_type_info env0 c0 (TPrim p) = EOk i /\ plain_prim p i.
  Proof.
    clear. intros S. assert (X : exists ci, get_type_info env0 c0 (TPrim p) = EOk (TIConc ci)).
    { unfold get_type_info. cbn [deref_type]. destruct (assoc gotype_eqb (TPrim p) (cd_types c0)); eauto. eexists. reflexivity. }
    destruct X as [ci X]. exists (TIConc ci). split; [exact X|]. exists ci. pose proof (gti_minfo _ _ _ _ S X) as [T Ok]. cbn [deref_type] in T.
    pose proof (minfo_method _ _ _ T Ok) as M. pose proof (minfo_unmethod _ _ _ T Ok) as U. splits; try assumption; try reflexivity.
    - destruct (ci_marshal ci); [|reflexivity]. destruct M as (id & f & E & _). discriminate E.
    - destruct (ci_unmarshal ci); [|reflexivity]. destruct U as (id & f & E & _). discriminate E.
  Qed.
  Lemma prim_like p v o o' : olike o o' -> encode_prim p v o' = encode_prim p v o.
  Proof. intros H. unfold encode_prim. rewrite (ol_f64 _ _ H), (ol_f32 _ _ H), (ol_unsafe _ _ H). reflexivity. Qed.

  Lemma kin_enc p p' v o o' : kin_prim narrow p p' -> olike o o' -> fo_fixed64 o = false -> fo_fixed32 o = false -> encode_prim p' v o' = encode_prim p v o.
  Proof.
    intros K Ho F6 F3. apply kin_int in K. unfold encode_prim. rewrite (ol_f64 _ _ Ho), (ol_f32 _ _ Ho), F6, F3.
    destruct p, p'; try contradiction; destruct v; reflexivity.
  Qed.
  Section Enc.
  Variables rec rec' : tinfo -> value -> fopts -> bool -> eres bytes.
  Hypothesis Hrec : forall i i' v o o' b, tlike i i' -> olike o o' -> rec' i' v o' b = rec i v o b.
  Hypothesis Hkin : forall p p' i i' v o o' b, kin_prim narrow p p' -> plain_prim p i -> plain_prim p' i' -> olike o o' -> fo_fixed64 o = false -> fo_fixed32 o = false ->
    rec' i' v o' b = rec i v o b.
  Lemma enc_interface_like ii ii' v o o' b : ilike ii ii' -> olike o o' -> encode_interface env' c' rec' ii' v o' b = encode_interface env c rec ii v o b.
  Proof.
    intros Hi Ho. unfold encode_interface. destruct v; try reflexivity. destruct o0 as [[ct cv]|]; [|reflexivity].
    destruct (deref_pointers cv) as [crv []]; [reflexivity|].
    assert (forall info info', tlike info info' ->
      match info' with TIConc ci => match ci_reg ci with None => EErr "cannot encode unregistered concrete type"%string | Some r =>
          let need := ii_always ii' || (1 <? length match assoc beqb (ri_prefix r) (ii_impls ii') with Some l => l | None => [] end)%nat in
          ebind (rec' info' crv o' true) (fun body => EOk (finish b ((if need then 0 :: ri_disamb r else []) ++ ri_prefix r ++ body))) end
        | TIFace _ => EErr "cannot encode unregistered concrete type"%string end =
      match info with TIConc ci => match ci_reg ci with None => EErr "cannot encode unregistered concrete type"%string | Some r =>
          let need := ii_always ii || (1 <? length match assoc beqb (ri_prefix r) (ii_impls ii) with Some l => l | None => [] end)%nat in
          ebind (rec info crv o true) (fun body => EOk (finish b ((if need then 0 :: ri_disamb r else []) ++ ri_prefix r ++ body))) end
        | TIFace _ => EErr "cannot encode unregistered concrete type"%string end) as H.
    { intros info info' Ht. rewrite (Hrec _ _ crv _ _ true Ht Ho). destruct info as [ci|], info' as [ci'|]; cbn in Ht; try contradiction; [|reflexivity].
      rewrite (cl_reg _ _ Ht). destruct (ci_reg ci) as [r|]; [|reflexivity]. rewrite (il_always _ _ Hi).
      pose proof (assoc_like beqb (Forall2 clike) (ri_prefix r) _ _ (il_impls _ _ Hi)) as Ha.
      destruct (assoc beqb (ri_prefix r) (ii_impls ii)), (assoc beqb (ri_prefix r) (ii_impls ii')); cbn in Ha; try contradiction; [|reflexivity].
      rewrite (Forall2_len _ _ _ Ha). reflexivity. }
    destruct crv; try reflexivity; (eapply ebind_eq; [apply (gti_like _ _ _ D)|exact H]).
  Qed.
  Lemma enc_packed_like t i i' o o' l : tlike i i' -> olike o o' -> encode_packed env' rec' t i' l o' = encode_packed env rec t i l o.
  Proof. intros Hi Ho. induction l as [|v l IH]; cbn [encode_packed]; [reflexivity|]. rewrite dpz_like, (Hrec _ _ _ _ _ _ Hi Ho), IH. reflexivity. Qed.
  Lemma enc_unpacked_like t i i' o o' l : tlike i i' -> olike o o' -> encode_unpacked env' rec' t i' l o' = encode_unpacked env rec t i l o.
  Proof.
    intros Hi Ho. induction l as [|v l IH]; cbn [encode_unpacked]; [reflexivity|]. rewrite IH, (ol_num _ _ Ho), (ol_ee _ _ Ho), (tlike_type _ _ Hi), is_struct_like.
    eapply ebind_eq; [apply erel_refl|]. intros k k' <-. destruct (is_default_value v) as [erv isdef]. rewrite (Hrec _ _ _ _ _ _ Hi (set_num_like 1 _ _ Ho)). reflexivity.
  Qed.
  Lemma enc_list_like i i' v o o' b : tlike i i' -> olike o o' -> encode_list env' c' rec' i' v o' b = encode_list env c rec i v o b.
  Proof.
    intros Hi Ho. unfold encode_list. rewrite (tlike_type _ _ Hi). pose proof (resolve_like (ti_type i)) as H.
    destruct (resolve env (ti_type i)); try (rewrite H; reflexivity); [rewrite H..|destruct H as (? & -> & _); reflexivity];
      (rewrite is_uint8_like; destruct (is_uint8 env e); [reflexivity|]; eapply ebind_eq; [apply (gti_like _ _ _ D)|]; intros a a' Ha;
       rewrite (tlike_type _ _ Ha), (typ3_like _ _ _ Ho); eapply ebind_eq; [apply erel_refl|]; intros z z' <-; destruct (list_elems v); [|reflexivity];
       rewrite (enc_packed_like _ _ _ _ _ _ Ha Ho), (enc_unpacked_like _ _ _ _ _ _ Ha Ho); reflexivity).
  Qed.
  Lemma write_field_like n i i' v o o' we b : tlike i i' -> olike o o' -> write_field env' rec' n i' o' v we b = write_field env rec n i o v we b.
  Proof. intros Hi Ho. unfold write_field. rewrite (tlike_type _ _ Hi), (typ3_like _ _ _ Ho), (Hrec _ _ _ _ _ _ Hi Ho). reflexivity. Qed.
  Lemma enc_field_like f f' v : flike f f' -> encode_field env' c' rec' f' v = encode_field env c rec f v.
  Proof.
    intros [Hx [Ht|(p & p' & T & T' & K & F6 & F3)] Hu Ho]; unfold encode_field; rewrite Hu, (ol_we _ _ Ho), (ol_num _ _ Ho).
    - rewrite Ht. eapply ebind_eq; [apply (gti_like _ _ _ D)|]. intros a a' Ha.
      destruct (is_default_value v) as [d isd]. rewrite (enc_list_like _ _ _ _ _ _ Ha Ho), (write_field_like _ _ _ _ _ _ _ _ Ha Ho). reflexivity.
    - destruct (gti_prim env c p Hs) as (a & Ga & Pa). destruct (gti_prim env' c' p' Hs') as (a' & Ga' & Pa'). rewrite T, T', Ga, Ga'. cbn [ebind].
      destruct (is_default_value v) as [d isd]. pose proof Pa as (ci & Ea & Ta & _). pose proof Pa' as (ci' & Ea' & Ta' & _).
      unfold encode_list, write_field. rewrite (Hkin p p' a a' _ _ _ _ K Pa Pa' Ho F6 F3). subst a a'. cbn [ti_type]. rewrite Ta, Ta'. cbn [resolve].
      destruct (kin_typ3 p p' _ _ K Ho F6 F3) as [-> ->]. reflexivity.
  Qed.
  Lemma enc_fields_like fs fs' l : Forall2 flike fs fs' -> encode_fields env' c' rec' fs' l = encode_fields env c rec fs l.
  Proof. induction 1 as [|f f' fs fs' H1 H IH]; cbn [encode_fields]; [reflexivity|]. rewrite IH, (fl_index _ _ H1), (enc_field_like _ _ _ H1). reflexivity. Qed.
  Lemma enc_struct_like ci ci' v b : clike ci ci' -> encode_struct env' c' rec' ci' v b = encode_struct env c rec ci v b.
  Proof.
    intros Hc. unfold encode_struct. rewrite (cl_type _ _ Hc). pose proof (resolve_like (ci_type ci)) as H.
    destruct (resolve env (ci_type ci)); try (rewrite H; reflexivity). destruct H as (? & -> & _). destruct v; try reflexivity.
    rewrite (enc_fields_like _ _ _ (cl_fields _ _ Hc)). reflexivity.
  Qed.
  Lemma enc_switch_like k i i' v o o' b : tlike i i' -> olike o o' -> encode_switch env' c' rec' k i' v o' b = encode_switch env c rec k i v o b.
  Proof.
    intros Hi Ho. unfold encode_switch. rewrite (tlike_type _ _ Hi). pose proof (resolve_like (ti_type i)) as H.
    destruct (resolve env (ti_type i)); try (rewrite H); try reflexivity; try (rewrite is_uint8_like, is_list_kind_like, multidim_like, (enc_list_like _ _ _ _ _ _ Hi Ho); reflexivity).
    - apply prim_like, Ho.
    - destruct i as [ci|], i' as [ci'|]; cbn in Hi; try contradiction; [apply enc_struct_like, Hi|reflexivity].
    - destruct i as [ci|ii], i' as [ci'|ii']; cbn in Hi; try contradiction; [reflexivity|apply enc_interface_like; assumption].
    - destruct H as (? & -> & _). destruct i as [ci|], i' as [ci'|]; cbn in Hi; try contradiction; [apply enc_struct_like, Hi|reflexivity].
  Qed.
  End Enc.
  Lemma encode_kin k p p' i i' v o o' b : kin_prim narrow p p' -> plain_prim p i -> plain_prim p' i' -> olike o o' -> fo_fixed64 o = false -> fo_fixed32 o = false ->
    encode_reflect k env' c' i' v o' b = encode_reflect k env c i v o b.
  Proof.
    intros K (ci & -> & T & M & _) (ci' & -> & T' & M' & _) Ho F6 F3. destruct k as [|k]; [reflexivity|]. cbn [encode_reflect].
    destruct ci as [t fs m u r], ci' as [t' fs' m' u' r']; cbn in T, M, T', M'. subst. unfold encode_switch. cbn [ti_type ci_type resolve].
    rewrite (kin_enc p p' v o o' K Ho F6 F3). reflexivity.
  Qed.
  Lemma encode_like k : forall i i' v o o' b, tlike i i' -> olike o o' -> encode_reflect k env' c' i' v o' b = encode_reflect k env c i v o b.
  Proof.
    induction k as [|k IH]; intros i i' v o o' b Hi Ho; [reflexivity|]. cbn [encode_reflect].
    assert (match i' with
            | TIConc {| ci_type := t; ci_marshal := Some r |} => ebind (to_repr env' t v) (fun rv => ebind (get_type_info env' c' r) (fun rinfo => encode_reflect k env' c' rinfo rv o' b))
            | _ => encode_switch env' c' (encode_reflect k env' c') (S k) i' v o' b end =
            match i with
            | TIConc {| ci_type := t; ci_marshal := Some r |} => ebind (to_repr env t v) (fun rv => ebind (get_type_info env c r) (fun rinfo => encode_reflect k env c rinfo rv o b))
            | _ => encode_switch env c (encode_reflect k env c) (S k) i v o b end) as H.
    { destruct i as [ci|ii], i' as [ci'|ii']; cbn in Hi; try contradiction.
      - pose proof (enc_switch_like _ _ IH (encode_kin k) (S k) (TIConc ci) (TIConc ci') v o o' b Hi Ho) as Hsw. destruct Hi as [Ht _ Hm _ _].
        destruct ci as [t fs m u r], ci' as [t' fs' m' u' r']; cbn in Ht, Hm. subst t' m'. destruct m as [m|]; [|exact Hsw].
        rewrite to_repr_like. eapply ebind_eq; [apply erel_refl|]. intros a a' <-. eapply ebind_eq; [apply (gti_like _ _ _ D)|]. intros x x' Hx. apply IH; assumption.
      - apply enc_switch_like; [exact IH|exact (encode_kin k)|assumption..]. }
    destruct v; try exact H; reflexivity.
  Qed.
  Lemma marshal_bare_like k t v : marshal_bare k env' c' t v = marshal_bare k env c t v.
  Proof.
    unfold marshal_bare. destruct (deref_pointers v) as [rv []]; [reflexivity|]. eapply ebind_eq; [apply (gti_like _ _ _ D)|]. intros i i' Hi.
    rewrite (tlike_type _ _ Hi), isr_like, (encode_like _ _ _ _ _ _ _ Hi (olike_refl _)), (typ3_like _ _ _ (olike_refl _)).
    assert (forall z, write_field env' (encode_reflect k env' c') 1 i' no_opts rv false z = write_field env (encode_reflect k env c) 1 i no_opts rv false z) as Hw
      by (intros z; apply write_field_like; [apply encode_like|exact Hi|apply olike_refl]).
    eapply ebind_eq; [instantiate (1 := eq)|].
    - destruct (negb _); [|apply erel_refl]. eapply ebind_like; [apply erel_refl|]. intros z z' <-. rewrite Hw. apply erel_refl.
    - intros a a' <-. destruct i as [ci|], i' as [ci'|]; cbn in Hi; try contradiction; [|reflexivity]. destruct Hi as [_ _ _ _ Hg]. destruct ci, ci'; cbn in Hg. subst. reflexivity.
  Qed.

  (** ** Decoding, without 32-bit types *)
  Section Wide.
  Hypothesis Hn : narrow = false.
  Lemma kin_dec p p' v bz o o' : kin_prim narrow p p' -> olike o o' -> fo_fixed64 o = false -> fo_fixed32 o = false -> decode_prim p' v bz o' = decode_prim p v bz o.
  Proof.
    intros K Ho F6 F3. apply kin_int in K. unfold decode_prim. rewrite (ol_f64 _ _ Ho), (ol_f32 _ _ Ho), F6, F3.
    assert (Z : forall u, (2 ^ 63 - 1 <? i64 u) || (i64 u <? - 2 ^ 63) = false).
    { intros u. pose proof (iwrap_range 64 u ltac:(lia)) as R. change (64 - 1) with 63 in R. fold (i64 u) in R. lia. }
    assert (E : set_scalar v bz (decode_uvarint bz) (fun u => if (2 ^ 63 - 1 <? i64 u) || (i64 u <? - 2 ^ 63) then DRet v 0 (Some "encoded integer value overflows int(32)"%string) else DRet (VInt (i64 u)) 0 None) =
                set_scalar v bz (decode_uvarint bz) (fun u => DRet (VInt (i64 u)) 0 None)).
    { unfold set_scalar. apply dbind_eq; [reflexivity|]. intros a n e. rewrite Z. reflexivity. }
    destruct p, p'; try contradiction; destruct (K Hn) as (K1 & K2 & K3 & K4); try congruence; rewrite ?E; reflexivity.
  Qed.
  Lemma dprim_like p v bz o o' : olike o o' -> decode_prim p v bz o' = decode_prim p v bz o.
  Proof. intros H. unfold decode_prim. rewrite (ol_f64 _ _ H), (ol_f32 _ _ H), (ol_unsafe _ _ H). reflexivity. Qed.

  Section Dec.
  Variables rec rec' : bytes -> tinfo -> gotype -> value -> fopts -> bool -> dres value.
  Hypothesis Hrec : forall bz i i' t v o o' b, tlike i i' -> olike o o' -> rec' bz i' t v o' b = rec bz i t v o b.
  Hypothesis Hkin : forall p p' bz i i' v o o' b, kin_prim narrow p p' -> plain_prim p i -> plain_prim p' i' -> olike o o' -> fo_fixed64 o = false -> fo_fixed32 o = false ->
    rec' bz i' (TPrim p') v o' b = rec bz i (TPrim p) v o b.
  Lemma set_iface_like ii ii' ci ci' v k : ilike ii ii' -> clike ci ci' -> set_iface env' ii' ci' v k = set_iface env ii ci v k.
  Proof.
    intros Hi Hc. unfold set_iface. rewrite (cl_reg _ _ Hc), (cl_type _ _ Hc), (il_id _ _ Hi). cbv zeta.
    destruct (match ci_reg ci with Some r => ri_ptr r | None => false end); rewrite (rs_impl _ _ _ Hr); reflexivity.
  Qed.
  Lemma wants_key_like ci ci' bz o o' : clike ci ci' -> olike o o' -> wants_key env' ci' bz o' = wants_key env ci bz o.
  Proof.
    intros Hc Ho. unfold wants_key. rewrite (cl_type _ _ Hc), isr_like, (ol_num _ _ Ho). f_equal. f_equal. pose proof (resolve_like (ci_type ci)) as H.
    destruct (resolve env (ci_type ci)); try (rewrite H; reflexivity). destruct H as (? & -> & _). reflexivity.
  Qed.
  Lemma tifp_like ii ii' pb : ilike ii ii' -> erel clike (type_info_from_prefix ii pb) (type_info_from_prefix ii' pb).
  Proof.
    intros Hi. unfold type_info_from_prefix. pose proof (assoc_like beqb (Forall2 clike) pb _ _ (il_impls _ _ Hi)) as Ha.
    destruct (assoc beqb pb (ii_impls ii)) as [l|], (assoc beqb pb (ii_impls ii')) as [l'|]; cbn in Ha; try contradiction; [|reflexivity].
    destruct Ha as [|? ? ? ? H1 H2]; [reflexivity|]. destruct H2; [exact H1|reflexivity].
  Qed.
  Lemma tifd_like d : erel clike (type_info_from_disfix c d) (type_info_from_disfix c' d).
  Proof.
    unfold type_info_from_disfix. pose proof (assoc_like beqb clike d _ _ (dl_disfix _ _ D)) as Ha.
    destruct (assoc beqb d (cd_disfix c)), (assoc beqb d (cd_disfix c')); cbn in Ha; try contradiction; [exact Ha|reflexivity].
  Qed.
  Lemma dec_interface_like bz ii ii' v o o' b : ilike ii ii' -> olike o o' -> decode_interface env' c' rec' bz ii' v o' b = decode_interface env c rec bz ii v o b.
  Proof.
    intros Hi Ho. unfold decode_interface. destruct v; try reflexivity. destruct o0; [reflexivity|]. apply enter_eq. intros z n0.
    apply dbind_eq; [reflexivity|]. intros dp n1 e. apply slide_eq. intros z1. cbv zeta. destruct e; [reflexivity|].
    eapply (eget_eq clike); [destruct (fst dp); [apply tifd_like|apply tifp_like, Hi]|reflexivity|]. intros ci ci' Hc.
    assert (forall z2 n2,
      dbind (rec' z2 (TIConc ci') (ci_type ci') (zero env' (ci_type ci')) o' true) (fun v n3 e => slide z2 n3 (fun bz3 =>
        match e with Some e => set_iface env' ii' ci' v (fun r => DRet r (n2 + n3)%nat (Some e)) | None =>
          match bz3 with _ :: _ => DRet (VIface None) (n2 + n3)%nat (Some "bytes left over after reading interface contents"%string)
          | [] => set_iface env' ii' ci' v (fun r => DRet r (n2 + n3)%nat None) end end)) =
      dbind (rec z2 (TIConc ci) (ci_type ci) (zero env (ci_type ci)) o true) (fun v n3 e => slide z2 n3 (fun bz3 =>
        match e with Some e => set_iface env ii ci v (fun r => DRet r (n2 + n3)%nat (Some e)) | None =>
          match bz3 with _ :: _ => DRet (VIface None) (n2 + n3)%nat (Some "bytes left over after reading interface contents"%string)
          | [] => set_iface env ii ci v (fun r => DRet r (n2 + n3)%nat None) end end))) as Hgo.
    { intros z2 n2. rewrite (cl_type _ _ Hc), zero_like. apply dbind_eq; [apply Hrec; assumption|]. intros v n3 e. apply slide_eq. intros z3.
      destruct e; [apply set_iface_like; assumption|]. destruct z3; [apply set_iface_like; assumption|reflexivity]. }
    rewrite (wants_key_like _ _ _ _ _ Hc Ho). destruct (wants_key env ci z1 o); [|apply Hgo]. apply dbind_eq; [reflexivity|]. intros kt nk e. destruct e; [reflexivity|].
    destruct (negb (fst kt =? 1)); [reflexivity|]. assert (type_to_typ3 env' (ci_type ci') no_opts = type_to_typ3 env (ci_type ci) no_opts) as ->
      by (rewrite (cl_type _ _ Hc); apply typ3_like, olike_refl).
    eapply (eget_eq eq); [apply erel_refl|reflexivity|]. intros tw tw' <-. destruct (negb (snd kt =? tw)); [reflexivity|]. apply slide_eq. intros z2. apply Hgo.
  Qed.
  Lemma skip_like i i' t o o' bz : tlike i i' -> olike o o' -> skip_empty env' i' t o' bz = skip_empty env i t o bz.
  Proof. intros Hi Ho. unfold skip_empty. rewrite (tlike_type _ _ Hi), is_struct_like, (ol_ee _ _ Ho). reflexivity. Qed.
  Lemma dap_like i i' t o o' todo : tlike i i' -> olike o o' -> forall bz n done,
    decode_array_packed env' rec' bz n i' t o' done todo = decode_array_packed env rec bz n i t o done todo.
  Proof.
    intros Hi Ho. induction todo as [|w todo IH]; intros bz n done; cbn [decode_array_packed]; [reflexivity|]. apply dbind_eq; [apply Hrec; assumption|].
    intros w' m e. apply slide_eq. intros b. destruct e; [reflexivity|]. rewrite prefer_like. apply IH.
  Qed.
  Lemma dau_like i i' t o o' todo : tlike i i' -> olike o o' -> forall bz n done,
    decode_array_unpacked env' rec' bz n i' t o' done todo = decode_array_unpacked env rec bz n i t o done todo.
  Proof.
    intros Hi Ho. induction todo as [|w todo IH]; intros bz n done; cbn [decode_array_unpacked]; [reflexivity|]. apply dbind_eq; [reflexivity|]. intros kt m e.
    rewrite (ol_num _ _ Ho). destruct (negb (fst kt =? fo_num o)); [reflexivity|]. destruct (negb _); [reflexivity|]. apply slide_eq. intros b. cbv zeta. destruct e; [reflexivity|].
    rewrite (skip_like _ _ _ _ _ _ Hi Ho), default_like. destruct (skip_empty env i t o b); [apply IH|]. apply dbind_eq; [apply Hrec; [assumption|apply set_num_like, Ho]|].
    intros w' m' e. apply slide_eq. intros b'. destruct e; [reflexivity|]. apply IH.
  Qed.
  Lemma dsp_like i i' t o o' k : tlike i i' -> olike o o' -> forall bz n done,
    decode_slice_packed env' rec' k bz n i' t o' done = decode_slice_packed env rec k bz n i t o done.
  Proof.
    intros Hi Ho. induction k as [|k IH]; intros bz n done; cbn [decode_slice_packed]; [reflexivity|]. destruct bz; [reflexivity|]. rewrite zero_like. apply dbind_eq; [apply Hrec; assumption|].
    intros w' m e. apply slide_eq. intros b. destruct e; [reflexivity|]. rewrite prefer_like. apply IH.
  Qed.
  Lemma dsu_like i i' t o o' k : tlike i i' -> olike o o' -> forall bz n done,
    decode_slice_unpacked env' rec' k bz n i' t o' done = decode_slice_unpacked env rec k bz n i t o done.
  Proof.
    intros Hi Ho. induction k as [|k IH]; intros bz n done; cbn [decode_slice_unpacked]; [reflexivity|]. destruct bz; [reflexivity|]. apply dbind_eq; [reflexivity|]. intros kt m e.
    rewrite (ol_num _ _ Ho). destruct (fst kt <? fo_num o); [reflexivity|]. destruct (fo_num o <? fst kt); [reflexivity|]. destruct (negb _); [reflexivity|].
    apply slide_eq. intros b. cbv zeta. destruct e; [reflexivity|].
    rewrite (skip_like _ _ _ _ _ _ Hi Ho), default_like, zero_like. destruct (skip_empty env i t o b); [apply IH|]. apply dbind_eq; [apply Hrec; [assumption|apply set_num_like, Ho]|].
    intros w' m' e. apply slide_eq. intros b'. destruct e; [reflexivity|]. apply IH.
  Qed.
  Lemma dec_array_like bz t v o o' b : olike o o' -> decode_array env' c' rec' bz t v o' b = decode_array env c rec bz t v o b.
  Proof.
    intros Ho. unfold decode_array. rewrite is_uint8_like. destruct (is_uint8 env t); [reflexivity|]. destruct v; try reflexivity.
    eapply (eget_eq tlike); [apply (gti_like _ _ _ D)|reflexivity|]. intros i i' Hi. apply enter_eq. intros z n. rewrite (tlike_type _ _ Hi), (typ3_like _ _ _ Ho), (ol_num _ _ Ho).
    eapply (eget_eq eq); [apply erel_refl|reflexivity|]. intros w w' <-. rewrite (dap_like _ _ _ _ _ _ Hi Ho), (dau_like _ _ _ _ _ _ Hi Ho). reflexivity.
  Qed.
  Lemma dec_slice_like bz t v o o' b : olike o o' -> decode_slice env' c' rec' bz t v o' b = decode_slice env c rec bz t v o b.
  Proof.
    intros Ho. unfold decode_slice. rewrite is_uint8_like. destruct (is_uint8 env t); [reflexivity|].
    eapply (eget_eq tlike); [apply (gti_like _ _ _ D)|reflexivity|]. intros i i' Hi. apply enter_eq. intros z n. rewrite (tlike_type _ _ Hi), (typ3_like _ _ _ Ho).
    eapply (eget_eq eq); [apply erel_refl|reflexivity|]. intros w w' <-. rewrite (dsp_like _ _ _ _ _ _ Hi Ho), (dsu_like _ _ _ _ _ _ Hi Ho). reflexivity.
  Qed.
  Lemma dec_field_like f f' l bz last n : flike f f' -> decode_field env' c' rec' f' l bz last n = decode_field env c rec f l bz last n.
  Proof.
    intros [Hx [Ht|(p & p' & T & T' & K & F6 & F3)] Hu Ho]; unfold decode_field; rewrite Hx, Hu, (ol_num _ _ Ho); cbv zeta.
    - rewrite Ht, default_like.
      eapply (eget_eq tlike); [apply (gti_like _ _ _ D)|reflexivity|]. intros i i' Hi. destruct bz as [|z bz]; [reflexivity|]. rewrite (Hrec _ _ _ _ _ _ _ _ Hi Ho).
      destruct (fi_unpacked f); [reflexivity|]. apply dbind_eq; [reflexivity|]. intros [fnum typ] m e. destruct (fo_num (fi_opts f) <? fnum); [reflexivity|]. destruct (fnum <=? last); [reflexivity|].
      apply slide_eq. intros b. destruct e; [reflexivity|]. destruct (negb (fo_num (fi_opts f) =? fnum)); [reflexivity|]. rewrite (tlike_type _ _ Hi), (typ3_like _ _ _ Ho), (Hrec _ _ _ _ _ _ _ _ Hi Ho). reflexivity.
    - destruct (gti_prim env c p Hs) as (i & Ga & Pa). destruct (gti_prim env' c' p' Hs') as (i' & Ga' & Pa'). rewrite T, T', Ga, Ga'. cbn [eget].
      assert (Z : default_value env' (TPrim p') = default_value env (TPrim p)) by (pose proof (kin_int _ _ K) as K'; destruct p, p'; try contradiction; reflexivity).
      rewrite Z. destruct bz as [|z bz]; [reflexivity|]. rewrite (Hkin p p' _ i i' _ _ _ _ K Pa Pa' Ho F6 F3).
      destruct (fi_unpacked f); [reflexivity|]. apply dbind_eq; [reflexivity|]. intros [fnum typ] m e. destruct (fo_num (fi_opts f) <? fnum); [reflexivity|]. destruct (fnum <=? last); [reflexivity|].
      apply slide_eq. intros b. destruct e; [reflexivity|]. destruct (negb (fo_num (fi_opts f) =? fnum)); [reflexivity|].
      rewrite (Hkin p p' _ i i' _ _ _ _ K Pa Pa' Ho F6 F3). destruct Pa as (ci & -> & Ta & _), Pa' as (ci' & -> & Ta' & _). cbn [ti_type]. rewrite Ta, Ta'.
      destruct (kin_typ3 p p' _ _ K Ho F6 F3) as [-> ->]. reflexivity.
  Qed.
  Lemma dec_fields_like fs fs' : Forall2 flike fs fs' -> forall l bz last n, decode_fields env' c' rec' fs' l bz last n = decode_fields env c rec fs l bz last n.
  Proof.
    induction 1 as [|f f' fs fs' H1 H IH]; intros l bz last n; cbn [decode_fields]; [reflexivity|]. apply dbind_eq; [apply dec_field_like, H1|].
    intros [[l1 b1] last1] n1 e. destruct e; [reflexivity|]. apply IH.
  Qed.
  Lemma dec_struct_like bz ci ci' v b : clike ci ci' -> decode_struct env' c' rec' bz ci' v b = decode_struct env c rec bz ci v b.
  Proof.
    intros Hc. unfold decode_struct. apply enter_eq. intros z n. rewrite (cl_type _ _ Hc). pose proof (resolve_like (ci_type ci)) as H.
    destruct (resolve env (ci_type ci)); try (rewrite H; reflexivity). destruct H as (? & -> & _). destruct v; try reflexivity.
    rewrite (dec_fields_like _ _ (cl_fields _ _ Hc)). reflexivity.
  Qed.
  Lemma dec_switch_like bz i i' v o o' b : tlike i i' -> olike o o' -> decode_switch env' c' rec' bz i' v o' b = decode_switch env c rec bz i v o b.
  Proof.
    intros Hi Ho. unfold decode_switch. rewrite (tlike_type _ _ Hi). pose proof (resolve_like (ti_type i)) as H.
    destruct (resolve env (ti_type i)); try (rewrite H); try reflexivity.
    - apply dprim_like, Ho.
    - destruct i as [ci|], i' as [ci'|]; cbn in Hi; try contradiction; [apply dec_struct_like, Hi|reflexivity].
    - rewrite is_uint8_like, (dec_array_like _ _ _ _ _ _ Ho). reflexivity.
    - rewrite is_uint8_like, (dec_slice_like _ _ _ _ _ _ Ho). reflexivity.
    - destruct i as [ci|ii], i' as [ci'|ii']; cbn in Hi; try contradiction; [reflexivity|apply dec_interface_like; assumption].
    - destruct H as (? & -> & _). destruct i as [ci|], i' as [ci'|]; cbn in Hi; try contradiction; [apply dec_struct_like, Hi|reflexivity].
  Qed.
  End Dec.
  Lemma decode_kin k p p' bz i i' v o o' b : kin_prim narrow p p' -> plain_prim p i -> plain_prim p' i' -> olike o o' -> fo_fixed64 o = false -> fo_fixed32 o = false ->
    decode_reflect k env' c' bz i' (TPrim p') v o' b = decode_reflect k env c bz i (TPrim p) v o b.
  Proof.
    intros K (ci & -> & T & _ & M) (ci' & -> & T' & _ & M') Ho F6 F3. destruct k as [|k]; [reflexivity|]. cbn [decode_reflect].
    destruct ci as [t fs m u r], ci' as [t' fs' m' u' r']; cbn in T, M, T', M'. subst. unfold decode_switch. cbn [ti_type ci_type resolve].
    change (base_of env' (TPrim p') v) with v. change (base_of env (TPrim p) v) with v.
    rewrite (kin_dec p p' v bz o o' K Ho F6 F3). reflexivity.
  Qed.
  Lemma decode_like k : forall bz i i' t v o o' b, tlike i i' -> olike o o' -> decode_reflect k env' c' bz i' t v o' b = decode_reflect k env c bz i t v o b.
  Proof.
    induction k as [|k IH]; intros bz i i' t v o o' b Hi Ho; [reflexivity|]. cbn [decode_reflect]. rewrite base_like.
    destruct i as [ci|ii], i' as [ci'|ii']; cbn in Hi; try contradiction.
    - pose proof (dec_switch_like _ _ IH (decode_kin k) bz (TIConc ci) (TIConc ci') (base_of env t v) o o' b Hi Ho) as Hsw. destruct Hi as [Ht _ _ Hm _].
      destruct ci as [ct fs m u r], ci' as [ct' fs' m' u' r']; cbn in Ht, Hm. subst ct' u'. f_equal. destruct u as [u|]; [|exact Hsw]. cbv zeta.
      eapply (eget_eq tlike); [apply (gti_like _ _ _ D)|reflexivity|]. intros x x' Hx. rewrite zero_like. apply dbind_eq; [apply IH; assumption|].
      intros rv n e. apply slide_eq. intros _. destruct e; [reflexivity|]. rewrite from_repr_like. reflexivity.
    - pose proof (dec_switch_like _ _ IH (decode_kin k) bz (TIFace ii) (TIFace ii') (base_of env t v) o o' b Hi Ho) as Hsw. cbv zeta. rewrite Hsw. reflexivity.
  Qed.
  Lemma unmarshal_bare_like k bz t v : unmarshal_bare k env' c' bz t v = unmarshal_bare k env c bz t v.
  Proof.
    unfold unmarshal_bare. cbv zeta. pose proof (gti_like _ _ t D) as Hg. destruct (get_type_info env c t) as [i| | |], (get_type_info env' c' t) as [i'| | |]; cbn in Hg; try contradiction; try congruence.
    assert (match resolve env' (ti_type i') with RMap _ _ | RFunc => false | _ => true end = match resolve env (ti_type i) with RMap _ _ | RFunc => false | _ => true end) as Hk.
    { rewrite (tlike_type _ _ Hg). pose proof (resolve_like (ti_type i)) as H. destruct (resolve env (ti_type i)); try (rewrite H; reflexivity). destruct H as (? & -> & _). reflexivity. }
    rewrite Hk. rewrite (tlike_type _ _ Hg), isr_like, pts_like, (typ3_like _ _ _ (olike_refl _)).
    pose proof (fun bz b => decode_like k bz i i' t v _ _ b Hg (olike_refl (set_num 1 no_opts))) as Hd.
    destruct i as [ci|ii], i' as [ci'|ii']; cbn in Hg; try contradiction.
    - destruct Hg as [_ _ _ _ Hreg]. destruct ci as [ct fs m u r], ci' as [ct' fs' m' u' r']; cbn in Hreg. subst r'. destruct r as [r|].
      + destruct (length bz <? 4)%nat; [reflexivity|]. destruct (negb _); [reflexivity|]. destruct (if is_struct_or_repeated_struct _ _ then _ else _); try reflexivity.
        destruct (_ && _); [|rewrite Hd; reflexivity]. destruct (decode_field_key (skipn 4 bz)) as [[fn tp] nk e| |]; try reflexivity. destruct e; [reflexivity|]. destruct (negb _); [reflexivity|].
        destruct (type_to_typ3 _ _ _); try reflexivity. destruct (negb _); [reflexivity|]. destruct (_ <? _)%nat; [reflexivity|]. rewrite Hd. reflexivity.
      + destruct (if is_struct_or_repeated_struct _ _ then _ else _); try reflexivity.
        destruct (_ && _); [|rewrite Hd; reflexivity]. destruct (decode_field_key bz) as [[fn tp] nk e| |]; try reflexivity. destruct e; [reflexivity|]. destruct (negb _); [reflexivity|].
        destruct (type_to_typ3 _ _ _); try reflexivity. destruct (negb _); [reflexivity|]. destruct (_ <? _)%nat; [reflexivity|]. rewrite Hd. reflexivity.
    - destruct (if is_struct_or_repeated_struct _ _ then _ else _); try reflexivity.
      destruct (_ && _); [|rewrite Hd; reflexivity]. destruct (decode_field_key bz) as [[fn tp] nk e| |]; try reflexivity. destruct e; [reflexivity|]. destruct (negb _); [reflexivity|].
      destruct (type_to_typ3 _ _ _); try reflexivity. destruct (negb _); [reflexivity|]. destruct (_ <? _)%nat; [reflexivity|]. rewrite Hd. reflexivity.
  Qed.
  End Wide.
  End Codec.
End Renamed.
End Narrow.
