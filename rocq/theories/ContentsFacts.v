(** Nothing that is not default is missing from the wire format. *)
From Coq Require Import ZArith String List Bool Lia.
From Coq Require Import ZifyBool ZifyNat.
From Verif Require Import Base Prims SpecWire PrimFacts PrimProps Types Codec BinEnc BinDec Amino FuelFacts DecFacts
  ValueInd Typing Registry SpecRegistry RegistryFacts Sane DecSafe SpecNorm EncFacts RoundTrip TopFacts SpecProto ProtoFacts SpecContents.
Import ListNotations.
Local Open Scope Z_scope.

Lemma present_before qs b s : present qs b -> present qs (s ++ b).
Proof. intros H. destruct H; [constructor|]. rewrite app_assoc. constructor; assumption. Qed.
Lemma present_app qs b : present qs b -> forall qs' b', present qs' b' -> present (qs ++ qs') (b ++ b').
Proof.
  intros H. induction H; intros qs' b' H'; cbn [app]; [apply present_before; exact H'|].
  rewrite <- !app_assoc. constructor; auto.
Qed.
Lemma present_after qs b s : present qs b -> present qs (b ++ s).
Proof. intros H. rewrite <- (app_nil_r qs). apply present_app; [exact H|constructor]. Qed.
Lemma payload_nonnil q b : payload_bytes q b -> b <> [].
Proof.
  intros H. destruct H as [u b H|b H _|b H _|l b H]; try (intros ->; discriminate H).
  - intros ->. destruct H as (ds & last & H & _). destruct ds; discriminate H.
  - intros X. apply app_eq_nil in X. destruct X as [-> _]. destruct H as (ds & last & H & _). destruct ds; discriminate H.
Qed.
Lemma present_none qs : present qs [] -> qs = [].
Proof.
  intros H. inversion H as [|q qs' s b rest Hp Hr E1 E]; [reflexivity|]. exfalso.
  apply app_eq_nil in E. destruct E as [_ E]. apply app_eq_nil in E. destruct E as [E _]. exact (payload_nonnil _ _ Hp E).
Qed.

Section Contents.
  Variable env : tenv.
  Variable c : codec.

  Lemma prim_wire_num p a o v : prim_wire p (set_num a o) v = prim_wire p o v.
  Proof. destruct p; reflexivity. Qed.
  Lemma contents_num k : forall t a o v, contents k env t (set_num a o) v = contents k env t o v.
  Proof.
    induction k as [|k IH]; intros t a o v; [reflexivity|]. cbn [contents].
    assert (FM : forall e l, flat_map (part_contents (contents k env) e (set_num a o)) l = flat_map (part_contents (contents k env) e o) l).
    { intros e l. apply flat_map_ext. intros x. unfold part_contents. destruct (defaultv x); [reflexivity|]. destruct (under x); [apply IH|reflexivity]. }
    assert (P : match resolve env t, v with
        | RPrim p, _ => match prim_wire p (set_num a o) v with Some q => if zero_payload q then [] else [q] | None => [] end
        | RTime, VTime s ns => map snd (time_entries s ns)
        | RArray _ e, _ | RSlice e, _ =>
            if is_uint8 env e then match elements v with [] => [] | l => [Plen (uints l)] end
            else flat_map (part_contents (contents k env) e (set_num a o)) (elements v)
        | RStruct fs, VStruct l => field_contents env (contents k env) 1 fs l
        | RIface _, VIface (Some (ct, cv)) => match under cv with Some w => contents k env (deref_type ct) (set_num a o) w | None => [] end
        | _, _ => []
        end = match resolve env t, v with
        | RPrim p, _ => match prim_wire p o v with Some q => if zero_payload q then [] else [q] | None => [] end
        | RTime, VTime s ns => map snd (time_entries s ns)
        | RArray _ e, _ | RSlice e, _ =>
            if is_uint8 env e then match elements v with [] => [] | l => [Plen (uints l)] end
            else flat_map (part_contents (contents k env) e o) (elements v)
        | RStruct fs, VStruct l => field_contents env (contents k env) 1 fs l
        | RIface _, VIface (Some (ct, cv)) => match under cv with Some w => contents k env (deref_type ct) o w | None => [] end
        | _, _ => []
        end).
    { destruct (resolve env t); try reflexivity.
      - rewrite FM. reflexivity.
      - rewrite FM. reflexivity.
      - destruct v as [| | | | | | | | | |[[ct cv]|]| | | |]; try reflexivity. destruct (under cv); [apply IH|reflexivity]. }
    destruct t; try exact P. destruct (te_marshal env id) as [[|r f]|]; try exact P. destruct (f v); try reflexivity. apply IH.
  Qed.

  (** What [contents] does on types without a method. *)
  Lemma contents_plain k t o v : plain env t -> contents (S k) env t o v =
    match resolve env t, v with
        | RPrim p, _ => match prim_wire p o v with Some q => if zero_payload q then [] else [q] | None => [] end
        | RTime, VTime s ns => map snd (time_entries s ns)
        | RArray _ e, _ | RSlice e, _ =>
            if is_uint8 env e then match elements v with [] => [] | l => [Plen (uints l)] end
            else flat_map (part_contents (contents k env) e o) (elements v)
        | RStruct fs, VStruct l => field_contents env (contents k env) 1 fs l
        | RIface _, VIface (Some (ct, cv)) => match under cv with Some w => contents k env (deref_type ct) o w | None => [] end
        | _, _ => []
        end.
  Proof. intros H. cbn [contents]. destruct t; try reflexivity. rewrite (H id eq_refl). reflexivity. Qed.
  Lemma contents_list k t e o v l : plain env t -> list_of env t e -> items v l ->
    contents (S k) env t o v =
      if is_uint8 env e then match l with [] => [] | _ => [Plen (uints l)] end
      else flat_map (part_contents (contents k env) e o) l.
  Proof.
    intros Hp Hl Hi. rewrite contents_plain by exact Hp. assert (E : elements v = l) by (destruct Hi; reflexivity). rewrite <- E.
    destruct Hl as [->|[n ->]]; destruct (elements v); reflexivity.
  Qed.
  Lemma uints_map b : uints (map VUint b) = b.
  Proof. unfold uints. rewrite map_map. apply map_id. Qed.

  Lemma one_entries k t e o v l : entries env t = true -> list_of env t e -> items v l ->
    one_field env (contents k env) t o v = flat_map (part_contents (contents k env) e o) l.
  Proof.
    intros He Hl Hi. unfold one_field. assert (E : elements v = l) by (destruct Hi; reflexivity). rewrite <- E, He.
    destruct Hl as [->|[n ->]]; reflexivity.
  Qed.
  Lemma one_single k t o v : entries env t = false -> one_field env (contents k env) t o v = part_contents (contents k env) t o v.
  Proof. intros He. unfold one_field. rewrite He. destruct (resolve env t); reflexivity. Qed.
  (** A list field that is default has no elements. *)
  Lemma one_default k t o v : defaultv v = true -> one_field env (contents k env) t o v = [].
  Proof.
    intros Hd. unfold one_field, part_contents. rewrite Hd.
    assert (E : elements v = []) by (destruct v as [| | | | | | |[[|]|]| | | | | | |]; try reflexivity; discriminate Hd).
    rewrite E. destruct (resolve env t); try reflexivity; destruct (entries env t); reflexivity.
  Qed.

  (** The payload has the contents; for messages and lists even what follows the length. *)
  Definition has (m : bool) (q : payload) (cs : list payload) : Prop :=
    if m then exists b, q = Plen b /\ present cs b
    else (zero_payload q = true -> cs = []) /\ forall pb, payload_bytes q pb -> present cs pb.
  Lemma has_any m q cs : has m q cs -> (zero_payload q = true -> cs = []) /\ forall pb, payload_bytes q pb -> present cs pb.
  Proof.
    destruct m; cbn [has]; [|auto]. intros (b & -> & H). split.
    - cbn [zero_payload]. destruct b; [|discriminate]. intros _. apply present_none. exact H.
    - intros pb Hp. inversion Hp; subst. apply present_before. exact H.
  Qed.

  Lemma has_pay m q cs pb : has m q cs -> payload_bytes q pb -> present cs pb.
  Proof. intros H. apply (proj2 (has_any _ _ _ H)). Qed.

  Lemma present_entries es b : message es b -> present (map snd es) b.
  Proof. intros H. induction H; cbn [map snd]; constructor; assumption. Qed.
  Lemma message_app_inv es es' b : message (es ++ es') b -> exists x y, message es x /\ message es' y /\ b = x ++ y.
  Proof.
    revert b. induction es as [|[num q] es IH]; cbn [app]; intros b H; [exists [], b; repeat split; [constructor|exact H]|].
    inversion H; subst. destruct (IH _ ltac:(eassumption)) as (x & y & H1 & H2 & ->). exists (key ++ b0 ++ x), y.
    split; [constructor; assumption|]. split; [exact H2|]. rewrite <- !app_assoc. reflexivity.
  Qed.

  Theorem wire_contents :
    (forall t o v m q, wire env c t o v m q -> forall k, has m q (contents k env t o v)) /\
    (forall e o l b, packed env c e o l b -> forall k, present (flat_map (part_contents (contents k env) e o) l) b) /\
    (forall num e o l es, elems env c num e o l es -> forall k b, message es b -> present (flat_map (part_contents (contents k env) e o) l) b) /\
    (forall num fs l es, fields env c num fs l es -> forall k b, message es b -> present (field_contents env (contents k env) num fs l) b).
  Proof.
    assert (O : forall m q t v o, wire env c t o v m q -> has m q []).
    { intros m q t v o H. destruct m; cbn [has]; [|split; [reflexivity|constructor]].
      assert (exists b, q = Plen b) as [b ->]; [|exists b; split; [reflexivity|constructor]].
      remember true as m eqn:Em. revert Em. induction H; intros Em; try discriminate Em; eauto. }
    apply wire_mutind.
    - intros t o v p q Hp Hr Hq [|k]; [eapply O; eapply w_prim; eassumption|]. rewrite contents_plain, Hr, Hq by exact Hp. cbn [has].
      destruct (zero_payload q) eqn:Ez; (split; [intros X; first [reflexivity|discriminate X]|]); [constructor|].
      intros pb H. rewrite <- (app_nil_r pb). apply (present_cons q [] []); [exact H|constructor].
    - intros t o s ns b Hp Hr Hb k. cbn [has]. exists b. split; [reflexivity|]. destruct k as [|k]; [constructor|].
      rewrite contents_plain, Hr by exact Hp. apply present_entries. exact Hb.
    - intros t e o v b Hp Hl Hu Hi [|k]; [apply (O _ _ t v o); eapply w_bytes; eassumption|]. rewrite (contents_list k t e o v _ Hp Hl Hi), Hu. cbn [has].
      destruct b as [|x b]; [split; [reflexivity|constructor]|]. cbn [map]. change (VUint x :: map VUint b) with (map VUint (x :: b)). rewrite uints_map.
      split; [discriminate|]. intros pb H. rewrite <- (app_nil_r pb). apply (present_cons _ [] []); [exact H|constructor].
    - intros t e o v l b Hp Hl Hu Hd Hi _ IH k. cbn [has]. exists b. split; [reflexivity|]. destruct k as [|k]; [constructor|].
      rewrite (contents_list k t e o v _ Hp Hl Hi), Hu. apply IH.
    - intros t e o v l es b Hp Hl Hu Hd Hi _ IH Hb k. cbn [has]. exists b. split; [reflexivity|]. destruct k as [|k]; [constructor|].
      rewrite (contents_list k t e o v _ Hp Hl Hi), Hu. apply IH. exact Hb.
    - intros t fs o l es b Hp Hr _ IH Hb k. cbn [has]. exists b. split; [reflexivity|]. destruct k as [|k]; [constructor|].
      rewrite contents_plain, Hr by exact Hp. apply IH. exact Hb.
    - intros i o k. cbn [has]. assert (E : contents k env (TIface i) o (VIface None) = []) by (destruct k; reflexivity). rewrite E.
      split; [reflexivity|constructor].
    - intros i o ct cv w m q tag body Hu Ha _ IH Hb k. cbn [has]. eexists. split; [reflexivity|]. destruct k as [|k]; [constructor|].
      cbn [contents resolve]. rewrite Hu. apply present_before. specialize (IH k). destruct m; cbn [has] in IH.
      + destruct IH as (b & E & H). rewrite Hb in E. injection E as E. subst b. exact H.
      + apply (proj2 IH). exact Hb.
    - intros id r f o v w m q He Hf Hw IH [|k]; [eapply O; eapply w_method; eassumption|]. cbn [contents]. rewrite He, Hf. apply IH.
    - intros. constructor.
    - intros e o v l m q b bs Hw IH Hq _ IHl k. cbn [flat_map]. apply present_app; [|apply IHl].
      unfold part_contents. destruct (defaultv v); [constructor|]. destruct (under v) as [w|]; [|constructor].
      exact (proj2 (has_any _ _ _ (IH k)) _ Hq).
    - intros. constructor.
    - intros num e o v l es Hd _ IH k b Hb. inversion Hb; subst. cbn [flat_map]. unfold part_contents at 1. rewrite Hd. cbn [app].
      apply present_before. apply present_before. apply IH. assumption.
    - intros num e o v w l m q es Hd Hu _ IHw _ _ IH k b Hb. inversion Hb; subst. cbn [flat_map]. unfold part_contents at 1. rewrite Hd, Hu.
      apply present_before. apply present_app; [|apply IH; assumption]. specialize (IHw k). rewrite contents_num in IHw.
      eapply has_pay; eassumption.
    - intros. constructor.
    - intros num f fs v l es Ho _ IH k b Hb. cbn [field_contents]. rewrite Ho. apply IH. exact Hb.
    - intros num f fs v l o es Ho Hd Hw _ IH k b Hb. cbn [field_contents]. rewrite Ho. rewrite (one_default _ _ _ _ Hd). cbn [app]. apply IH. exact Hb.
    - intros num f fs v l o e vs es1 es Ho He Hd Hl Hi _ IH1 _ IH k b Hb. cbn [field_contents]. rewrite Ho.
      apply message_app_inv in Hb. destruct Hb as (x & y & Hx & Hy & ->). apply present_app; [|apply IH; exact Hy].
      rewrite (one_entries _ _ _ _ _ _ He Hl Hi). apply IH1. exact Hx.
    - intros num f fs v w l o m q es Ho He Hd Hw Hp Hu _ IHw Hz _ IH k b Hb. cbn [field_contents]. rewrite Ho, (one_single _ _ _ _ He). unfold part_contents at 1. rewrite Hu.
      rewrite (proj1 (has_any _ _ _ (IHw k)) Hz). destruct (defaultv v); apply IH; exact Hb.
    - intros num f fs v w l o m q es Ho He Hd Hu _ IHw Hz _ IH k b Hb. cbn [field_contents]. rewrite Ho, (one_single _ _ _ _ He). unfold part_contents at 1. rewrite Hu.
      inversion Hb; subst. apply present_before. apply present_app; [|apply IH; assumption].
      destruct (defaultv v); [constructor|]. apply (has_pay m q); [apply IHw|assumption].
  Qed.
End Contents.

Section Top.
  Variable env : tenv.
  Hypothesis We : wf_env env.
  Variable c : codec.
  Hypothesis Hc : wf_codec env c.
  Hypothesis Hs : sane_codec env c.
  Hypothesis Hm : marshal_typed env.
  Variable mem : gotype -> bool.
  Hypothesis Hreg : regular env c mem.

  Lemma marshal_contents k t v w bz d : mem (deref_type t) = true -> has_type env t v = true -> under v = Some w ->
    marshal_bare k env c t v = EOk bz -> zlen bz < 2 ^ 63 -> present (contents d env (deref_type t) no_opts w) bz.
  Proof.
    intros Hmem Ht Hu H Hz. rewrite marshal_eq, Hu in H. einv H. einv H. apply EOk_inj in H. subst bz. rename a into info, a0 into body.
    apply present_before. rewrite zlen_app in Hz. pose proof (zlen_nonneg (prefix_of info)).
    pose proof (minfo_deref _ _ _ _ (gti_minfo _ _ _ _ Hs E)) as Hi. pose proof (under_typed _ We _ _ _ Ht Hu) as Tw.
    pose proof (fun o bare bz N => encode_wire env We c Hc Hs Hm mem Hreg k info (deref_type t) w o bare bz Hi (deref_idem t) Hmem Tw N) as W.
    destruct (negb (struct_like env (ti_type info))).
    - einv E0. unfold write_field in E0. einv E0. einv E0. einv E0. cbn [negb andb] in E0.
      assert (La : zlen a2 < 2 ^ 63).
      { destruct (beqb a2 [0]) eqn:Eb; [apply beqb_eq in Eb; subst a2; reflexivity|].
        apply EOk_inj in E0. subst body. rewrite zlen_app in Hz. pose proof (zlen_nonneg a1). lia. }
      destruct (W no_opts _ a2 ltac:(cbn; lia) E4 La) as (m & q & Hw & Hq & Htw).
      pose proof (proj1 (wire_contents env c) _ _ _ _ _ Hw d) as P.
      destruct (beqb a2 [0]) eqn:Eb.
      + apply EOk_inj in E0. subst body. apply beqb_eq in Eb. subst a2.
        assert (Z : contents d env (deref_type t) no_opts w = []); [|rewrite Z; constructor].
        destruct (negb (a =? Typ3ByteLength) && m) eqn:Em.
        * exfalso. apply andb_true_iff in Em. destruct Em as [Em ->]. destruct P as (b & -> & _). rewrite (minfo_type _ _ _ _ Hi), deref_idem in E1.
          rewrite (type_wire_typ3 _ _ _ _ _ E1 Htw) in Em. discriminate Em.
        * apply (proj1 (has_any _ _ _ P)). apply pay_zero in Hq. apply Hq. reflexivity.
      + apply EOk_inj in E0. subst body. apply present_before. destruct (negb (a =? Typ3ByteLength) && m) eqn:Em.
        * apply andb_true_iff in Em. destruct Em as [_ ->]. destruct P as (b & E' & P). rewrite Hq in E'. injection E' as <-. exact P.
        * eapply has_pay; eassumption.
    - destruct (W top_opts _ body ltac:(cbn; lia) E0 ltac:(lia)) as (m & q & Hw & Hq & _).
      pose proof (proj1 (wire_contents env c) _ _ _ _ _ Hw d) as P. unfold top_opts in P. rewrite contents_num in P.
      destruct m; cbn [andb] in Hq.
      + destruct P as (b & E' & P). rewrite Hq in E'. injection E' as <-. exact P.
      + eapply has_pay; eassumption.
  Qed.
End Top.
