(** Facts for C98: struct types with the same fields are written and read alike. *)
From Coq Require Import ZArith String List Bool Lia.
From Coq Require Import ZifyBool ZifyNat.
From Verif Require Import Base Prims PrimFacts Types Codec BinEnc BinDec Amino ValueInd Typing Registry SpecRegistry RegistryFacts RegistryProps Sane DecSafe SpecNorm EncFacts
  SpecStruct SkipFacts RoundTrip TopFacts FrameFacts ConcatFacts FuelFacts JsonText Json SpecArray ArrayFacts SpecTwin.
Import ListNotations.
Local Open Scope Z_scope.
Local Open Scope amino_scope.

Section Twins.
  Variable env : tenv.
  Variable c : codec.
  Hypothesis Hs : sane_codec env c.
  Hypothesis Wc : wf_codec env c.

  Lemma twin_info t fs : resolve env t = RStruct fs -> has_method env t = false -> registered c t = None ->
    get_type_info env c t = ebind (parse_fields env fs 0 0) (fun r => EOk (TIConc {| ci_type := t; ci_fields := r; ci_marshal := None; ci_unmarshal := None; ci_reg := None |})).
  Proof.
    intros R M U. assert (D : deref_type t = t) by (destruct t; try reflexivity; discriminate R). assert (If : is_iface t = false) by (destruct t; try reflexivity; discriminate R).
    assert (Id : exists id, t = TNamed id) by (destruct t; try discriminate R; eauto).
    assert (P : parse_struct_info env t = parse_fields env fs 0 0) by (unfold parse_struct_info; rewrite R; reflexivity).
    assert (Fail : forall x, parse_fields env fs 0 0 = x -> (match x with EOk _ => False | _ => True end) ->
      get_type_info env c t = ebind x (fun r => EOk (TIConc {| ci_type := t; ci_fields := r; ci_marshal := None; ci_unmarshal := None; ci_reg := None |}))).
    { intros x E X. assert (No : forall i, get_type_info env c t <> EOk i).
      { intros i G. pose proof (gti_minfo _ _ _ _ Hs G) as Hi. destruct i as [ci|ii]; [|destruct Hi as [_ Y]; rewrite D in Y; subst t; discriminate If].
        destruct Hi as [T Ok]. rewrite D in T. destruct (info_ok_parts _ _ Ok) as (_ & Hp & _). rewrite T, P, E in Hp. rewrite Hp in X. exact X. }
      destruct Id as [id ->]. unfold get_type_info in *. cbn [deref_type] in *. destruct (assoc gotype_eqb (TNamed id) (cd_types c)) as [ci|]; [destruct (No (TIConc ci)); reflexivity|].
      unfold new_type_info. rewrite P, E. destruct x; try contradiction X; reflexivity. }
    destruct (parse_fields env fs 0 0) as [r| | |] eqn:E; cbn [ebind].
    - destruct (plain_info env c Hs t r D If M P) as (ci & G & Tc & Mc & Fc). pose proof (unregistered env c Hs t _ Wc G D U) as Rg. cbn in Rg.
      pose proof (gti_minfo _ _ _ _ Hs G) as [_ Ok]. destruct (info_ok_parts _ _ Ok) as (_ & _ & _ & Hu). rewrite Tc in Hu.
      assert (Un : ci_unmarshal ci = None).
      { destruct Id as [id ->]. unfold unmarshal_repr in Hu. unfold has_method in M. destruct (te_marshal env id); [discriminate M|]. destruct (te_unmarshal env id); [discriminate M|]. congruence. }
      rewrite G. destruct ci; cbn in *; subst; reflexivity.
    - apply (Fail _ eq_refl I).
    - apply (Fail _ eq_refl I).
    - apply (Fail _ eq_refl I).
  Qed.

  Variables t t' : gotype.
  Hypothesis Ht : convertible env t t'.
  Hypothesis U : registered c t = None.
  Hypothesis U' : registered c t' = None.

  Theorem twin_marshal k v : marshal_bare k env c t v = marshal_bare k env c t' v.
  Proof.
    destruct Ht as ((fs & R & R') & M & M'). assert (D : deref_type t = t) by (destruct t; try reflexivity; discriminate R). assert (D' : deref_type t' = t') by (destruct t'; try reflexivity; discriminate R').
    unfold marshal_bare. destruct (deref_pointers v) as [rv []]; [reflexivity|]. rewrite D, D', (twin_info t fs R M U), (twin_info t' fs R' M' U').
    destruct (parse_fields env fs 0 0) as [r| | |]; cbn [ebind]; try reflexivity. cbn [ti_type ci_type]. unfold is_struct_or_repeated_struct. rewrite R, R'. cbn [negb].
    destruct k as [|k]; [reflexivity|]. cbn [encode_reflect]. unfold encode_switch. cbn [ti_type ci_type]. rewrite R, R'. unfold encode_struct. cbn [ci_type ci_fields]. rewrite R, R'. destruct rv; reflexivity.
  Qed.
  Theorem twin_unmarshal k bz v : unmarshal_bare k env c bz t v = unmarshal_bare k env c bz t' v.
  Proof.
    destruct Ht as ((fs & R & R') & M & M'). unfold unmarshal_bare. rewrite (twin_info t fs R M U), (twin_info t' fs R' M' U').
    destruct (parse_fields env fs 0 0) as [r| | |]; cbn [ebind]; try reflexivity. cbv zeta. cbn [ti_type ci_type]. unfold is_struct_or_repeated_struct. rewrite R, R'. cbn [negb andb].
    assert (Q : decode_reflect k env c bz (TIConc {| ci_type := t; ci_fields := r; ci_marshal := None; ci_unmarshal := None; ci_reg := None |}) t v (set_num 1 no_opts) true =
      decode_reflect k env c bz (TIConc {| ci_type := t'; ci_fields := r; ci_marshal := None; ci_unmarshal := None; ci_reg := None |}) t' v (set_num 1 no_opts) true).
    { destruct k as [|k]; [reflexivity|]. assert (X : exists id, t = TNamed id) by (destruct t; try discriminate R; eauto). assert (X' : exists id, t' = TNamed id) by (destruct t'; try discriminate R'; eauto).
      destruct X as [id ->], X' as [id' ->]. cbn [decode_reflect]. unfold dmap, rebuild. cbn [wrap_ptrs base_of]. unfold decode_switch. cbn [ti_type ci_type]. rewrite R, R'.
      unfold decode_struct. cbn [ci_type ci_fields]. rewrite R, R'. reflexivity. }
    rewrite Q. reflexivity.
  Qed.

  (** ** JSON *)
  Variable je : jenv.
  Hypothesis Hj : forall id, t = TNamed id \/ t' = TNamed id -> je_marshal je id = None /\ je_unmarshal je id = None.

  Theorem twin_marshal_json k v : marshal_json k env je c t v = marshal_json k env je c t' v.
  Proof.
    destruct Ht as ((fs & R & R') & M & M'). unfold marshal_json. rewrite (twin_info t fs R M U), (twin_info t' fs R' M' U').
    destruct (parse_fields env fs 0 0) as [r| | |]; cbn [ebind]; try reflexivity.
    destruct k as [|k]; [reflexivity|]. cbn [encode_json]. 
    assert (X : exists id, t = TNamed id) by (destruct t; try discriminate R; eauto). assert (X' : exists id, t' = TNamed id) by (destruct t'; try discriminate R'; eauto).
    destruct X as [id E], X' as [id' E']. destruct (Hj id (or_introl E)) as [J _]. destruct (Hj id' (or_intror E')) as [J' _].
    assert (N : forall w ad, marshal_override je t w ad = None /\ marshal_override je t' w ad = None) by (intros w ad; rewrite E, E'; cbn [marshal_override]; rewrite J, J'; auto).
    cbn [ti_type ci_type]. unfold json_switch. cbn [ti_type ci_type]. rewrite R, R'.
    destruct v; try reflexivity; (destruct (deref_pointers _) as [w []]; [reflexivity|]; rewrite (proj1 (N _ _)), (proj2 (N _ _)); reflexivity).
  Qed.
  Theorem twin_unmarshal_json k bz v : wf_env env -> unmarshal_json k env je c bz t v = unmarshal_json k env je c bz t' v.
  Proof.
    intros We. destruct Ht as ((fs & R & R') & M & M'). unfold unmarshal_json. rewrite (twin_info t fs R M U), (twin_info t' fs R' M' U').
    destruct bz as [|b bz]; [reflexivity|]. destruct (parse_fields env fs 0 0) as [r| | |]; cbn [ebind]; try reflexivity.
    destruct k as [|k]; [reflexivity|]. 
    assert (Z : forall ty, resolve env ty = RStruct fs -> zero env ty = VStruct (map (fun f => zero env (sf_type f)) fs)).
    { intros ty Rt. destruct ty; try discriminate Rt. cbn [zero]. rewrite (we_zero _ We id). cbn [resolve] in Rt. destruct (te_def env id) as [fs0|ut]; [injection Rt as ->; reflexivity|]. destruct ut; discriminate Rt. }
    assert (Zt : zero env t = zero env t') by (rewrite (Z _ R), (Z _ R'); reflexivity).
    assert (X : exists id, t = TNamed id) by (destruct t; try discriminate R; eauto). assert (X' : exists id, t' = TNamed id) by (destruct t'; try discriminate R'; eauto).
    destruct X as [id E], X' as [id' E']. destruct (Hj id (or_introl E)) as [_ J]. destruct (Hj id' (or_intror E')) as [_ J']. cbn [decode_json]. rewrite Zt.
    destruct (beqb _ null); [reflexivity|]. unfold unjson_switch. cbn [ti_type ci_type]. rewrite R, R', E, E'. cbn [deref_type base_of]. rewrite J, J'. unfold rebuild. cbn [wrap_ptrs]. reflexivity.
  Qed.
End Twins.

(** ** One of the types registered *)
Section Registered.
  Variable env : tenv.
  Variable h : list op.
  Hypothesis Hc : clean env new_codec h = true.
  Variables (u t' : gotype) (n d p : bytes).
  Hypothesis Hreg : In (u, n) (conc_calls h).
  Hypothesis Hdp : name_to_disfix env n = EOk (d, p).
  Let c := run env new_codec h.
  Let t := conc_of u.
  Hypothesis Ht : convertible env t t'.
  Hypothesis U' : registered c t' = None.

  Lemma named_info rt : deref_type rt = t -> exists ci r, get_type_info env c rt = EOk (TIConc ci) /\ ci_reg ci = Some r /\ ri_prefix r = p /\ ri_name r = n /\ ci_type ci = t.
  Proof.
    intros Hd. destruct (unique_registrations env h Hc) as (_ & _ & R & _).
    destruct (R u n Hreg) as (ci & r & d' & p' & Hg & _ & Hty & Hr & Hn & _ & _ & Hp & Hdp' & _).
    rewrite Hdp in Hdp'. apply EOk_inj in Hdp'. exists ci, r. split; [|split; [exact Hr|split; [congruence|split; [exact Hn|exact Hty]]]].
    pose proof (gti_minfo _ _ _ _ (sane_run env h) Hg) as [Hm _]. rewrite <- gti_deref, Hd. unfold t. rewrite <- Hty, Hm, gti_deref. exact Hg.
  Qed.
  Lemma twin_reg_info : exists fs r g, resolve env t = RStruct fs /\ resolve env t' = RStruct fs /\ ri_prefix r = p /\ ri_name r = n /\
    get_type_info env c t = EOk (TIConc {| ci_type := t; ci_fields := g; ci_marshal := None; ci_unmarshal := None; ci_reg := Some r |}) /\
    get_type_info env c t' = EOk (TIConc {| ci_type := t'; ci_fields := g; ci_marshal := None; ci_unmarshal := None; ci_reg := None |}).
  Proof.
    destruct Ht as ((fs & R & R') & M & M'). assert (D : deref_type t = t) by (destruct t; try reflexivity; discriminate R).
    assert (Id : exists id, t = TNamed id) by (destruct t; try discriminate R; eauto).
    destruct (named_info t D) as (ci & r & G & Rg & Hp & Hn & Ty).
    pose proof (gti_minfo _ _ _ _ (sane_run env h) G) as [_ Ok]. destruct (info_ok_parts _ _ Ok) as (_ & Pf & Hm & Hu). rewrite Ty in *.
    unfold parse_struct_info in Pf. rewrite R in Pf.
    assert (Mn : ci_marshal ci = None /\ ci_unmarshal ci = None).
    { destruct Id as [id E]. rewrite E in Hm, Hu, M. unfold marshal_repr in Hm. unfold unmarshal_repr in Hu. unfold has_method in M.
      destruct (te_marshal env id); [discriminate M|]. destruct (te_unmarshal env id); [discriminate M|]. split; congruence. }
    destruct Mn as [Mm Mu]. exists fs, r, (ci_fields ci). split; [exact R|]. split; [exact R'|]. split; [exact Hp|]. split; [exact Hn|]. split.
    - rewrite G. destruct ci; cbn in *; subst; reflexivity.
    - rewrite (twin_info env c (sane_run env h) (wf_history env h Hc) t' fs R' M' U'), Pf. reflexivity.
  Qed.
  Theorem twin_reg_marshal k v : marshal_bare k env c t v = ebind (marshal_bare k env c t' v) (fun b => EOk (p ++ b)).
  Proof.
    destruct twin_reg_info as (fs & r & g & R & R' & Hp & Hn & G & G').
    assert (D : deref_type t = t) by (destruct t; try reflexivity; discriminate R). assert (D' : deref_type t' = t') by (destruct t'; try reflexivity; discriminate R').
    unfold marshal_bare. destruct (deref_pointers v) as [rv []]; [reflexivity|]. rewrite D, D', G, G'. cbn [ebind ti_type ci_type]. unfold is_struct_or_repeated_struct. rewrite R, R'. cbn [negb].
    destruct k as [|k]; [reflexivity|]. cbn [encode_reflect]. unfold encode_switch. cbn [ti_type ci_type]. rewrite R, R'. unfold encode_struct. cbn [ci_type ci_fields]. rewrite R, R', Hp.
    destruct rv; try reflexivity. match goal with |- ebind (ebind ?x _) _ = _ => destruct x; reflexivity end.
  Qed.
  Theorem twin_reg_unmarshal k bz v : unmarshal_bare k env c (p ++ bz) t v = unmarshal_bare k env c bz t' v.
  Proof.
    destruct twin_reg_info as (fs & r & g & R & R' & Hp & Hn & G & G').
    pose proof (unmarshal_prefixed k env c bz t v _ (sane_run env h) G) as Up. cbn [prefix_of ci_reg] in Up. rewrite Hp in Up. rewrite Up.
    rewrite unmarshal_eq, G'. cbv zeta. cbn [ci_reg]. unfold um_body. cbn [ti_type ci_type]. unfold is_struct_or_repeated_struct. rewrite R, R'. cbn [negb andb].
    assert (Q : decode_reflect k env c bz (TIConc {| ci_type := t; ci_fields := g; ci_marshal := None; ci_unmarshal := None; ci_reg := Some r |}) t v top_opts true =
      decode_reflect k env c bz (TIConc {| ci_type := t'; ci_fields := g; ci_marshal := None; ci_unmarshal := None; ci_reg := None |}) t' v top_opts true).
    { destruct k as [|k]; [reflexivity|]. assert (X : exists id, t = TNamed id) by (destruct t; try discriminate R; eauto). assert (X' : exists id, t' = TNamed id) by (destruct t'; try discriminate R'; eauto).
      destruct X as [id E], X' as [id' E']. rewrite E, E' in *. cbn [decode_reflect]. unfold dmap, rebuild. cbn [wrap_ptrs base_of]. unfold decode_switch. cbn [ti_type ci_type]. rewrite R, R'.
      unfold decode_struct. cbn [ci_type ci_fields]. rewrite R, R'. reflexivity. }
    rewrite Q. reflexivity.
  Qed.

  Variable je : jenv.
  Hypothesis Hj : forall id, t = TNamed id \/ t' = TNamed id -> je_marshal je id = None /\ je_unmarshal je id = None.

  Theorem twin_reg_marshal_json k v : marshal_json k env je c t v = ebind (marshal_json k env je c t' v) (fun b => EOk (wrap_name n b)).
  Proof.
    destruct twin_reg_info as (fs & r & g & R & R' & Hp & Hn & G & G'). unfold marshal_json. rewrite G, G'. cbn [ebind]. rewrite Hn.
    assert (X : exists id, t = TNamed id) by (destruct t; try discriminate R; eauto). assert (X' : exists id, t' = TNamed id) by (destruct t'; try discriminate R'; eauto).
    destruct X as [id E], X' as [id' E']. destruct (Hj id (or_introl E)) as [J _]. destruct (Hj id' (or_intror E')) as [J' _].
    assert (N : forall w ad, marshal_override je t w ad = None /\ marshal_override je t' w ad = None) by (intros w ad; rewrite E, E'; cbn [marshal_override]; rewrite J, J'; auto).
    assert (Q : encode_json k env je c (TIConc {| ci_type := t; ci_fields := g; ci_marshal := None; ci_unmarshal := None; ci_reg := Some r |}) v false no_opts =
      encode_json k env je c (TIConc {| ci_type := t'; ci_fields := g; ci_marshal := None; ci_unmarshal := None; ci_reg := None |}) v false no_opts).
    { destruct k as [|k]; [reflexivity|]. cbn [encode_json]. cbn [ti_type ci_type]. unfold json_switch. cbn [ti_type ci_type]. rewrite R, R'.
      destruct v; try reflexivity; (destruct (deref_pointers _) as [w []]; [reflexivity|]; rewrite (proj1 (N _ _)), (proj2 (N _ _)); reflexivity). }
    rewrite Q. set (x := encode_json _ _ _ _ _ _ _ _). destruct x; reflexivity.
  Qed.
  Theorem twin_reg_unmarshal_json k bz v : wf_env env -> bz <> [] -> decode_wrapper (wrap_name n bz) = EOk (n, bz) ->
    unmarshal_json k env je c (wrap_name n bz) t v = unmarshal_json k env je c bz t' v.
  Proof.
    intros We Nb W. destruct twin_reg_info as (fs & r & g & R & R' & Hp & Hn & G & G'). unfold unmarshal_json.
    destruct bz as [|b bz]; [destruct Nb; reflexivity|]. rewrite G, G'. cbn [ebind]. rewrite W, Hn. cbn [ebind fst snd]. rewrite beqb_refl. cbn [negb].
    change (wrap_name n (b :: bz)) with (123 :: tl (wrap_name n (b :: bz))). cbv iota.
    destruct k as [|k]; [reflexivity|]. 
    assert (Z : forall ty, resolve env ty = RStruct fs -> zero env ty = VStruct (map (fun f => zero env (sf_type f)) fs)).
    { intros ty Rt. destruct ty; try discriminate Rt. cbn [zero]. rewrite (we_zero _ We id). cbn [resolve] in Rt. destruct (te_def env id) as [fs0|ut]; [injection Rt as ->; reflexivity|]. destruct ut; discriminate Rt. }
    assert (Zt : zero env t = zero env t') by (rewrite (Z _ R), (Z _ R'); reflexivity).
    assert (X : exists id, t = TNamed id) by (destruct t; try discriminate R; eauto). assert (X' : exists id, t' = TNamed id) by (destruct t'; try discriminate R'; eauto).
    destruct X as [id E], X' as [id' E']. destruct (Hj id (or_introl E)) as [_ J]. destruct (Hj id' (or_intror E')) as [_ J']. cbn [decode_json]. rewrite Zt.
    destruct (beqb _ null); [reflexivity|]. unfold unjson_switch. cbn [ti_type ci_type]. rewrite R, R', E, E'. cbn [deref_type base_of]. rewrite J, J'. unfold rebuild. cbn [wrap_ptrs]. reflexivity.
  Qed.
End Registered.
