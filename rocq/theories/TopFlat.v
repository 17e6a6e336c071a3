(** Round trip of values that are neither structs nor lists of structs. *)
From Coq Require Import ZArith String List Bool Lia.
From Coq Require Import ZifyBool ZifyNat.
From Verif Require Import Base Prims SpecWire PrimFacts PrimProps Types Codec BinEnc BinDec Amino FuelFacts DecFacts
  ValueInd Typing Registry SpecRegistry RegistryFacts Sane DecSafe SpecNorm EncFacts RoundTrip TopFacts SpecSupported SupportedFacts TopProps.
Import ListNotations.
Local Open Scope Z_scope.
Local Open Scope amino_scope.

(** ** Values that stand alone without being structs *)

(** Written the same whatever the field number: numbers, strings, byte lists,
    lists of numbers, and types represented by such. *)
Fixpoint flat (k : nat) (env : tenv) (t : gotype) : bool :=
  match k with
  | O => false
  | S k' =>
      let plain :=
        match resolve env t with
        | RPrim _ => true
        | RArray _ e | RSlice e => is_uint8 env e || (negb (delimited env e) && flat k' env (deref_type e))
        | _ => false
        end in
      match t with
      | TNamed id => match te_marshal env id with Some (MOk r _) => flat k' env r | _ => plain end
      | _ => plain
      end
  end.

Lemma typ3_num env t a o : type_to_typ3 env t (set_num a o) = type_to_typ3 env t o.
Proof. reflexivity. Qed.
Lemma prim_num p v a o : encode_prim p v (set_num a o) = encode_prim p v o.
Proof. reflexivity. Qed.

Section Flat.
  Variable env : tenv.
  Variable c : codec.
  Hypothesis Hs : sane_codec env c.

  Lemma packed_num rec e einfo a o l : (forall v, rec einfo v (set_num a o) false = rec einfo v o false) ->
    encode_packed env rec e einfo l (set_num a o) = encode_packed env rec e einfo l o.
  Proof. intros H. induction l as [|v l IH]; cbn [encode_packed]; [reflexivity|]. rewrite H, IH. reflexivity. Qed.

  Lemma encode_num a o : forall k j info t v bare, flat j env t = true -> minfo env c info t -> deref_type t = t ->
    encode_reflect k env c info v (set_num a o) bare = encode_reflect k env c info v o bare.
  Proof.
    induction k as [|k IH]; intros j info t v bare Hf Hi Hd; [reflexivity|]. destruct j as [|j]; [discriminate|]. cbn [flat] in Hf.
    cbn [encode_reflect].
    assert (SW : match resolve env t with
        | RPrim _ => true
        | RArray _ e | RSlice e => is_uint8 env e || (negb (delimited env e) && flat j env (deref_type e))
        | _ => false
        end = true ->
        encode_switch env c (encode_reflect k env c) (S k) info v (set_num a o) bare = encode_switch env c (encode_reflect k env c) (S k) info v o bare).
    { clear Hf. intros Hf. unfold encode_switch. rewrite (minfo_type _ _ _ _ Hi), Hd.
      assert (EL : forall e, elem_type env t = Some e -> is_uint8 env e = false -> negb (delimited env e) && flat j env (deref_type e) = true ->
        encode_list env c (encode_reflect k env c) info v (set_num a o) bare = encode_list env c (encode_reflect k env c) info v o bare).
      { intros e Ee Eu Hfe. apply andb_true_iff in Hfe. destruct Hfe as [Hde Hfe]. apply negb_true_iff in Hde.
        unfold encode_list. rewrite (minfo_type _ _ _ _ Hi), Hd.
        assert (G : forall einfo l, get_type_info env c e = EOk einfo ->
          encode_packed env (encode_reflect k env c) e einfo l (set_num a o) = encode_packed env (encode_reflect k env c) e einfo l o).
        { intros einfo l Ei. apply packed_num. intros w. apply (IH j einfo (deref_type e)); [assumption| |apply deref_idem].
          apply minfo_deref. apply gti_minfo; assumption. }
        unfold elem_type in Ee. destruct (resolve env t); try discriminate; inversion Ee; subst e0; rewrite Eu;
          (destruct (get_type_info env c e) as [einfo| | |] eqn:Ei; cbn [ebind]; try reflexivity;
           rewrite typ3_num; destruct (type_to_typ3 env (ti_type einfo) o) as [z| | |] eqn:Ez; cbn [ebind]; try reflexivity;
           destruct (list_elems v) as [l|]; [|reflexivity];
           rewrite (typ3_elem env c _ _ _ _ (gti_minfo _ _ _ _ Hs Ei) Ez), Hde; cbn [negb]; rewrite (G einfo l eq_refl); reflexivity). }
      destruct (resolve env t) eqn:Er; try discriminate Hf; try reflexivity.
      - destruct (is_uint8 env e) eqn:Eu; [reflexivity|]. destruct (is_list_kind env e); [reflexivity|]. apply (EL e); auto. unfold elem_type. rewrite Er. reflexivity.
      - destruct (is_uint8 env e) eqn:Eu; [reflexivity|]. destruct (is_list_kind env e); [reflexivity|]. apply (EL e); auto. unfold elem_type. rewrite Er. reflexivity. }
    destruct info as [ci|ii].
    - destruct Hi as [Hty Hio]. rewrite Hd in Hty. pose proof (minfo_method _ _ _ Hty Hio) as M.
      destruct ci as [ct cf cm cu cr]. cbn [ci_marshal ci_type] in *. subst ct. destruct cm as [r|].
      + destruct M as (id & f & -> & Em & Er). rewrite Em in Hf. cbv zeta in Hf.
        assert (G : (elet rv := to_repr env (TNamed id) v in elet rinfo := get_type_info env c r in encode_reflect k env c rinfo rv (set_num a o) bare) =
          (elet rv := to_repr env (TNamed id) v in elet rinfo := get_type_info env c r in encode_reflect k env c rinfo rv o bare)).
        { destruct (to_repr env (TNamed id) v) as [w| | |]; cbn [ebind]; try reflexivity.
          destruct (get_type_info env c r) as [ri| | |] eqn:Eri; cbn [ebind]; try reflexivity.
          apply (IH j ri r); [assumption|apply gti_minfo; assumption|assumption]. }
        destruct v; try reflexivity; exact G.
      + assert (S' : encode_switch env c (encode_reflect k env c) (S k) (TIConc {| ci_type := t; ci_fields := cf; ci_marshal := None; ci_unmarshal := cu; ci_reg := cr |}) v (set_num a o) bare
          = encode_switch env c (encode_reflect k env c) (S k) (TIConc {| ci_type := t; ci_fields := cf; ci_marshal := None; ci_unmarshal := cu; ci_reg := cr |}) v o bare).
        { apply SW. destruct t; try exact Hf. rewrite (M id eq_refl) in Hf. exact Hf. }
        destruct v; try reflexivity; exact S'.
    - destruct Hi as [_ Hi]. rewrite Hd in Hi. subst t. discriminate.
  Qed.

  Lemma norm_num a o : forall k j t v, flat j env t = true -> deref_type t = t ->
    norm k env c t (set_num a o) v = norm k env c t o v.
  Proof.
    induction k as [|k IH]; intros j t v Hf Hd; [reflexivity|]. destruct j as [|j]; [discriminate|]. cbn [flat] in Hf. cbn [norm].
    assert (NL : forall e, elem_type env t = Some e -> is_uint8 env e = false -> is_uint8 env e || negb (delimited env e) && flat j env (deref_type e) = true ->
      norm_list env c (blank k env) (fixed_width k env) (norm k env c) t (set_num a o) v = norm_list env c (blank k env) (fixed_width k env) (norm k env c) t o v).
    { intros e Ee Eu Hfe. rewrite Eu in Hfe. cbn [orb] in Hfe. apply andb_true_iff in Hfe. destruct Hfe as [Hde Hfe]. apply negb_true_iff in Hde.
      assert (G : forall l, norm_elems env (blank k env) (fixed_width k env) (norm k env c) e (set_num a o) l = norm_elems env (blank k env) (fixed_width k env) (norm k env c) e o l).
      { intros l. unfold norm_elems. rewrite Hde. induction l as [|x l IHl]; cbn [opt_map]; [reflexivity|]. rewrite IHl.
        unfold norm_packed. rewrite (IH j) by (assumption || apply deref_idem). reflexivity. }
      unfold norm_list. unfold elem_type in Ee. destruct (resolve env t); try discriminate; inversion Ee; subst e0.
      - destruct v; try reflexivity. rewrite G. reflexivity.
      - destruct v as [| | | | | | |[l|]| | | | | | |]; try reflexivity. rewrite G. reflexivity. }
    assert (SW : match resolve env t with
        | RPrim _ => true
        | RArray _ e | RSlice e => is_uint8 env e || (negb (delimited env e) && flat j env (deref_type e))
        | _ => false
        end = true ->
      match resolve env t, v with
        | RPrim PFloat32, VFloat b => Some (VFloat (quiet32 b))
        | RPrim _, _ | RTime, _ => Some v
        | RArray _ e, VArr l =>
            if is_uint8 env e then (if gotype_eqb e (TPrim PUint8) then Some v else None)
            else if is_list env e then None
            else norm_list env c (blank k env) (fixed_width k env) (norm k env c) t (set_num a o) v
        | RSlice e, VSlice ol =>
            if is_uint8 env e then
              match ol with
              | None | Some [] => Some (VSlice None)
              | _ => if gotype_eqb e (TPrim PUint8) then Some v else None
              end
            else if is_list env e then None
            else norm_list env c (blank k env) (fixed_width k env) (norm k env c) t (set_num a o) v
        | RStruct fs, VStruct l =>
            option_map VStruct (norm_fields env c (blank k env) (fixed_width k env) (norm k env c) 1 fs l)
        | RIface i, VIface (Some (ct, cv)) => norm_iface env c (norm k env c) i (set_num a o) ct cv
        | _, _ => None
        end =
      match resolve env t, v with
        | RPrim PFloat32, VFloat b => Some (VFloat (quiet32 b))
        | RPrim _, _ | RTime, _ => Some v
        | RArray _ e, VArr l =>
            if is_uint8 env e then (if gotype_eqb e (TPrim PUint8) then Some v else None)
            else if is_list env e then None
            else norm_list env c (blank k env) (fixed_width k env) (norm k env c) t o v
        | RSlice e, VSlice ol =>
            if is_uint8 env e then
              match ol with
              | None | Some [] => Some (VSlice None)
              | _ => if gotype_eqb e (TPrim PUint8) then Some v else None
              end
            else if is_list env e then None
            else norm_list env c (blank k env) (fixed_width k env) (norm k env c) t o v
        | RStruct fs, VStruct l =>
            option_map VStruct (norm_fields env c (blank k env) (fixed_width k env) (norm k env c) 1 fs l)
        | RIface i, VIface (Some (ct, cv)) => norm_iface env c (norm k env c) i o ct cv
        | _, _ => None
        end).
    { clear Hf. intros Hf. destruct (resolve env t) as [p| |n e|e| | | | | | |] eqn:Er; try discriminate Hf; try reflexivity.
      - destruct v; try reflexivity. destruct (is_uint8 env e) eqn:Eu; [reflexivity|]. destruct (is_list env e); [reflexivity|].
        apply (NL e); [unfold elem_type; rewrite Er; reflexivity|assumption|rewrite Eu; exact Hf].
      - destruct v; try reflexivity. destruct (is_uint8 env e) eqn:Eu; [reflexivity|]. destruct (is_list env e); [reflexivity|].
        apply (NL e); [unfold elem_type; rewrite Er; reflexivity|assumption|rewrite Eu; exact Hf]. }
    destruct t; try (exact (SW Hf)).
    destruct (te_marshal env id) as [[p|r f]|] eqn:Em; [|destruct (te_unmarshal env id) as [[|r' g]|]; try reflexivity|].
    - reflexivity.
    - destruct (f v); try reflexivity. destruct (gotype_eqb r r') eqn:Er; [|reflexivity].
      destruct (is_ptr r) eqn:Pr.
      + destruct r; try discriminate Pr. destruct j; [discriminate Hf|]. cbn in Hf. discriminate.
      + rewrite (IH j) by (assumption || (apply deref_nonptr; assumption)). reflexivity.
    - destruct (te_unmarshal env id) as [[|]|]; [reflexivity|reflexivity|exact (SW Hf)].
  Qed.
End Flat.

Section TopFlat.
  Variable env : tenv.
  Hypothesis We : wf_env env.
  Variable c : codec.
  Hypothesis Hc : wf_codec env c.
  Hypothesis Hs : sane_codec env c.
  Hypothesis Hm : marshal_typed env.

  Lemma flat_not_iface j t : flat j env t = true -> match t with TIface _ => False | _ => True end.
  Proof. destruct j; [discriminate|]. destruct t; try discriminate; intros; exact I. Qed.

  Theorem flat_round_trip j k fd t v w bz v' info : (2 * k <= fd)%nat -> flat j env (deref_type t) = true ->
    struct_like env (deref_type t) = false -> has_type env t v = true -> get_type_info env c t = EOk info ->
    marshal_bare k env c t v = EOk bz -> zlen bz < 2 ^ 63 -> under v = Some w -> norm k env c (deref_type t) no_opts w = Some v' ->
    (length (prefix_of info) < length bz)%nat -> resolve env (deref_type t) <> RFunc -> (forall a b, resolve env (deref_type t) <> RMap a b) ->
    unmarshal_bare fd env c bz (deref_type t) (zero env (deref_type t)) = URet v' None.
  Proof.
    intros Hfd Hfl Hsl Ht Hg H Hz Hu Hn Hlen NF NM. rewrite marshal_eq, Hu, Hg in H. cbn [ebind] in H.
    pose proof (gti_minfo _ _ _ _ Hs Hg) as Hi. pose proof (minfo_type _ _ _ _ Hi) as Ety. rewrite Ety, Hsl in H. cbn [negb] in H.
    einv H. apply EOk_inj in H. subst bz. einv E. unfold write_field in E. rewrite Ety, E0 in E. cbn [ebind] in E. einv E. einv E. cbn [negb andb] in E.
    destruct (beqb a2 [0]) eqn:Eb.
    { apply EOk_inj in E. subst a. rewrite app_nil_r in Hlen. lia. }
    apply EOk_inj in E. subst a. rename a0 into typ, a1 into key, a2 into body.
    pose proof (typ3_range _ _ _ _ E0) as Rt. apply key_ok_inv in E1; [|lia|assumption]. destruct E1 as [_ ->].
    assert (Hg' : get_type_info env c (deref_type t) = EOk info) by (rewrite gti_deref; exact Hg).
    rewrite (unmarshal_prefixed _ _ _ _ _ _ _ Hs Hg'). unfold um_body. rewrite Ety, <- struct_like_eq, Hsl.
    assert (P : is_pointer_to_struct env (zero env (deref_type t)) (deref_type t) = EOk false).
    { unfold is_pointer_to_struct. rewrite deref_is_ptr. unfold struct_like in Hsl. unfold is_struct. destruct (resolve env (deref_type t)); try discriminate; reflexivity. }
    rewrite P. cbn [negb andb].
    pose proof (key_nonnil 1 typ ltac:(lia) Rt) as Kn.
    assert (L0 : (0 <? length (key_bytes 1 typ ++ body))%nat = true) by (rewrite app_length; lia).
    rewrite L0.
    assert (Y : match deref_type t with TIface _ => false | _ => true end && match resolve env (deref_type t) with RMap _ _ | RFunc => false | _ => true end = true).
    { pose proof (flat_not_iface _ _ Hfl) as NI. clear - NI NF NM. remember (deref_type t) as d eqn:Ed. clear Ed.
      assert (Y1 : match resolve env d with RMap _ _ | RFunc => false | _ => true end = true).
      { destruct (resolve env d) eqn:Ex; try reflexivity; [exfalso; eapply NM; reflexivity|congruence]. }
      rewrite Y1. destruct d; try contradiction; reflexivity. }
    rewrite <- andb_assoc. rewrite Y. cbn [andb].
    rewrite decode_field_key_encode by lia. cbn [negb Z.eqb Pos.eqb]. rewrite E0, Z.eqb_refl. cbn [negb].
    rewrite app_length. assert (L1 : (length (key_bytes 1 typ) + length body <? length (key_bytes 1 typ))%nat = false) by lia. rewrite L1.
    rewrite skipn_app_exact by reflexivity.
    assert (Zb : zlen body < 2 ^ 63).
    { rewrite !zlen_app in Hz. pose proof (zlen_nonneg (prefix_of info)). pose proof (zlen_nonneg (key_bytes 1 typ)). lia. }
    rewrite <- (encode_num env c Hs 1 no_opts k j info (deref_type t)) in E2; [|assumption|apply minfo_deref; assumption|apply deref_idem].
    rewrite <- (norm_num env c 1 no_opts k j (deref_type t)) in Hn; [|assumption|apply deref_idem]. fold top_opts in E2, Hn.
    assert (D : decode_reflect fd env c (body ++ []) info (deref_type t) (zero env (deref_type t)) top_opts (negb (typ =? Typ3ByteLength)) = DRet (ptrs (deref_type t) v') (length body) None).
    { eapply (encode_decode env We c Hc Hs Hm k fd Hfd info (deref_type t) w); try eassumption.
      - apply minfo_deref. exact Hi.
      - apply deref_idem.
      - eapply under_typed; eassumption.
      - vm_compute. discriminate.
      - reflexivity.
      - apply deref_idem.
      - rewrite deref_is_ptr. reflexivity.
      - apply base_nonptr. apply deref_idem. }
    rewrite app_nil_r in D. rewrite D, ptrs_nonptr by apply deref_idem. unfold um_finish. rewrite Nat.eqb_refl. reflexivity.
  Qed.

  (** Empty slices take no room but are read back. *)
  Theorem empty_slice_round_trip j k fd t v w bz e info : (2 <= fd)%nat -> flat j env (deref_type t) = true -> has_method env (deref_type t) = false ->
    resolve env (deref_type t) = RSlice e -> struct_like env (deref_type t) = false -> has_type env t v = true -> get_type_info env c t = EOk info ->
    under v = Some w -> defaultv w = true -> marshal_bare k env c t v = EOk bz ->
    bz = prefix_of info /\ unmarshal_bare fd env c bz (deref_type t) (zero env (deref_type t)) = URet (VSlice None) None.
  Proof.
    intros Hfd Hfl Hme Hr Hsl Ht Hg Hu Hdf H. rewrite marshal_eq, Hu, Hg in H. cbn [ebind] in H.
    pose proof (gti_minfo _ _ _ _ Hs Hg) as Hi. pose proof (minfo_type _ _ _ _ Hi) as Ety. rewrite Ety, Hsl in H. cbn [negb] in H.
    einv H. apply EOk_inj in H. subst bz. einv E. unfold write_field in E. rewrite Ety, E0 in E. cbn [ebind] in E. einv E. einv E. cbn [negb andb] in E.
    pose proof (under_typed _ We _ _ _ Ht Hu) as Hw.
    assert (W : w = VSlice None \/ w = VSlice (Some [])).
    { destruct w as [| | | | | | |[[|]|]| | | | | | |]; cbn [has_type] in Hw; rewrite Hr in Hw; try discriminate; auto. }
    assert (Tz : a0 = Typ3ByteLength) by (unfold type_to_typ3 in E0; rewrite Hr in E0; inversion E0; reflexivity). subst a0.
    cbn [negb] in E2. change (negb (Typ3ByteLength =? Typ3ByteLength)) with false in E2.
    destruct j as [|j]; [discriminate|].
    assert (Fl : is_uint8 env e || negb (delimited env e) && flat j env (deref_type e) = true).
    { cbn [flat] in Hfl. rewrite Hr in Hfl. destruct (deref_type t) eqn:Et; try exact Hfl. unfold has_method in Hme. destruct (te_marshal env id); [discriminate|exact Hfl]. }
    assert (NM : exists ci, info = TIConc ci /\ ci_marshal ci = None /\ ci_unmarshal ci = None).
    { destruct info as [ci|ii]; [|destruct Hi as [_ Hi]; rewrite Hi in Hr; discriminate]. exists ci. split; [reflexivity|].
      destruct Hi as [Hty Hio]. pose proof (minfo_method _ _ _ Hty Hio) as M. pose proof (minfo_unmethod _ _ _ Hty Hio) as U.
      unfold has_method in Hme. destruct (ci_marshal ci).
      - destruct M as (id & f & Et & M & _). rewrite Et, M in Hme. discriminate.
      - split; [reflexivity|]. destruct (ci_unmarshal ci); [|reflexivity]. destruct U as (id & f & Et & U & _). rewrite Et, U in Hme.
        destruct (te_marshal env id); discriminate. }
    destruct NM as (ci & -> & NM1 & NM2).
    assert (B0 : a2 = [0]).
    { destruct k as [|k]; [discriminate|]. apply encode_reflect_inv in E2. rewrite NM1 in E2. unfold encode_switch in E2. rewrite Ety, Hr in E2.
      destruct (is_uint8 env e) eqn:Eu.
      - destruct W as [-> | ->]; apply EOk_inj in E2; subst a2; reflexivity.
      - assert (EL : encode_list env c (encode_reflect k env c) (TIConc ci) w no_opts false = EOk a2).
        { destruct (is_list_kind env e) eqn:El; [|exact E2]. exfalso. cbn [orb] in Fl. apply andb_true_iff in Fl. destruct Fl as [Fl _].
          unfold delimited in Fl. unfold is_list_kind in El. destruct e; try discriminate El; cbn [deref_type] in Fl; cbn [resolve] in *; try discriminate Fl.
          destruct (te_def env id) as [|[]]; discriminate. }
        unfold encode_list in EL. rewrite Ety, Hr, Eu in EL. einv EL. einv EL.
        destruct W as [-> | ->]; cbn [list_elems] in EL; (destruct (negb (a3 =? Typ3ByteLength)); cbn [encode_packed encode_unpacked ebind] in EL; apply EOk_inj in EL; subst a2; reflexivity). }
    subst a2. cbn [beqb] in E. change (beqb [0] [0]) with true in E. cbv iota in E. apply EOk_inj in E. subst a. rewrite app_nil_r.
    split; [reflexivity|].
    assert (Hg' : get_type_info env c (deref_type t) = EOk (TIConc ci)) by (rewrite gti_deref; exact Hg).
    rewrite <- (app_nil_r (prefix_of (TIConc ci))). rewrite (unmarshal_prefixed _ _ _ _ _ _ _ Hs Hg'). unfold um_body. rewrite Ety, <- struct_like_eq, Hsl.
    assert (P : is_pointer_to_struct env (zero env (deref_type t)) (deref_type t) = EOk false).
    { unfold is_pointer_to_struct. rewrite deref_is_ptr. unfold is_struct. rewrite Hr. reflexivity. }
    rewrite P. cbn [negb andb length]. change (0 <? 0)%nat with false. cbn [andb].
    destruct fd as [|fd]; [lia|]. cbn [decode_reflect]. rewrite base_nonptr by apply deref_idem.
    assert (DS : decode_switch env c (decode_reflect fd env c) [] (TIConc ci) (zero env (deref_type t)) top_opts true = DRet (VSlice None) 0 None).
    { unfold decode_switch. rewrite Ety, Hr. destruct (is_uint8 env e) eqn:Eu; [reflexivity|].
      destruct k as [|k]; [discriminate|]. apply encode_reflect_inv in E2. rewrite NM1 in E2. unfold encode_switch in E2. rewrite Ety, Hr, Eu in E2.
      cbn [orb] in Fl. apply andb_true_iff in Fl. destruct Fl as [Fl _]. apply negb_true_iff in Fl.
      assert (El : is_list_kind env e = false).
      { destruct (is_list_kind env e) eqn:El; [|reflexivity]. exfalso.
        unfold delimited in Fl. unfold is_list_kind in El. destruct e; try discriminate El; cbn [deref_type] in Fl; cbn [resolve] in *; try discriminate Fl.
        destruct (te_def env id) as [|[]]; discriminate. }
      rewrite El in E2. unfold encode_list in E2. rewrite Ety, Hr, Eu in E2. einv E2. einv E2.
      unfold decode_slice. rewrite Eu, E. cbn [eget enter]. change (type_to_typ3 env (ti_type a) top_opts) with (type_to_typ3 env (ti_type a) no_opts). rewrite E3. cbn [eget].
      destruct (negb _); reflexivity. }
    destruct ci as [ct cf cm cu cr]. cbn [ci_marshal ci_unmarshal] in *. subst cm cu.
    rewrite DS. cbn. unfold rebuild. change wrap_ptrs with ptrs. rewrite ptrs_nonptr by apply deref_idem. reflexivity.
  Qed.
End TopFlat.
