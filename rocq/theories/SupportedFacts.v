(** On supported types every value amino encodes has a normal form. *)
From Coq Require Import ZArith String List Bool Lia.
From Coq Require Import ZifyBool ZifyNat.
From Verif Require Import Base Prims SpecWire PrimFacts PrimProps Types Codec BinEnc BinDec Amino FuelFacts DecFacts
  ValueInd Typing Registry SpecRegistry RegistryFacts Sane DecSafe SpecNorm EncFacts RoundTrip TopFacts SpecSupported.
Import ListNotations.
Local Open Scope Z_scope.
Local Open Scope amino_scope.

Lemma opt_map_all {A B} (f : A -> option B) l : (forall x, In x l -> f x <> None) -> opt_map f l <> None.
Proof.
  induction l as [|x l IH]; intros H; cbn [opt_map]; [discriminate|].
  pose proof (H x (or_introl eq_refl)). destruct (f x); [|congruence].
  specialize (IH (fun y Hy => H y (or_intror Hy))). destruct (opt_map f l); congruence.
Qed.
Lemma option_map_some {A B} (f : A -> B) x : x <> None -> option_map f x <> None.
Proof. destruct x; cbn; congruence. Qed.

Lemma under_default v : under v = None -> defaultv v = true.
Proof. induction v using value_ind'; cbn; try discriminate; auto. Qed.
(** Encoding a list encodes each element. *)
Lemma packed_each env rec e einfo o : forall l buf, encode_packed env rec e einfo l o = EOk buf ->
  forall v, In v l -> exists b, rec einfo (deref_pointers_zero env e v) o false = EOk b.
Proof.
  induction l as [|x l IH]; intros buf H v Hin; [destruct Hin|]. cbn [encode_packed] in H. einv H. einv H.
  destruct Hin as [->|Hin]; eauto.
Qed.
Lemma unpacked_each env rec e einfo o : forall l buf, encode_unpacked env rec e einfo l o = EOk buf ->
  forall v, In v l -> if defaultv v then is_ptr e && is_struct env (ti_type einfo) && fo_empty_elements o = false
    else exists w b, under v = Some w /\ rec einfo w (set_num 1 o) false = EOk b.
Proof.
  induction l as [|x l IH]; intros buf H v Hin; [destruct Hin|]. cbn [encode_unpacked] in H. einv H.
  destruct (is_default_value x) as [erv isdef] eqn:Ed. einv H. einv H.
  destruct Hin as [->|Hin]; [|exact (IH _ E1 v Hin)]. rewrite default_pair in Ed. inversion Ed; subst erv isdef.
  destruct (defaultv v) eqn:Dv.
  - destruct (is_ptr e && _ && _); [discriminate|reflexivity].
  - destruct (under v) as [w|] eqn:U; [eauto|]. apply under_default in U. congruence.
Qed.
Lemma under_defaultv v w : under v = Some w -> defaultv w = defaultv v.
Proof.
  revert w. induction v using value_ind'; intros w'; cbn [under]; try discriminate;
    try (let X := fresh in intros X; injection X as X; subst w'; reflexivity).
  intros X. cbn [defaultv]. apply IHv. exact X.
Qed.

(** Type information that says "registered" comes from a registration. *)
Lemma registered_info env c t ci r : wf_codec env c -> sane_codec env c -> get_type_info env c t = EOk (TIConc ci) -> ci_reg ci = Some r ->
  In ci (cd_concretes c).
Proof.
  intros Hc Hs Hg Hreg. pose proof (gti_minfo _ _ _ _ Hs Hg) as [Hi1 Hok].
  apply (wc_conc _ _ Hc). split; [|congruence]. unfold get_type_info in Hg. rewrite Hi1.
  pose proof (conc_nonptr env ci Hok) as N. rewrite Hi1 in N.
  destruct (deref_type t) eqn:Et; try contradiction;
  try (destruct (assoc gotype_eqb _ (cd_types c)) as [ci'|] eqn:Ea; [inversion Hg; reflexivity|];
    einv Hg; inversion Hg; subst a; apply new_type_info_spec in E; destruct E as (_ & _ & E); congruence).
Qed.

Section S.
  Variable env : tenv.
  Hypothesis We : wf_env env.
  Variable c : codec.
  Hypothesis Hc : wf_codec env c.
  Hypothesis Hs : sane_codec env c.
  Hypothesis Hm : marshal_typed env.
  Variable mem : gotype -> bool.
  Hypothesis Hsup : supported env c mem.

  Definition sup_ok (enc : tinfo -> value -> fopts -> bool -> eres bytes) (nm : gotype -> fopts -> value -> option value) : Prop :=
    forall info t v o bare bz, minfo env c info t -> deref_type t = t -> mem t = true -> has_type env t v = true ->
    enc info v o bare = EOk bz -> v <> VIface None -> nm t o v <> None.

  Lemma fixed_plain k t o : delimited env t = true -> deref_type t = t -> has_method env t = false -> fixed_width k env t o = false.
  Proof.
    clear. intros Hd Ht Hm. destruct k as [|k]; [reflexivity|]. cbn [fixed_width]. unfold delimited in Hd. rewrite Ht in Hd.
    assert (P : match resolve env t with
        | RPrim PFloat32 | RPrim PFloat64 => true
        | RPrim PInt64 | RPrim PUint64 => fo_fixed64 o
        | RPrim PInt32 | RPrim PUint32 => fo_fixed32 o
        | _ => false
        end = false) by (destruct (resolve env t) as [[]| | | | | | | | | |]; try discriminate; reflexivity).
    destruct t; try exact P. unfold has_method in Hm. destruct (te_marshal env id) as [[]|]; try exact P. discriminate.
  Qed.

  Section Step.
  Variable k : nat.
  Variable enc : tinfo -> value -> fopts -> bool -> eres bytes.
  Variable nm : gotype -> fopts -> value -> option value.
  Hypothesis IH : sup_ok enc nm.
  Hypothesis Hinv : forall info o bare bz, enc info VInvalid o bare <> EOk bz.
  Let bl := blank k env.
  Let fw := fixed_width k env.

  Lemma elem_fixed e o : elem_ok env c mem e = true -> delimited env e = true -> fw (deref_type e) o = false.
  Proof.
    intros He Hd. unfold elem_ok in He. rewrite !andb_true_iff in He. destruct He as [_ He]. rewrite Hd in He. cbn [negb orb] in He.
    assert (Hd' : delimited env (deref_type e) = true) by (unfold delimited in *; rewrite deref_idem; exact Hd).
    unfold fw. destruct (has_method env (deref_type e)) eqn:Em; [|apply fixed_plain; [assumption|apply deref_idem|assumption]].
    destruct (deref_type e) eqn:Et; try discriminate Em. unfold has_method in Em.
    destruct k as [|k']; [reflexivity|]. cbn [fixed_width]. destruct (te_marshal env id) as [[p|r f]|] eqn:E2.
    - unfold delimited in Hd'. cbn [deref_type] in Hd'. destruct (resolve env (TNamed id)) as [[]| | | | | | | | | |]; try discriminate; reflexivity.
    - apply andb_true_iff in He. destruct He as [H1 H2]. apply negb_true_iff in H2.
      destruct (Bool.bool_dec (is_ptr r) true) as [P|P].
      + destruct r; try discriminate P. destruct k'; reflexivity.
      + apply fixed_plain; try assumption. apply deref_nonptr. destruct (is_ptr r); congruence.
    - unfold delimited in Hd'. cbn [deref_type] in Hd'. destruct (resolve env (TNamed id)) as [[]| | | | | | | | | |]; try discriminate; reflexivity.
  Qed.

  Lemma entry_some e einfo v o : minfo env c einfo e -> elem_ok env c mem e = true -> delimited env e = true -> has_type env e v = true ->
    (if defaultv v then is_ptr e && is_struct env (ti_type einfo) && fo_empty_elements o = false
     else exists w b, under v = Some w /\ enc einfo w (set_num 1 o) false = EOk b) ->
    norm_entry env bl fw nm e o v <> None.
  Proof.
    intros Hi He Hd Ht H. unfold norm_entry. rewrite (minfo_type _ _ _ _ Hi) in H.
    destruct (defaultv v) eqn:Dv; [rewrite H; discriminate|]. destruct H as (w & b & Hu & Hb). rewrite Hu.
    destruct (_ && bl _ _ _); [discriminate|]. rewrite (elem_fixed _ _ He Hd), andb_false_r.
    unfold elem_ok in He. rewrite !andb_true_iff in He. destruct He as [[[H1 H2] _] _]. apply negb_true_iff in H2. rewrite H2.
    apply option_map_some. eapply IH; try eassumption.
    - apply minfo_deref. exact Hi.
    - apply deref_idem.
    - eapply under_typed; eassumption.
    - intros ->. apply under_defaultv in Hu. cbn in Hu. congruence.
  Qed.
  Lemma packed_some e einfo v o b : minfo env c einfo e -> elem_ok env c mem e = true -> delimited env e = false -> has_type env e v = true ->
    enc einfo (deref_pointers_zero env e v) o false = EOk b -> norm_packed env nm e o v <> None.
  Proof.
    intros Hi He Hd Ht H. unfold norm_packed. rewrite deref_zero_under in H.
    set (w := match under v with Some w => w | None => zero env (deref_type e) end) in *.
    assert (Hw : has_type env (deref_type e) w = true) by (apply packed_typed; assumption).
    assert (N : nm (deref_type e) o w <> None).
    { unfold elem_ok in He. rewrite !andb_true_iff in He. destruct He as [[[H1 _] _] _].
      eapply IH; try eassumption; [apply minfo_deref; exact Hi|apply deref_idem|].
      intros E. rewrite E in Hw. unfold delimited in Hd. cbn [has_type] in Hw.
      destruct (resolve env (deref_type e)) as [[]| | | | | | | | | |]; discriminate. }
    destruct (nm (deref_type e) o w); congruence.
  Qed.

  Lemma list_some info t v o bare bz e : minfo env c info t -> deref_type t = t -> has_type env t v = true ->
    elem_type env t = Some e -> elem_ok env c mem e = true ->
    encode_list env c enc info v o bare = EOk bz -> norm_list env c bl fw nm t o v <> None.
  Proof.
    intros Hi Hd Ht Ee He H. apply encode_list_inv in H. destruct H as (e' & einfo & l & buf & E1 & E2 & E3 & E4 & E5 & [z Hz] & E6).
    pose proof (minfo_type _ _ _ _ Hi) as Ety. rewrite Hd in Ety. rewrite Ety, Ee in E1. inversion E1; subst e'. clear E1.
    specialize (E6 z Hz). pose proof (gti_minfo _ _ _ _ Hs E3) as Hie. rewrite (typ3_elem env c _ _ _ _ Hie Hz) in E6.
    pose proof (elem_typed _ _ _ _ _ Ee Ht E4) as Hl. rewrite forallb_forall in Hl.
    assert (N : norm_elems env bl fw nm e o l <> None).
    { unfold norm_elems. apply opt_map_all. intros x Hx. destruct (delimited env e) eqn:Ed.
      - eapply entry_some; try eassumption; [apply Hl; assumption|]. eapply unpacked_each; eassumption.
      - destruct (packed_each _ _ _ _ _ _ _ E6 x Hx) as [b Hb]. eapply packed_some; try eassumption. apply Hl; assumption. }
    assert (K : known env c e = true) by (unfold known; rewrite E3; reflexivity).
    unfold elem_type in Ee. unfold norm_list. destruct (resolve env t) eqn:Er; try discriminate; inversion Ee; subst e0;
      destruct v as [| | | | | |l0|[l0|]| | | | | | |]; cbn [list_elems] in E4; try discriminate; inversion E4; subst l;
      try (apply option_map_some; assumption); try (cbn [has_type] in Ht; rewrite Er in Ht; discriminate);
      rewrite K; try discriminate; apply option_map_some; assumption.
  Qed.

  Lemma field_some f v b : has_type env (fi_type f) v = true -> fi_unpacked f = entries env (fi_type f) ->
    field_ok env c mem (fi_type f) (fi_opts f) = true -> encode_field env c enc f v = EOk b ->
    norm_field env c bl fw nm (fi_type f) (fi_opts f) v <> None.
  Proof.
    intros Ht Hup Hok H. unfold encode_field in H. einv H. rename a into info. pose proof (gti_minfo _ _ _ _ Hs E) as Hi.
    rewrite default_pair in H. rewrite Hup in H. unfold field_ok in Hok. unfold norm_field.
    destruct (entries env (fi_type f)) eqn:Een.
    - apply andb_true_iff in Hok. destruct Hok as [Hok1 Hok2]. apply negb_true_iff in Hok1. rewrite Hok1.
      destruct (entries_elem _ _ Een) as (e & Ee & Ed & Eu).
      assert (He : elem_ok env c mem e = true) by (unfold elem_type in Ee; destruct (resolve env (fi_type f)); try discriminate; congruence).
      pose proof (elem_nonptr _ _ _ Ee) as Np.
      destruct (defaultv v && negb (fo_write_empty (fi_opts f))) eqn:Dd.
      + apply andb_true_iff in Dd. destruct Dd as [Dd _].
        assert (K : known env c e = true) by (unfold elem_ok in He; rewrite !andb_true_iff in He; tauto).
        assert (Hr : resolve env (fi_type f) = RSlice e).
        { destruct (default_list env _ _ Ht Een Dd) as [-> | ->]; cbn [has_type] in Ht; unfold elem_type in Ee;
            destruct (resolve env (fi_type f)) as [[]| | | | | | | | | |]; try discriminate; congruence. }
        destruct (default_list env _ _ Ht Een Dd) as [-> | ->]; unfold norm_list; rewrite Hr, K; [discriminate|].
        unfold norm_elems. cbn [opt_map]. discriminate.
      + rewrite (under_nonptr env _ _ Ht Np We) in H.
        eapply list_some; try eassumption. apply deref_nonptr. assumption.
    - destruct (defaultv v && negb (fo_write_empty (fi_opts f))) eqn:Dd; [discriminate|].
      rewrite !andb_true_iff in Hok. destruct Hok as [[H1 H2] H3]. apply negb_true_iff in H2. apply negb_true_iff in H3.
      unfold write_field in H. einv H. einv H. einv H.
      destruct (under v) as [w|] eqn:Eu.
      2:{ exfalso. eapply Hinv. exact E2. }
      destruct (_ && bl _ _ _); [discriminate|]. rewrite H2. apply option_map_some.
      eapply IH; try eassumption.
      + apply minfo_deref. exact Hi.
      + apply deref_idem.
      + eapply under_typed; eassumption.
      + intros ->. pose proof (under_typed _ We _ _ _ Ht Eu) as Hw. cbn [has_type] in Hw.
        assert (Hif : is_iface (deref_type (fi_type f)) = true).
        { destruct (deref_type (fi_type f)) eqn:Et; try discriminate Hw; try reflexivity.
          - cbn in Hw. destruct p; discriminate.
          - cbn [resolve] in Hw. destruct (te_def env id) as [|[]]; try discriminate Hw. destruct p; discriminate Hw. }
        rewrite Hif in H3. apply under_defaultv in Eu. cbn in Eu. rewrite <- Eu in Dd. cbn in Dd.
        destruct (fo_write_empty (fi_opts f)); discriminate.
  Qed.

  Lemma fields_some : forall fs i num infos pre l buf, parse_fields env fs i num = EOk infos -> length pre = i ->
    forall2b (fun f w => has_type env (sf_type f) w) fs l = true ->
    encode_fields env c enc infos (pre ++ l) = EOk buf -> fields_ok env c mem (Z.of_nat num + 1) fs = true ->
    norm_fields env c bl fw nm (Z.of_nat num + 1) fs l <> None.
  Proof.
    induction fs as [|f fs IHf]; intros i num infos pre l buf Hp Hl Ht H Hok; destruct l as [|v l]; try discriminate Ht; cbn [norm_fields]; [discriminate|].
    cbn [forall2b] in Ht. apply andb_true_iff in Ht. destruct Ht as [Hv Ht].
    apply parse_step in Hp. cbn [fields_ok] in Hok. destruct (field_opts (Z.of_nat num + 1) f) as [o|] eqn:Eo.
    - destruct Hp as (fi & rest & -> & Hix & Hty & Hup & Hopts & _ & Hp). rewrite !andb_true_iff in Hok. destruct Hok as [[Hn Hf] Hok].
      cbn [encode_fields] in H. einv H. einv H. rewrite Hix in E. replace (nth i (pre ++ v :: l) VInvalid) with v in E by (rewrite <- Hl; symmetry; apply nth_mid).
      assert (Eopts : fi_opts fi = o).
      { rewrite Hopts. assert (fo_num o = Z.of_nat num + 1).
        { unfold field_opts in Eo. destruct (sf_exported f); [|discriminate]. destruct (parse_field_options f); inversion Eo. reflexivity. }
        replace (u32 (Z.of_nat num + 1)) with (fo_num o); [apply set_num_id|]. unfold u32, uwrap. rewrite Z.mod_small; lia. }
      destruct (Z.leb_spec (2 ^ 29) (Z.of_nat num + 1)); [lia|].
      assert (N1 : norm_field env c bl fw nm (sf_type f) o v <> None).
      { rewrite <- Hty, <- Eopts. eapply field_some; try eassumption; rewrite ?Hty, ?Eopts; assumption. }
      replace (Z.of_nat num + 1 + 1) with (Z.of_nat (S num) + 1) in * by lia.
      assert (N2 : norm_fields env c bl fw nm (Z.of_nat (S num) + 1) fs l <> None).
      { eapply (IHf (S i) (S num) rest (pre ++ [v])); try eassumption.
        - rewrite app_length. cbn. lia.
        - rewrite <- app_assoc. exact E0. }
      destruct (norm_field env c bl fw nm (sf_type f) o v); [|congruence].
      destruct (norm_fields env c bl fw nm (Z.of_nat (S num) + 1) fs l); congruence.
    - apply option_map_some. eapply (IHf (S i) num infos (pre ++ [v])); try eassumption.
      + rewrite app_length. cbn. lia.
      + rewrite <- app_assoc. exact H.
  Qed.
  End Step.

  Lemma impl_deref ct i : te_impl env ct i = true -> deref_type ct = ct \/ te_impl env (TPtr (deref_type ct)) i = true.
  Proof.
    clear - We. induction ct; cbn [deref_type]; auto. intros H. right.
    destruct (is_ptr ct) eqn:P; [|rewrite deref_nonptr by assumption; exact H].
    destruct ct; try discriminate P. cbn [deref_type] in *. destruct (IHct (we_impl_ptr2 _ We _ _ H)) as [E|E]; [|exact E].
    pose proof (deref_is_ptr ct) as Q. rewrite E in Q. discriminate.
  Qed.

  Theorem supported_norm : forall k, sup_ok (encode_reflect k env c) (norm k env c).
  Proof.
    induction k as [|k IH]; intros info t v o bare bz Hi Hd Hmem Ht H Hn; [discriminate|].
    assert (Hinv : forall info o bare bz, encode_reflect k env c info VInvalid o bare <> EOk bz) by (intros; destruct k; discriminate).
    apply encode_reflect_inv in H. destruct (Hsup t Hmem) as [Hok Hmeth]. cbn [norm].
    destruct info as [ci|ii].
    - destruct Hi as [Hty Hio]. rewrite Hd in Hty. pose proof (minfo_method _ _ _ Hty Hio) as M.
      destruct (ci_marshal ci) as [r|] eqn:Em.
      + destruct M as (id & f & -> & E & Er). destruct H as (w & rinfo & H1 & H2 & H3).
        cbn [methods_ok] in Hmeth. rewrite E in *. destruct (te_unmarshal env id) as [[|r' g]|]; try contradiction.
        destruct Hmeth as (<- & Hr & Hif & Hg). rewrite Hty in H1. cbn [to_repr] in H1. rewrite E in H1. rewrite H1.
        replace (gotype_eqb r r) with true by (symmetry; apply gotype_eqb_eq; reflexivity).
        assert (Hw : has_type env r w = true) by (eapply Hm; eassumption).
        assert (N : norm k env c r o w <> None).
        { eapply IH; try eassumption; [apply gti_minfo; assumption|]. intros ->. cbn [has_type] in Hw.
          destruct r; try discriminate Hw; try discriminate Hif; cbn [resolve] in Hw; [destruct p; discriminate|].
          destruct (te_def env id0) as [|[]]; try discriminate Hw. destruct p; discriminate Hw. }
        destruct (norm k env c r o w) as [w'|] eqn:Ew; [|congruence]. destruct (Hg k o v w w' Ht H1 Ew) as [v' Hv']. rewrite Hv'. discriminate.
      + assert (SW : match resolve env t, v with
        | RPrim PFloat32, VFloat b => Some (VFloat (quiet32 b))
        | RPrim _, _ | RTime, _ => Some v
        | RArray _ e, VArr l =>
            if is_uint8 env e then (if gotype_eqb e (TPrim PUint8) then Some v else None)
            else if is_list env e then None
            else norm_list env c (blank k env) (fixed_width k env) (norm k env c) t o v
        | RSlice e, VSlice ol =>
            if is_uint8 env e then
              match ol with
              | None | Some [] => Some (VSlice None)
              | _ => if gotype_eqb e (TPrim PUint8) then Some v else None
              end
            else if is_list env e then None
            else norm_list env c (blank k env) (fixed_width k env) (norm k env c) t o v
        | RStruct fs, VStruct l =>
            option_map VStruct (norm_fields env c (blank k env) (fixed_width k env) (norm k env c) 1 fs l)
        | RIface i, VIface (Some (ct, cv)) => norm_iface env c (norm k env c) i o ct cv
        | _, _ => None
        end <> None).
        { assert (Nm : has_method env t = false).
          { destruct t; try reflexivity. cbn [has_method methods_ok] in *. rewrite (M id eq_refl) in *.
            destruct (te_unmarshal env id) as [[]|]; [contradiction|contradiction|reflexivity]. }
          unfold type_ok in Hok. rewrite Nm in Hok. cbn [orb] in Hok.
          unfold encode_switch in H. cbn [ti_type] in H. rewrite Hty in H.
          destruct (resolve env t) as [p| |len e|e| | | | |i|fs|] eqn:Er; try discriminate Hok.
          - destruct p; try discriminate. destruct v; discriminate.
          - discriminate.
          - destruct v; try discriminate H; cbn [has_type] in Ht; rewrite Er in Ht; try discriminate Ht.
            unfold list_ok in Hok. destruct (is_uint8 env e) eqn:Eu; [rewrite Hok; discriminate|].
            apply andb_true_iff in Hok. destruct Hok as [H1 H2]. apply negb_true_iff in H1. rewrite H1. change (is_list_kind env e) with (is_list env e) in H.
            rewrite H1 in H. eapply (list_some k _ _ IH (TIConc ci)); try eassumption.
            + cbn. rewrite Hd. auto.
            + cbn [has_type]. rewrite Er. exact Ht.
            + unfold elem_type. rewrite Er. reflexivity.
          - destruct v as [| | | | | | |ol| | | | | | |]; try (cbn [has_type] in Ht; rewrite Er in Ht; discriminate Ht).
            unfold list_ok in Hok. destruct (is_uint8 env e) eqn:Eu; [rewrite Hok; destruct ol as [[]|]; discriminate|].
            apply andb_true_iff in Hok. destruct Hok as [H1 H2]. apply negb_true_iff in H1. rewrite H1. change (is_list_kind env e) with (is_list env e) in H.
            rewrite H1 in H. eapply (list_some k _ _ IH (TIConc ci)); try eassumption.
            + cbn. rewrite Hd. auto.
            + unfold elem_type. rewrite Er. reflexivity.
          - discriminate H.
          - unfold encode_struct in H. rewrite Hty, Er in H.
            destruct v as [| | | | | | | | |l| | | | |]; try discriminate. einv H.
            apply option_map_some. destruct (info_ok_parts _ _ Hio) as (_ & Hpf & _). rewrite Hty in Hpf. unfold parse_struct_info in Hpf. rewrite Er in Hpf.
            cbn [has_type] in Ht. rewrite Er in Ht.
            eapply (fields_some k _ _ IH Hinv fs 0%nat 0%nat (ci_fields ci) []); try eassumption; reflexivity. }
        destruct t; try exact SW. cbn [methods_ok] in Hmeth. rewrite (M id eq_refl) in *.
        destruct (te_unmarshal env id) as [[]|]; [contradiction|contradiction|exact SW].
    - destruct Hi as [Hin Hty]. rewrite Hd in Hty. subst t. cbn [resolve].
      unfold encode_switch in H. cbn [ti_type resolve] in H. destruct v as [| | | | | | | | | |[[ct cv]|]| | | |]; try discriminate H; [|congruence].
      unfold encode_interface in H. rewrite deref_pointers_under in H. unfold norm_iface.
      destruct (under cv) as [w|] eqn:Eu; [|discriminate].
      cbn [has_type resolve] in Ht. apply andb_true_iff in Ht. destruct Ht as [Hi1 Hi2].
      assert (Hw : has_type env (deref_type ct) w = true) by (eapply under_typed; [eassumption| |eassumption]; destruct ct; try exact Hi2; discriminate).
      assert (H' : exists ci r body, get_type_info env c (deref_type ct) = EOk (TIConc ci) /\ ci_reg ci = Some r /\
          encode_reflect k env c (TIConc ci) w o true = EOk body).
      { destruct w; try discriminate H; einv H; (destruct a as [ci|]; [|discriminate H]); (destruct (ci_reg ci) as [r|] eqn:Er; [|discriminate H]);
          cbv zeta in H; einv H; exists ci, r; eexists; splits; eassumption. }
      clear H. destruct H' as (ci & r & body & Hg & Hr & Hb). pose proof (gti_minfo _ _ _ _ Hs Hg) as [Hty Hio]. rewrite deref_idem in Hty.
      pose proof (registered_info _ _ _ _ _ Hc Hs Hg Hr) as Hin'.
      assert (Hreg : registered c (deref_type ct) = Some (ri_ptr r)).
      { unfold registered. destruct (find _ _) as [ci'|] eqn:Ef.
        - apply find_some in Ef. destruct Ef as [F1 F2]. apply gotype_eqb_eq in F2.
          apply (wc_conc _ _ Hc) in F1. apply (wc_conc _ _ Hc) in Hin'. destruct F1 as [F1 _], Hin' as [F3 _].
          rewrite F2, <- Hty in F1. rewrite F1 in F3. inversion F3; subst ci'. rewrite Hr. reflexivity.
        - apply (find_none _ _ Ef) in Hin'. rewrite Hty in Hin'. rewrite (proj2 (gotype_eqb_eq _ _) eq_refl) in Hin'. discriminate. }
      rewrite Hreg. unfold type_ok in Hok. cbn [has_method orb resolve] in Hok. unfold iface_ok in Hok. rewrite forallb_forall in Hok.
      specialize (Hok ci Hin'). rewrite Hr in Hok.
      assert (Himp : te_impl env (TPtr (ci_type ci)) (ii_id ii) = true).
      { rewrite Hty. destruct (impl_deref _ _ Hi1) as [E|E]; [|exact E]. rewrite E. apply (we_impl_ptr _ We); [|exact Hi1].
        pose proof (conc_nonptr env ci Hio) as N. rewrite Hty, E in N. destruct ct; auto. }
      rewrite Himp in Hok. cbn [negb orb] in Hok. rewrite !andb_true_iff, Hty in Hok. destruct Hok as [[K1 K2] K3].
      rewrite K3, K2, orb_true_r. cbn [andb].
      assert (N : norm k env c (deref_type ct) o w <> None).
      { eapply (IH (TIConc ci) _ w o true body); try assumption; [cbn; rewrite deref_idem; auto|apply deref_idem|].
        intros ->. pose proof (conc_nonptr env ci Hio) as N. rewrite Hty in N. cbn [has_type] in Hw.
        destruct (deref_type ct); try contradiction; try discriminate Hw; cbn [resolve] in Hw; [destruct p; discriminate|].
        destruct (te_def env id) as [|[]]; try discriminate Hw. destruct p; discriminate Hw. }
      destruct (norm k env c (deref_type ct) o w); congruence.
  Qed.
End S.
