(** The values the encoder accepts. *)
From Coq Require Import ZArith String List Bool Lia.
From Coq Require Import ZifyBool ZifyNat.
From Verif Require Import Base Prims SpecWire PrimFacts PrimProps Types Codec BinEnc BinDec Amino FuelFacts DecFacts
  ValueInd Typing Registry SpecRegistry RegistryFacts Sane DecSafe SpecNorm EncFacts RoundTrip TopFacts SpecSupported SupportedFacts SpecWritable.
Import ListNotations.
Local Open Scope Z_scope.
Local Open Scope amino_scope.

Definition okb {A} (r : eres A) : bool := match r with EOk _ => true | _ => false end.
Lemma okb_bind {A B} (r : eres A) (f : A -> eres B) : okb (ebind r f) = match r with EOk x => okb (f x) | _ => false end.
Proof. destruct r; reflexivity. Qed.

Lemma okb_typ3 env t o : okb (type_to_typ3 env t o) = wired env t.
Proof. unfold type_to_typ3, wired. destruct (resolve env t) as [[]| | | | | | | | | |]; try reflexivity; destruct (_ o); reflexivity. Qed.
Lemma typ3_small env t o z : type_to_typ3 env t o = EOk z -> Z.land z 248 = 0.
Proof.
  unfold type_to_typ3. destruct (resolve env t) as [[]| | | | | | | | | |]; try discriminate; try (destruct (_ o));
    intros H; apply EOk_inj in H; subst z; reflexivity.
Qed.
Lemma okb_key num typ : Z.land typ 248 = 0 -> okb (encode_field_key num typ) = (num <? field_limit).
Proof.
  intros H. unfold encode_field_key, field_limit. rewrite H. cbn [Z.eqb negb]. destruct (_ <? num) eqn:E; cbn [okb]; lia.
Qed.
Lemma okb_time s ns : 0 <= ns <= 999999999 -> match encode_time s ns with EOk (_, None) => true | _ => false end = time_ok s ns.
Proof.
  intros H. unfold encode_time, time_ok, min_seconds, max_seconds, max_nanos.
  assert (E : i32 ns = ns) by (unfold i32, iwrap; rewrite Z.mod_small by lia; destruct (ns <? _) eqn:X; lia). rewrite E.
  destruct (s =? 0) eqn:Es.
  - destruct (ns =? 0) eqn:En; [lia|]. destruct ((ns <? 0) || (999999999 <? ns)) eqn:X; [lia|]. cbn. lia.
  - destruct ((s <? _) || (_ <=? s)) eqn:Y; [lia|]. cbn [encode_field_key]. cbn.
    destruct (ns =? 0) eqn:En; [lia|]. destruct ((ns <? 0) || (999999999 <? ns)) eqn:X; [lia|]. cbn. lia.
Qed.
Lemma bytes_inside_eq env : forall k t, match multidim_bytes k env t with Some true => true | _ => false end = bytes_inside k env t.
Proof.
  induction k as [|k IH]; intros t; [reflexivity|]. cbn [multidim_bytes bytes_inside]. destruct (resolve env t) as [[]| | | | | | | | | |]; try reflexivity; apply IH.
Qed.
Lemma okb_ptr k env c info o bare v : match v with VPtr _ | VInvalid => True | _ => False end -> okb (encode_reflect k env c info v o bare) = false.
Proof. destruct k; [reflexivity|]. destruct v; try contradiction; reflexivity. Qed.

Section W.
  Variable env : tenv.
  Hypothesis We : wf_env env.
  Variable c : codec.
  Hypothesis Hc : wf_codec env c.
  Hypothesis Hs : sane_codec env c.
  Hypothesis Hm : marshal_typed env.

  Definition wr_ok (enc : tinfo -> value -> fopts -> bool -> eres bytes) (wr : gotype -> fopts -> value -> bool) : Prop :=
    forall info t v o bare, minfo env c info t -> deref_type t = t -> has_type env t v = true -> okb (enc info v o bare) = wr t o v.

  Section Step.
    Variable enc : tinfo -> value -> fopts -> bool -> eres bytes.
    Variable wr : gotype -> fopts -> value -> bool.
    Hypothesis IH : wr_ok enc wr.
    Hypothesis Hinv : forall info o bare, okb (enc info VInvalid o bare) = false.

    Lemma packed_okb e einfo o : minfo env c einfo e -> forall l, forallb (has_type env e) l = true ->
      okb (encode_packed env enc e einfo l o) = forallb (writable_packed env wr e o) l.
    Proof.
      intros Hi. induction l as [|v l IHl]; intros Hl; [reflexivity|]. cbn [forallb encode_packed] in *. apply andb_true_iff in Hl. destruct Hl as [Hv Hl].
      rewrite okb_bind. unfold writable_packed at 1. rewrite deref_zero_under. rewrite <- (IH einfo _ _ o false (minfo_deref _ _ _ _ Hi) (deref_idem e) (packed_typed _ We _ _ Hv)).
      destruct (enc _ _ _ _); try reflexivity. cbn [okb andb]. rewrite okb_bind, <- (IHl Hl). destruct (encode_packed _ _ _ _ _ _); reflexivity.
    Qed.
    Lemma unpacked_okb e einfo o : minfo env c einfo e -> forall l, forallb (has_type env e) l = true ->
      okb (encode_unpacked env enc e einfo l o) = forallb (fun v => (fo_num o <? field_limit) && writable_entry env wr e o v) l.
    Proof.
      intros Hi. induction l as [|v l IHl]; intros Hl; [reflexivity|]. cbn [forallb encode_unpacked] in *. apply andb_true_iff in Hl. destruct Hl as [Hv Hl].
      rewrite okb_bind. pose proof (okb_key (fo_num o) Typ3ByteLength eq_refl) as K. destruct (encode_field_key _ _); cbn [okb] in K; rewrite <- K; try reflexivity.
      cbn [andb]. rewrite default_pair, okb_bind. unfold writable_entry at 1. rewrite (minfo_type _ _ _ _ Hi).
      assert (T : forall b : eres bytes, match b with EOk x => okb (elet bs := encode_unpacked env enc e einfo l o in EOk (a ++ x ++ bs)) | _ => false end =
                        okb b && forallb (fun v => (fo_num o <? field_limit) && writable_entry env wr e o v) l).
      { intros b. rewrite <- (IHl Hl). destruct b; try reflexivity. rewrite okb_bind. destruct (encode_unpacked _ _ _ _ _ _); reflexivity. }
      rewrite T. f_equal; [|rewrite <- K; reflexivity]. destruct (defaultv v) eqn:D.
      - destruct (_ && _); reflexivity.
      - destruct (under v) as [w|] eqn:U; [|apply Hinv]. apply IH; [apply minfo_deref; exact Hi|apply deref_idem|eapply under_typed; eassumption].
    Qed.

    Lemma list_okb info t v o bare : minfo env c info t -> deref_type t = t -> has_type env t v = true ->
      match resolve env t with RArray _ e | RSlice e => is_uint8 env e = false | _ => False end ->
      okb (encode_list env c enc info v o bare) = writable_list env c wr t o v.
    Proof.
      intros Hi Hd Ht Hr. pose proof (minfo_type _ _ _ _ Hi) as Ety. rewrite Hd in Ety. unfold encode_list, writable_list. rewrite Ety.
      assert (G : forall e l, elem_type env t = Some e -> list_elems v = Some l ->
        okb (elet einfo := get_type_info env c e in
             elet typ3 := type_to_typ3 env (ti_type einfo) o in
             match list_elems v with
             | Some l => elet buf := (if negb (typ3 =? Typ3ByteLength) then encode_packed env enc e einfo l o else encode_unpacked env enc e einfo l o) in EOk (finish bare buf)
             | None => EPanic "reflect: call on wrong kind"%string
             end) = writable_elems env c wr e o l).
      { intros e l Ee El. pose proof (elem_typed _ _ _ _ _ Ee Ht El) as Hl. unfold writable_elems. rewrite okb_bind. unfold known.
        destruct (get_type_info env c e) as [einfo| | |] eqn:E; try reflexivity. pose proof (gti_minfo _ _ _ _ Hs E) as Hie.
        rewrite okb_bind. pose proof (okb_typ3 env (ti_type einfo) o) as Z3. rewrite (minfo_type _ _ _ _ Hie) in *.
        destruct (type_to_typ3 env (deref_type e) o) as [z| | |] eqn:Ez; cbn [okb] in Z3; rewrite <- Z3; try reflexivity.
        rewrite El, okb_bind, (typ3_delimited _ _ _ _ Ez). cbn [andb].
        destruct (delimited env e); cbn [negb].
        - etransitivity; [|exact (unpacked_okb e einfo o Hie l Hl)]. destruct (encode_unpacked _ _ _ _ _ _); reflexivity.
        - etransitivity; [|exact (packed_okb e einfo o Hie l Hl)]. destruct (encode_packed _ _ _ _ _ _); reflexivity. }
      unfold elem_type in G. destruct (resolve env t) eqn:Er; try contradiction; rewrite Hr;
        (destruct v as [| | | | | | |[l0|]| | | | | | |]; cbn [has_type] in Ht; rewrite Er in Ht; try discriminate Ht; try (destruct p; discriminate Ht));
        rewrite (G _ _ eq_refl eq_refl); reflexivity.
    Qed.

    Lemma field_okb f v : has_type env (fi_type f) v = true -> fi_unpacked f = entries env (fi_type f) ->
      okb (encode_field env c enc f v) = writable_field env c wr (fi_type f) (fi_opts f) v.
    Proof.
      intros Ht Hup. unfold encode_field, writable_field. rewrite okb_bind. unfold known. destruct (get_type_info env c (fi_type f)) as [info| | |] eqn:E; try reflexivity.
      pose proof (gti_minfo _ _ _ _ Hs E) as Hi. cbn [andb]. rewrite default_pair, Hup.
      destruct (defaultv v && _); [reflexivity|]. destruct (entries env (fi_type f)) eqn:En.
      - pose proof En as En'. unfold entries in En'. 
        assert (Np : is_ptr (fi_type f) = false) by (destruct (fi_type f); try reflexivity; discriminate En').
        rewrite (under_nonptr env _ _ Ht Np We). apply list_okb; [exact Hi|apply deref_nonptr; exact Np|exact Ht|].
        destruct (resolve env (fi_type f)); try discriminate; apply andb_true_iff in En'; destruct En' as [X _]; apply negb_true_iff in X; exact X.
      - unfold write_field. rewrite okb_bind. pose proof (okb_typ3 env (ti_type info) (fi_opts f)) as Z3. rewrite (minfo_type _ _ _ _ Hi) in *.
        destruct (type_to_typ3 _ _ _) as [z| | |] eqn:Ez; cbn [okb] in Z3; rewrite <- Z3; try reflexivity. cbn [andb].
        rewrite okb_bind. pose proof (okb_key (fo_num (fi_opts f)) z (typ3_small _ _ _ _ Ez)) as K.
        destruct (encode_field_key _ _); cbn [okb] in K; rewrite <- K; try reflexivity. cbn [andb]. rewrite okb_bind.
        assert (R : okb (enc info match under v with Some w => w | None => VInvalid end (fi_opts f) false) =
                    match under v with Some w => wr (deref_type (fi_type f)) (fi_opts f) w | None => false end).
        { destruct (under v) as [w|] eqn:U; [|apply Hinv]. apply IH; [apply minfo_deref; exact Hi|apply deref_idem|eapply under_typed; eassumption]. }
        rewrite <- R. destruct (enc _ _ _ _); try reflexivity. destruct (negb _ && _); reflexivity.
    Qed.

    Lemma fields_okb : forall fs i num infos pre l, parse_fields env fs i num = EOk infos -> length pre = i ->
      forall2b (fun f w => has_type env (sf_type f) w) fs l = true ->
      okb (encode_fields env c enc infos (pre ++ l)) = writable_fields env c wr (Z.of_nat num + 1) fs l.
    Proof.
      induction fs as [|f fs IHf]; intros i num infos pre l Hp Hl Ht; destruct l as [|v l]; try discriminate Ht.
      - cbn in Hp. apply EOk_inj in Hp. subst infos. reflexivity.
      - cbn [forall2b] in Ht. apply andb_true_iff in Ht. destruct Ht as [Hv Ht]. apply parse_step in Hp. cbn [writable_fields].
        assert (A : pre ++ v :: l = (pre ++ [v]) ++ l) by (rewrite <- app_assoc; reflexivity).
        assert (Lp : length (pre ++ [v]) = S i) by (rewrite app_length; cbn; lia).
        unfold field_opts in *. destruct (sf_exported f); [|rewrite A; eapply IHf; eassumption].
        destruct (parse_field_options f) as [o|]; cbn [option_map] in *; [|rewrite A; eapply IHf; eassumption].
        destruct Hp as (fi & rest & -> & Hix & Hty & Hup & Hop & _ & Hrest). cbn [encode_fields]. rewrite okb_bind.
        rewrite Hix. replace (nth i (pre ++ v :: l) VInvalid) with v by (rewrite <- Hl; symmetry; apply nth_mid).
        rewrite set_num_set in Hop. rewrite <- Hty in Hv, Hup. change (u32 (Z.of_nat num + 1)) with ((Z.of_nat num + 1) mod 2 ^ 32) in Hop.
        rewrite <- Hty, <- Hop, <- (field_okb fi v Hv Hup). destruct (encode_field _ _ _ _ _); try reflexivity. cbn [okb andb].
        rewrite okb_bind, A. replace (Z.of_nat num + 1 + 1) with (Z.of_nat (S num) + 1) by lia.
        rewrite <- (IHf (S i) (S num) rest (pre ++ [v]) l Hrest Lp Ht). destruct (encode_fields _ _ _ _ _); reflexivity.
    Qed.
  End Step.

  Lemma registered_iff t : match get_type_info env c t with
      | EOk (TIConc ci) => ci_reg ci <> None
      | _ => False
      end <-> registered c (deref_type t) <> None.
  Proof.
    unfold registered. split.
    - destruct (get_type_info env c t) as [[ci|]| | |] eqn:E; try contradiction. intros Hr. destruct (ci_reg ci) as [r|] eqn:Er; [|congruence].
      pose proof (registered_info _ _ _ _ _ Hc Hs E Er) as Hin. pose proof (gti_minfo _ _ _ _ Hs E) as [Hty _].
      destruct (find _ _) as [ci'|] eqn:Ef.
      + apply find_some in Ef. destruct Ef as [F1 F2]. apply (wc_conc _ _ Hc) in F1. destruct (ci_reg ci'); [discriminate|tauto].
      + apply (find_none _ _ Ef) in Hin. rewrite Hty in Hin. rewrite (proj2 (gotype_eqb_eq _ _) eq_refl) in Hin. discriminate.
    - destruct (find _ _) as [ci'|] eqn:Ef; [|congruence]. intros _. apply find_some in Ef. destruct Ef as [F1 F2]. apply gotype_eqb_eq in F2.
      pose proof (sa_conc _ _ Hs _ F1) as [Hio Hr]. apply (wc_conc _ _ Hc) in F1. destruct F1 as [F1 _].
      unfold get_type_info. pose proof (conc_nonptr env ci' Hio) as N. rewrite <- F2. rewrite F2 in *.
      destruct (deref_type t) eqn:Et; try contradiction; rewrite F1; exact Hr.
  Qed.

  Theorem encode_okb : forall k, wr_ok (encode_reflect k env c) (writable k env c).
  Proof.
    induction k as [|k IH]; intros info t v o bare Hi Hd Ht; [reflexivity|].
    assert (Hinv : forall info o bare, okb (encode_reflect k env c info VInvalid o bare) = false) by (intros; apply okb_ptr; exact I).
    assert (Np : is_ptr t = false) by (rewrite <- Hd; apply deref_is_ptr).
    pose proof (minfo_type _ _ _ _ Hi) as Ety. rewrite Hd in Ety.
    assert (V : okb (encode_reflect (S k) env c info v o bare) =
      okb (match info with
           | TIConc {| ci_type := t; ci_marshal := Some r |} =>
              elet rv := to_repr env t v in elet rinfo := get_type_info env c r in encode_reflect k env c rinfo rv o bare
           | _ => encode_switch env c (encode_reflect k env c) (S k) info v o bare
           end)).
    { cbn [encode_reflect]. destruct v; try reflexivity; exfalso; [apply ptr_typed in Ht; [congruence|exact We]|].
      cbn [has_type] in Ht. destruct (resolve env t) as [[]| | | | | | | | | |]; discriminate. }
    rewrite V. clear V.
    assert (P : okb (encode_switch env c (encode_reflect k env c) (S k) info v o bare) =
        match resolve env t, v with
        | RPrim (PFloat32 | PFloat64), _ => fo_unsafe o
        | RPrim _, _ => true
        | RTime, VTime s ns => time_ok s ns
        | (RArray _ e | RSlice e), _ =>
            if is_uint8 env e then true
            else if is_list env e then bytes_inside (S k) env e
            else writable_list env c (writable k env c) t o v
        | RStruct fs, VStruct l => writable_fields env c (writable k env c) 1 fs l
        | RIface _, VIface None => true
        | RIface _, VIface (Some (ct, cv)) =>
            match registered c (deref_type ct), under cv with
            | Some _, Some w => writable k env c (deref_type ct) o w
            | _, _ => false
            end
        | _, _ => false
        end).
    { unfold encode_switch. rewrite Ety. destruct (resolve env t) as [p| |len e|e| | | | |i|fs|] eqn:Er; try reflexivity.
      - rewrite (has_type_prim env t p v Er) in Ht. destruct p, v; try discriminate Ht; try reflexivity; cbn [encode_prim]; destruct (fo_unsafe o); reflexivity.
      - destruct info as [ci|ii]; [|exfalso; destruct Hi as [_ Hi]; rewrite Hd in Hi; rewrite Hi in Er; discriminate Er].
        cbn [ti_type] in Ety. unfold encode_struct. rewrite Ety, Er. destruct v; cbn [has_type] in Ht; rewrite Er in Ht; try discriminate Ht; try (destruct p; discriminate Ht).
        rewrite <- (okb_time s ns) by lia. destruct (encode_time s ns) as [[b [e|]]| | |]; reflexivity.
      - destruct (is_uint8 env e) eqn:Eu; [destruct v; cbn [has_type] in Ht; rewrite Er in Ht; try discriminate Ht; reflexivity|].
        change (is_list_kind env e) with (is_list env e). destruct (is_list env e).
        + rewrite <- bytes_inside_eq. destruct (multidim_bytes _ _ _) as [[]|]; reflexivity.
        + apply list_okb; try assumption. rewrite Er. exact Eu.
      - destruct (is_uint8 env e) eqn:Eu; [destruct v as [| | | | | | |[l0|]| | | | | | |]; cbn [has_type] in Ht; rewrite Er in Ht; try discriminate Ht; reflexivity|].
        change (is_list_kind env e) with (is_list env e). destruct (is_list env e).
        + rewrite <- bytes_inside_eq. destruct (multidim_bytes _ _ _) as [[]|]; reflexivity.
        + apply list_okb; try assumption. rewrite Er. exact Eu.
      - apply (resolve_iface _ _ _ We) in Er. revert Ety. subst t. intros _. destruct info as [ci|ii].
        { exfalso. destruct Hi as [Hty Hio]. pose proof (conc_nonptr env ci Hio) as N. rewrite Hty in N. exact N. }
        destruct v as [| | | | | | | | | |[[ct cv]|]| | | |]; cbn [has_type resolve] in Ht; try discriminate Ht; [|reflexivity].
        unfold encode_interface. rewrite deref_pointers_under. destruct (under cv) as [w|] eqn:U; [|destruct (registered _ _); reflexivity].
        apply andb_true_iff in Ht. destruct Ht as [Hi1 Hi2].
        assert (Hw : has_type env (deref_type ct) w = true) by (eapply under_typed; [eassumption| |eassumption]; destruct ct; try exact Hi2; discriminate).
        assert (G : okb (elet info := get_type_info env c (deref_type ct) in
                match info with
                | TIConc ci =>
                    match ci_reg ci with
                    | None => EErr "cannot encode unregistered concrete type"%string
                    | Some r =>
                        let need := ii_always ii || (1 <? length match assoc beqb (ri_prefix r) (ii_impls ii) with Some l => l | None => [] end)%nat in
                        elet body := encode_reflect k env c info w o true in
                        EOk (finish bare ((if need then 0 :: ri_disamb r else []) ++ ri_prefix r ++ body))
                    end
                | TIFace _ => EErr "cannot encode unregistered concrete type"%string
                end) = match registered c (deref_type ct) with Some _ => writable k env c (deref_type ct) o w | None => false end).
        { pose proof (registered_iff (deref_type ct)) as R. rewrite deref_idem in R. rewrite okb_bind.
          destruct (get_type_info env c (deref_type ct)) as [[ci|ii']| | |] eqn:E.
          - pose proof (gti_minfo _ _ _ _ Hs E) as Hi'. destruct (ci_reg ci) as [r|].
            + destruct (registered _ _); [|exfalso; exact (proj1 R ltac:(discriminate) eq_refl)]. cbv zeta. rewrite okb_bind.
              rewrite <- (IH (TIConc ci) (deref_type ct) w o true Hi' (deref_idem _) Hw). destruct (encode_reflect _ _ _ _ _ _ _); reflexivity.
            + destruct (registered _ _); [exfalso; exact (proj2 R ltac:(discriminate) eq_refl)|reflexivity].
          - destruct (registered _ _); [exfalso; exact (proj2 R ltac:(discriminate))|reflexivity].
          - destruct (registered _ _); [exfalso; exact (proj2 R ltac:(discriminate))|reflexivity].
          - destruct (registered _ _); [exfalso; exact (proj2 R ltac:(discriminate))|reflexivity].
          - destruct (registered _ _); [exfalso; exact (proj2 R ltac:(discriminate))|reflexivity]. }
        destruct w; try exact G.
        (* an interface under the pointers *)
        pose proof (registered_iff (deref_type ct)) as R. rewrite deref_idem in R. destruct (registered c (deref_type ct)) eqn:Rg; [|reflexivity]. exfalso.
        destruct R as [_ R]. specialize (R ltac:(discriminate)). destruct (get_type_info env c (deref_type ct)) as [[ci|ii']| | |] eqn:E; try contradiction.
        pose proof (gti_minfo _ _ _ _ Hs E) as [Hty Hio]. rewrite deref_idem in Hty. pose proof (conc_nonptr env ci Hio) as N. rewrite Hty in N.
        cbn [has_type] in Hw. destruct (resolve env (deref_type ct)) as [[]| | | | | | | |i'| |] eqn:Er; try discriminate Hw.
        apply (resolve_iface _ _ _ We) in Er. rewrite Er in N. exact N.
      - destruct info as [ci|ii]; [|exfalso; destruct Hi as [_ Hi]; rewrite Hd in Hi; rewrite Hi in Er; discriminate Er].
        cbn [ti_type] in Ety. unfold encode_struct. rewrite Ety, Er. destruct v; cbn [has_type] in Ht; rewrite Er in Ht; try discriminate Ht; try (destruct p; discriminate Ht).
        destruct Hi as [Hty Hio]. destruct (info_ok_parts _ _ Hio) as (_ & Hpf & _). rewrite Ety in Hpf. unfold parse_struct_info in Hpf. rewrite Er in Hpf.
        rewrite okb_bind. etransitivity; [|exact (fields_okb _ _ IH Hinv fs 0%nat 0%nat (ci_fields ci) [] l Hpf eq_refl Ht)]. cbn [app]. destruct (encode_fields _ _ _ _ _); reflexivity. }
    cbn [writable]. destruct info as [ci|ii].
    - destruct Hi as [Hty Hio]. rewrite Hd in Hty. pose proof (minfo_method _ _ _ Hty Hio) as M. destruct ci as [ct cf cm cu cr]. cbn [ci_type ci_marshal] in *.
      destruct cm as [r|].
      + destruct M as (id & f & -> & E & Er). rewrite E. subst ct. unfold to_repr. rewrite E, okb_bind. unfold known.
        destruct (f v) as [w| | |] eqn:Ef; try (rewrite andb_false_r; reflexivity). rewrite okb_bind.
        destruct (get_type_info env c r) as [rinfo| | |] eqn:Eg; try reflexivity. cbn [andb].
        apply IH; [apply gti_minfo; assumption|exact Er|eapply Hm; eassumption].
      + rewrite P. destruct t; try reflexivity. rewrite (M id eq_refl). reflexivity.
    - rewrite P. destruct Hi as [_ Hi]. rewrite Hd in Hi. clear Ety. subst t. reflexivity.
  Qed.

  Theorem marshal_okb k t v : has_type env t v = true -> okb (marshal_bare k env c t v) = writable_top k env c t v.
  Proof.
    intros Ht. rewrite marshal_eq. unfold writable_top, known. destruct (under v) as [w|] eqn:U; [|rewrite andb_false_r; reflexivity].
    pose proof (under_typed _ We _ _ _ Ht U) as Hw. rewrite okb_bind. destruct (get_type_info env c t) as [info| | |] eqn:E; try reflexivity.
    pose proof (minfo_deref _ _ _ _ (gti_minfo _ _ _ _ Hs E)) as Hi. pose proof (minfo_type _ _ _ _ Hi) as Ety. rewrite deref_idem in Ety. rewrite Ety. cbn [andb].
    rewrite okb_bind. destruct (struct_like env (deref_type t)); cbn [negb].
    - fold top_opts. rewrite <- (encode_okb k info (deref_type t) w top_opts true Hi (deref_idem _) Hw). destruct (encode_reflect _ _ _ _ _ _ _); reflexivity.
    - pose proof (okb_typ3 env (deref_type t) no_opts) as Z3. destruct (type_to_typ3 _ _ _) as [z| | |] eqn:Ez; cbn [okb] in Z3; rewrite <- Z3; try reflexivity.
      cbn [ebind]. unfold write_field. rewrite Ety, Ez. cbn [ebind]. pose proof (okb_key 1 z (typ3_small _ _ _ _ Ez)) as K.
      destruct (encode_field_key 1 z); try discriminate K. cbn [ebind andb].
      rewrite <- (encode_okb k info (deref_type t) w no_opts (negb (z =? Typ3ByteLength)) Hi (deref_idem _) Hw).
      destruct (encode_reflect _ _ _ _ _ _ _); try reflexivity. cbn [ebind]. destruct (_ && _); reflexivity.
  Qed.
End W.
