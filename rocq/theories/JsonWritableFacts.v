(** The values MarshalJSON accepts, and when it returns. *)
From Coq Require Import ZArith String List Bool Lia.
From Coq Require Import ZifyBool ZifyNat.
From Verif Require Import Base Prims SpecWire PrimFacts PrimProps Types Codec BinEnc BinDec Amino FuelFacts DecFacts
  ValueInd Typing Registry SpecRegistry RegistryFacts Sane DecSafe SpecNorm EncFacts RoundTrip TopFacts TopProps SpecSupported SupportedFacts SpecWritable WritableFacts SturdyFacts
  JsonText Json SpecJson JsonTextFacts JsonFacts JsonProps SpecJsonWritable.
Import ListNotations.
Local Open Scope Z_scope.
Local Open Scope amino_scope.

Section W.
  Variable env : tenv.
  Variable je : jenv.
  Variable c : codec.
  Hypothesis We : wf_env env.
  Hypothesis Wc : wf_codec env c.
  Hypothesis Hs : sane_codec env c.
  Hypothesis Hm : marshal_typed env.
  Notation E k := (encode_json k env je c).
  Notation W k := (jwritable k env je c).

  Definition jw_ok (enc : tinfo -> value -> bool -> fopts -> eres bytes) (wr : gotype -> bool -> bool -> value -> bool) : Prop :=
    forall info t v ad o, minfo env c info t -> has_type env t v = true -> okb (enc info v ad o) = wr t ad (fo_unsafe o) v.

  Section Step.
    Variable enc : tinfo -> value -> bool -> fopts -> eres bytes.
    Variable wr : gotype -> bool -> bool -> value -> bool.
    Hypothesis IH : jw_ok enc wr.

    Lemma elems_okb e einfo ad o : minfo env c einfo e -> forall l, forallb (has_type env e) l = true ->
      okb (json_elems enc einfo l ad o) = forallb (wr e ad (fo_unsafe o)) l.
    Proof.
      intros Hi. induction l as [|v l IHl]; intros Ht; [reflexivity|]. cbn [forallb json_elems] in *. apply andb_true_iff in Ht. destruct Ht as [H1 H2].
      rewrite okb_bind, <- (IH einfo e v ad o Hi H1), <- (IHl H2). destruct (enc einfo v ad o); try reflexivity. rewrite okb_bind. destruct (json_elems _ _ _ _ _); reflexivity.
    Qed.
    Lemma list_okb e v ad o l : match v with VSlice (Some l') | VArr l' => l' = l | _ => False end -> forallb (has_type env e) l = true ->
      okb (json_list env c enc e v ad o) = jwritable_list env c wr ad (match v with VSlice _ => true | _ => ad end) (fo_unsafe o) e l.
    Proof.
      intros Hv Ht. unfold jwritable_list, json_list.
      assert (G : forall ad', okb (elet einfo := get_type_info env c e in elet bs := json_elems enc einfo l ad' o in EOk (91 :: join bs ++ [93])) =
        known env c e && forallb (wr e ad' (fo_unsafe o)) l).
      { intros ad'. unfold known. rewrite okb_bind. destruct (get_type_info env c e) as [einfo| | |] eqn:Eg; try reflexivity. cbn [andb].
        rewrite <- (elems_okb e einfo ad' o (gti_minfo _ _ _ _ Hs Eg) l Ht), okb_bind. destruct (json_elems _ _ _ _ _); reflexivity. }
      destruct v as [| | | | | |l'|[l'|]| | | | | | |]; try contradiction; subst l'; (destruct (is_uint8 env e); [destruct (ad || _); reflexivity|apply G]).
    Qed.
    Lemma fields_okb ad : forall fs i num fis l lp, parse_fields env fs i num = EOk fis -> length lp = i ->
      forall2b (fun f w => has_type env (sf_type f) w) fs l = true ->
      okb (json_fields env c enc fis (lp ++ l) ad) = jwritable_fields env c wr ad fs l.
    Proof.
      induction fs as [|f fs IHf]; intros i num fis l lp Hp Hlp Ht.
      - cbn [parse_fields] in Hp. apply EOk_inj in Hp. subst fis. destruct l; [reflexivity|discriminate].
      - destruct l as [|v l]; [discriminate|]. cbn [forall2b] in Ht. apply andb_true_iff in Ht. destruct Ht as [Ht1 Ht2].
        apply parse_step in Hp. pose proof (field_opts_json (Z.of_nat num + 1) f) as Fo.
        assert (Llp : length (lp ++ [v]) = S i) by (rewrite app_length; cbn [length]; lia).
        assert (Ea : lp ++ v :: l = (lp ++ [v]) ++ l) by (rewrite <- app_assoc; reflexivity).
        cbn [jwritable_fields]. destruct (json_opts f) as [jo|] eqn:Ejo; rewrite Fo in Hp.
        + destruct Hp as (fi & rest & -> & Hix & Hty & _ & Hopt & _ & Hp).
          assert (Hoe : fo_omitempty (fi_opts fi) = fo_omitempty jo) by (rewrite Hopt; reflexivity).
          assert (Hou : fo_unsafe (fi_opts fi) = fo_unsafe jo) by (rewrite Hopt; reflexivity).
          cbn [json_fields]. rewrite Hix, Hty, Hoe. replace (nth i (lp ++ v :: l) VInvalid) with v by (rewrite <- Hlp; symmetry; apply nth_mid). rewrite okb_bind. unfold known.
          destruct (get_type_info env c (sf_type f)) as [info| | |] eqn:Eg; try reflexivity. cbn [andb]. rewrite (is_empty_omitted env) by exact Ht1.
          pose proof (IHf _ _ _ _ _ Hp Llp Ht2) as R. rewrite <- Ea in R.
          destruct (fo_omitempty jo && omitted env (sf_type f) v); [cbn [orb andb]; exact R|]. cbn [orb].
          rewrite <- R, <- Hou, <- (IH info (sf_type f) v ad (fi_opts fi) (gti_minfo _ _ _ _ Hs Eg) Ht1), okb_bind. destruct (enc info v ad (fi_opts fi)); try reflexivity.
          rewrite okb_bind. cbn [okb andb]. destruct (json_fields _ _ _ _ _ _); reflexivity.
        + cbn [andb]. rewrite Ea. eapply IHf; eassumption.
    Qed.
    Lemma members_okb kt vt o : resolve env kt = RPrim PString -> forall l,
      forallb (fun p => has_type env kt (fst p) && has_type env vt (snd p)) l = true ->
      okb (json_members env c enc vt l o) = forallb (fun p => jwritable_member env c wr (fo_unsafe o) vt (snd p)) l.
    Proof.
      intros Ek. induction l as [|[x v] l IHl]; intros Ht; [reflexivity|]. cbn [forallb fst snd json_members] in *. rewrite !andb_true_iff in Ht. destruct Ht as [[Hx Hv] Hl].
      rewrite (has_type_prim env kt PString x Ek) in Hx. destruct x; try discriminate Hx. rewrite okb_bind, deref_pointers_under, <- (IHl Hl). unfold jwritable_member, known.
      destruct (under v) as [w|] eqn:U.
      - rewrite gti_deref. destruct (get_type_info env c vt) as [info| | |] eqn:Eg; try reflexivity. cbn [ebind andb].
        rewrite <- (IH info (deref_type vt) w (val_is_ptr v) o (minfo_deref _ _ _ _ (gti_minfo _ _ _ _ Hs Eg)) (under_typed env We _ _ _ Hv U)).
        destruct (enc info w (val_is_ptr v) o); try reflexivity. rewrite okb_bind. cbn [okb andb]. destruct (json_members _ _ _ _ _ _); reflexivity.
      - rewrite okb_bind. cbn [andb]. destruct (json_members _ _ _ _ _ _); reflexivity.
    Qed.
    Lemma interface_okb ct cv o i : has_type env (TIface i) (VIface (Some (ct, cv))) = true ->
      okb (json_interface env c enc (VIface (Some (ct, cv))) o) =
      match registered c (deref_type ct), under cv with Some _, Some w => wr (deref_type ct) (val_is_ptr cv) (fo_unsafe o) w | _, _ => false end.
    Proof.
      intros Ht. cbn [has_type resolve] in Ht. apply andb_true_iff in Ht. destruct Ht as [_ Ht].
      assert (Htc : has_type env ct cv = true) by (destruct ct; try exact Ht; discriminate). clear Ht.
      unfold json_interface. rewrite deref_pointers_under. destruct (under cv) as [w|] eqn:U; [|destruct (registered _ _); reflexivity].
      pose proof (under_typed env We _ _ _ Htc U) as Hw. pose proof (registered_iff env c Wc Hs (deref_type ct)) as R. rewrite deref_idem in R.
      assert (G : okb (elet info := get_type_info env c (deref_type ct) in
                match info with
                | TIConc ci => match ci_reg ci with
                               | None => EErr "cannot encode unregistered concrete type"%string
                               | Some r => elet b := enc info w (val_is_ptr cv) o in EOk (wrap_name (ri_name r) b)
                               end
                | TIFace _ => EErr "cannot encode unregistered concrete type"%string
                end) = match registered c (deref_type ct) with Some _ => wr (deref_type ct) (val_is_ptr cv) (fo_unsafe o) w | None => false end).
      { rewrite okb_bind. destruct (get_type_info env c (deref_type ct)) as [[ci|ii']| | |] eqn:Eg.
        - pose proof (gti_minfo _ _ _ _ Hs Eg) as Hi'. destruct (ci_reg ci) as [r|].
          + destruct (registered _ _); [|exfalso; exact (proj1 R ltac:(discriminate) eq_refl)]. rewrite okb_bind.
            rewrite <- (IH (TIConc ci) (deref_type ct) w (val_is_ptr cv) o Hi' Hw). destruct (enc _ _ _ _); reflexivity.
          + destruct (registered _ _); [exfalso; exact (proj2 R ltac:(discriminate) eq_refl)|reflexivity].
        - destruct (registered _ _); [exfalso; exact (proj2 R ltac:(discriminate))|reflexivity].
        - destruct (registered _ _); [exfalso; exact (proj2 R ltac:(discriminate))|reflexivity].
        - destruct (registered _ _); [exfalso; exact (proj2 R ltac:(discriminate))|reflexivity].
        - destruct (registered _ _); [exfalso; exact (proj2 R ltac:(discriminate))|reflexivity]. }
      destruct w; try exact G.
      destruct (registered c (deref_type ct)) eqn:Rg; [|reflexivity]. exfalso. destruct R as [_ R]. specialize (R ltac:(discriminate)).
      destruct (get_type_info env c (deref_type ct)) as [[ci|ii']| | |] eqn:Eg; try contradiction.
      pose proof (gti_minfo _ _ _ _ Hs Eg) as [Hty Hio]. rewrite deref_idem in Hty. pose proof (conc_nonptr env ci Hio) as N. rewrite Hty in N.
      cbn [has_type] in Hw. destruct (resolve env (deref_type ct)) as [[]| | | | | | | |i'| |] eqn:Er; try discriminate Hw.
      apply (resolve_iface _ _ _ We) in Er. rewrite Er in N. exact N.
    Qed.
    Lemma switch_okb info b w ad o : minfo env c info b -> deref_type b = b -> b <> TTime -> has_type env b w = true ->
      okb (json_switch env je c enc info w ad o) = jwritable_plain env je c wr b ad (fo_unsafe o) w.
    Proof.
      intros Hi Hb Nt Ht. pose proof (minfo_type _ _ _ _ Hi) as Ety. rewrite Hb in Ety. unfold json_switch, jwritable_plain. rewrite Ety.
      destruct (resolve env b) as [p| |n e|e|e|kt vt| | |i|fs|] eqn:Er; try reflexivity.
      - rewrite (has_type_prim env b p w Er) in Ht. destruct p, w; try discriminate Ht; try reflexivity; cbn [json_prim]; destruct (fo_unsafe o); try reflexivity; destruct (je_float _ _ _); reflexivity.
      - exfalso. apply Nt. apply (resolve_time env b We Er).
      - destruct w as [| | | | | |l| | | | | | | |]; cbn [has_type] in Ht; rewrite Er in Ht; try discriminate Ht. apply andb_true_iff in Ht. destruct Ht as [_ Ht].
        apply (list_okb e (VArr l) ad o l eq_refl Ht).
      - destruct w as [| | | | | | |[l|]| | | | | | |]; cbn [has_type] in Ht; rewrite Er in Ht; try discriminate Ht; [|reflexivity].
        apply (list_okb e (VSlice (Some l)) ad o l eq_refl Ht).
      - destruct w as [| | | | | | | | | | |[l|]| | |]; cbn [has_type] in Ht; rewrite Er in Ht; try discriminate Ht; unfold json_map.
        + destruct (resolve env kt) as [[]| | | | | | | | | |] eqn:Ek; try reflexivity. cbn [andb]. rewrite <- (members_okb kt vt o Ek l Ht), okb_bind. destruct (json_members _ _ _ _ _ _); reflexivity.
        + destruct (resolve env kt) as [[]| | | | | | | | | |]; reflexivity.
      - apply (resolve_iface _ _ _ We) in Er. clear Ety. subst b. destruct w as [| | | | | | | | | |[[ct cv]|]| | | |]; try discriminate Ht; [|reflexivity].
        eapply interface_okb. exact Ht.
      - destruct info as [ci|ii]; [|exfalso; destruct Hi as [_ Hi]; rewrite Hb in Hi; rewrite Hi in Er; discriminate Er].
        unfold json_struct. destruct w; cbn [has_type] in Ht; rewrite Er in Ht; try discriminate Ht; try (destruct p; discriminate Ht).
        destruct Hi as [Hty Hio]. destruct (info_ok_parts _ _ Hio) as (_ & Hpf & _). rewrite Hty, Hb in Hpf. unfold parse_struct_info in Hpf. rewrite Er in Hpf.
        rewrite <- (fields_okb ad fs 0%nat 0%nat (ci_fields ci) l [] Hpf eq_refl Ht), okb_bind. cbn [app]. destruct (json_fields _ _ _ _ _ _); reflexivity.
    Qed.
  End Step.

  Lemma given_okb {A} (r : eres A) : okb r = given r.
  Proof. reflexivity. Qed.
  Theorem encode_okb : forall k, jw_ok (E k) (W k).
  Proof.
    induction k as [|k IH]; intros info t v ad o Hi Ht; [reflexivity|]. cbn [jwritable].
    destruct (under v) as [w|] eqn:U; [|rewrite enc_nil by exact U; reflexivity].
    pose proof (under_typed env We _ _ _ Ht U) as Hw. rewrite (enc_step env je c k info v w ad o (typed_valid env _ _ Ht) U). unfold enc_base.
    pose proof (minfo_type _ _ _ _ Hi) as Ety. rewrite Ety. pose proof (minfo_deref _ _ _ _ Hi) as Hid.
    set (ad' := ad || val_is_ptr v).
    assert (P : deref_type t <> TTime -> okb (json_switch env je c (E k) info w ad' o) = jwritable_plain env je c (W k) (deref_type t) ad' (fo_unsafe o) w).
    { intros N. apply switch_okb; try assumption. apply deref_idem. }
    assert (R : forall id, deref_type t = TNamed id ->
      okb match info with
          | TIConc {| ci_type := t'; ci_marshal := Some r |} => elet rv := to_repr env t' w in elet rinfo := get_type_info env c r in E k rinfo rv false o
          | _ => json_switch env je c (E k) info w ad' o
          end =
      match te_marshal env id with
      | Some (MOk r f) => known env c r && match f w with EOk y => W k r false (fo_unsafe o) y | _ => false end
      | _ => jwritable_plain env je c (W k) (deref_type t) ad' (fo_unsafe o) w
      end).
    { intros id Hd. destruct info as [ci|ii]; [|destruct Hi as [_ Hi]; exfalso; revert Hi; rewrite Hd; discriminate].
      destruct Hi as [Hty Hio]. pose proof (minfo_method _ _ _ Hty Hio) as M. destruct ci as [ct cf cm cu cr]. cbn [ci_type ci_marshal] in *. destruct cm as [r|].
      + destruct M as (id' & f & E1 & E2 & Er). rewrite Hd in E1. injection E1 as <-. rewrite E2. rewrite Hty, Hd. unfold to_repr. rewrite E2, okb_bind. unfold known.
        destruct (f w) as [y| | |] eqn:Ef; try (rewrite andb_false_r; reflexivity). rewrite okb_bind.
        destruct (get_type_info env c r) as [rinfo| | |] eqn:Eg; try reflexivity. cbn [andb]. apply IH; [apply gti_minfo; assumption|]. eapply Hm; [exact E2| |exact Ef]. rewrite <- Hd. exact Hw.
      + rewrite P by (rewrite Hd; discriminate). rewrite (M id Hd). reflexivity. }
    assert (Q : match deref_type t with TNamed _ | TTime => False | _ => True end ->
      okb match info with
          | TIConc {| ci_type := t'; ci_marshal := Some r |} => elet rv := to_repr env t' w in elet rinfo := get_type_info env c r in E k rinfo rv false o
          | _ => json_switch env je c (E k) info w ad' o
          end = jwritable_plain env je c (W k) (deref_type t) ad' (fo_unsafe o) w).
    { intros N. rewrite <- P by (destruct (deref_type t); congruence || contradiction). destruct info as [ci|ii]; [|reflexivity].
      destruct Hi as [Hty Hio]. pose proof (minfo_method _ _ _ Hty Hio) as M. destruct ci as [ct cf cm cu cr]. cbn [ci_type ci_marshal] in *. destruct cm as [r|]; [|reflexivity].
      destruct M as (id' & f & E1 & _). rewrite E1 in N. contradiction. }
    unfold marshal_override. destruct (deref_type t) as [p| |an ae|se|pe|mk me| | |ifc|id] eqn:D; try (apply Q; exact I).
    - destruct w; cbn [has_type resolve] in Hw; try discriminate Hw. reflexivity.
    - cbv zeta. destruct (je_marshal je id) as [[bv f]|] eqn:Ej.
      + fold ad'. destruct (bv || ad'); [destruct w; reflexivity|]. rewrite <- (R id eq_refl). destruct w; reflexivity.
      + rewrite <- (R id eq_refl). destruct w; reflexivity.
  Qed.
  Theorem marshal_okb k t v : has_type env t v = true -> okb (marshal_json k env je c t v) = jwritable_top k env je c t v.
  Proof.
    intros Ht. unfold marshal_json, jwritable_top, known. rewrite okb_bind. destruct (get_type_info env c t) as [info| | |] eqn:Eg; try reflexivity. cbn [andb].
    pose proof (encode_okb k info t v false no_opts (gti_minfo _ _ _ _ Hs Eg) Ht) as H. cbn [fo_unsafe no_opts] in H. rewrite <- H, okb_bind. destruct (E k info v false no_opts); try reflexivity.
    destruct info as [[? ? ? ? [|]]|]; reflexivity.
  Qed.
End W.

(** ** More fuel changes nothing else *)
Section Mono.
  Variable env : tenv.
  Variable je : jenv.
  Variable c : codec.
  Section Rec.
    Variables rec rec' : tinfo -> value -> bool -> fopts -> eres bytes.
    Hypothesis H : forall i v ad o, ele (rec i v ad o) (rec' i v ad o).
    Lemma ele_jelems einfo ad o : forall l, ele (json_elems rec einfo l ad o) (json_elems rec' einfo l ad o).
    Proof. induction l as [|v l IH]; [apply ele_refl|]. cbn [json_elems]. apply ele_bind; [apply H|]. intros b. apply ele_bind; [apply IH|]. intros; apply ele_refl. Qed.
    Lemma ele_jfields ad l : forall fs, ele (json_fields env c rec fs l ad) (json_fields env c rec' fs l ad).
    Proof.
      induction fs as [|f fs IH]; [apply ele_refl|]. cbn [json_fields]. apply ele_bind; [apply ele_refl|]. intros i. destruct (_ && _); [apply IH|].
      apply ele_bind; [apply H|]. intros b. apply ele_bind; [apply IH|]. intros; apply ele_refl.
    Qed.
    Lemma ele_jmembers vt o : forall l, ele (json_members env c rec vt l o) (json_members env c rec' vt l o).
    Proof.
      induction l as [|[x v] l IH]; [apply ele_refl|]. cbn [json_members]. destruct x; try apply ele_refl. apply ele_bind.
      - destruct (deref_pointers v) as [w [|]]; [apply ele_refl|]. apply ele_bind; [apply ele_refl|]. intros. apply H.
      - intros b. apply ele_bind; [apply IH|]. intros; apply ele_refl.
    Qed.
    Lemma ele_jswitch info v ad o : ele (json_switch env je c rec info v ad o) (json_switch env je c rec' info v ad o).
    Proof.
      assert (L : forall e, ele (json_list env c rec e v ad o) (json_list env c rec' e v ad o)).
      { intros e. unfold json_list. destruct v as [| | | | | |l|[l|]| | | | | | |]; try apply ele_refl; (destruct (is_uint8 env e); [apply ele_refl|]);
          (apply ele_bind; [apply ele_refl|]; intros einfo; apply ele_bind; [apply ele_jelems|]; intros; apply ele_refl). }
      unfold json_switch. destruct (resolve env (ti_type info)) as [p| |n e|e|e|kt vt| | |i|fs|]; try apply ele_refl; try apply L.
      - destruct info; [|apply ele_refl]. unfold json_struct. destruct v; try apply ele_refl. apply ele_bind; [apply ele_jfields|]. intros; apply ele_refl.
      - unfold json_map. destruct (resolve env kt) as [[]| | | | | | | | | |]; try apply ele_refl. destruct v as [| | | | | | | | | | |[l|]| | |]; try apply ele_refl.
        apply ele_bind; [apply ele_jmembers|]. intros; apply ele_refl.
      - unfold json_interface. destruct v as [| | | | | | | | | |[[ct cv]|]| | | |]; try apply ele_refl. destruct (deref_pointers cv) as [w [|]]; [apply ele_refl|].
        destruct w; try apply ele_refl; (apply ele_bind; [apply ele_refl|]; intros [ci|]; [|apply ele_refl]; destruct (ci_reg ci); [|apply ele_refl];
          apply ele_bind; [apply H|]; intros; apply ele_refl).
      - destruct info; [|apply ele_refl]. unfold json_struct. destruct v; try apply ele_refl. apply ele_bind; [apply ele_jfields|]. intros; apply ele_refl.
    Qed.
  End Rec.
  Lemma ele_json : forall k k', (k <= k')%nat -> forall info v ad o, ele (encode_json k env je c info v ad o) (encode_json k' env je c info v ad o).
  Proof.
    induction k as [|k IH]; intros k' Hk info v ad o; [left; reflexivity|]. destruct k' as [|k']; [lia|]. assert (Hk' : (k <= k')%nat) by lia. cbn [encode_json].
    destruct v; try apply ele_refl; (destruct (deref_pointers _) as [w [|]]; [apply ele_refl|]; cbv zeta; destruct (marshal_override _ _ _ _); [apply ele_refl|];
      destruct info as [[ct cf [r|] cu cr]|ii]; [|apply ele_jswitch; exact (IH k' Hk')|apply ele_jswitch; exact (IH k' Hk')];
      apply ele_bind; [apply ele_refl|]; intros rv; apply ele_bind; [apply ele_refl|]; intros; apply IH; exact Hk').
  Qed.
  Lemma ele_marshal k k' t v : (k <= k')%nat -> ele (marshal_json k env je c t v) (marshal_json k' env je c t v).
  Proof.
    intros Hk. unfold marshal_json. apply ele_bind; [apply ele_refl|]. intros info. apply ele_bind; [apply ele_json; exact Hk|]. intros; apply ele_refl.
  Qed.
End Mono.

Fixpoint jheight (v : value) : nat :=
  match v with
  | VArr l | VStruct l | VSlice (Some l) => S (maxl (map jheight l))
  | VMap (Some l) => S (maxl (map (fun p => jheight (snd p)) l))
  | VPtr (Some w) => jheight w
  | VIface (Some (_, w)) => S (jheight w)
  | _ => 0%nat
  end.
Lemma maxl_in {A} (f : A -> nat) l v : In v l -> (f v <= maxl (map f l))%nat.
Proof. induction l as [|x l IH]; cbn; [contradiction|]. intros [<-|H]; [lia|]. specialize (IH H). unfold maxl in IH. lia. Qed.
Lemma jheight_under v : forall w, under v = Some w -> (jheight w <= jheight v)%nat.
Proof. induction v using value_ind'; intros w; cbn [under]; try (intros X; inversion X; subst; cbn; lia); try discriminate. intros X. cbn [jheight]. auto. Qed.

(** ** MarshalJSON returns *)
Section S.
  Variable env : tenv.
  Variable je : jenv.
  Variable c : codec.
  Hypothesis We : wf_env env.
  Hypothesis Hs : sane_codec env c.
  Hypothesis Hm : marshal_typed env.
  Variable mem : gotype -> bool.
  Variable rank : gotype -> nat.
  Hypothesis Hst : jsturdy env je mem rank.
  Notation E k := (encode_json k env je c).
  Notation firm := (jfirm mem).

  Lemma jfirm_under v : forall w, under v = Some w -> firm v = true -> firm w = true.
  Proof. clear. induction v using value_ind'; intros w; cbn [under]; try (intros X; inversion X; subst; auto); try discriminate. Qed.
  Lemma calm_fin {A} (r : eres A) : calm r -> fin r = true.
  Proof. destruct r; cbn; auto; contradiction. Qed.
  Lemma jgti_fin t : mem (deref_type t) = true -> fin (get_type_info env c t) = true.
  Proof.
    intros H. destruct (proj2 Hst _ H) as (Pa & Me & _). unfold shaped in Me. unfold get_type_info.
    assert (G : is_iface (deref_type t) = false -> fin (new_type_info env (deref_type t)) = true).
    { intros Ni. assert (Np : is_ptr (deref_type t) = false) by apply deref_is_ptr. unfold new_type_info, parsable in *.
      assert (X : fin (elet fs := parse_struct_info env (deref_type t) in elet m := marshal_repr env (deref_type t) in elet u := unmarshal_repr env (deref_type t) in
         EOk {| ci_type := deref_type t; ci_fields := fs; ci_marshal := m; ci_unmarshal := u; ci_reg := None |}) = true).
      { apply fin_bind; [|intros fs _; apply fin_bind; [|intros m _; apply fin_bind; [|reflexivity]]].
        - unfold parse_struct_info. destruct (resolve env (deref_type t)); try reflexivity. apply parse_fin, Pa.
        - unfold marshal_repr. destruct (deref_type t); try reflexivity. destruct Me as [Me _]. destruct (te_marshal env id) as [[|r f]|]; [contradiction| |reflexivity].
          destruct r; try discriminate Me; reflexivity.
        - unfold unmarshal_repr. destruct (deref_type t); try reflexivity. destruct Me as [_ Me]. destruct (te_unmarshal env id) as [[|r f]|]; [contradiction| |reflexivity].
          destruct r; try discriminate Me; reflexivity. }
      destruct (deref_type t); try discriminate; exact X. }
    destruct (deref_type t) eqn:Et; try (destruct (assoc _ _ _); [reflexivity|]; apply fin_bind; [apply G; reflexivity|reflexivity]).
    - destruct (find_iface _ _); reflexivity.
  Qed.
  Lemma jfin_more k k' info v ad o : (k <= k')%nat -> fin (E k info v ad o) = true -> fin (E k' info v ad o) = true.
  Proof. intros Hk H. destruct (ele_json env je c k k' Hk info v ad o) as [X|X]; [rewrite X in H; discriminate|rewrite <- X; exact H]. Qed.

  Lemma jelems_fin k einfo ad o l : (forall v, In v l -> fin (E k einfo v ad o) = true) -> fin (json_elems (E k) einfo l ad o) = true.
  Proof.
    induction l as [|v l IH]; intros H; [reflexivity|]. cbn [json_elems]. apply fin_bind; [apply H; left; reflexivity|].
    intros b _. apply fin_bind; [apply IH; intros; apply H; right; assumption|reflexivity].
  Qed.
  Lemma jmembers_fin k kt vt o l : resolve env kt = RPrim PString -> forallb (fun p => has_type env kt (fst p) && has_type env vt (snd p)) l = true -> mem (deref_type vt) = true ->
    (forall p w info, In p l -> under (snd p) = Some w -> get_type_info env c vt = EOk info -> fin (E k info w (val_is_ptr (snd p)) o) = true) ->
    fin (json_members env c (E k) vt l o) = true.
  Proof.
    intros Ek Ht Hmem. induction l as [|[x v] l IH]; intros H; [reflexivity|]. cbn [json_members]. cbn [forallb fst snd] in Ht. rewrite !andb_true_iff in Ht. destruct Ht as [[Hx _] Ht].
    rewrite (has_type_prim env kt PString x Ek) in Hx. destruct x; try discriminate Hx. rewrite deref_pointers_under. apply fin_bind.
    - destruct (under v) as [w|] eqn:U; [|reflexivity]. rewrite gti_deref. apply fin_bind; [apply jgti_fin; exact Hmem|]. intros info Hi.
      apply (H (VStr s, v) w info); [left; reflexivity|exact U|exact Hi].
    - intros b _. apply fin_bind; [|reflexivity]. apply IH; [exact Ht|]. intros p w info Hp. apply H. right. exact Hp.
  Qed.
  Lemma jfields_fin k ad l fs : (forall f, In f fs -> mem (deref_type (fi_type f)) = true /\
      forall info, get_type_info env c (fi_type f) = EOk info -> fin (E k info (nth (fi_index f) l VInvalid) ad (fi_opts f)) = true) ->
    fin (json_fields env c (E k) fs l ad) = true.
  Proof.
    induction fs as [|f fs IH]; intros H; [reflexivity|]. cbn [json_fields]. destruct (H f (or_introl eq_refl)) as [H1 H2].
    assert (R : fin (json_fields env c (E k) fs l ad) = true) by (apply IH; intros g Hg; apply H; right; exact Hg).
    apply fin_bind; [apply jgti_fin; exact H1|]. intros info Hi. destruct (_ && _); [exact R|]. apply fin_bind; [apply H2; exact Hi|].
    intros b _. apply fin_bind; [exact R|reflexivity].
  Qed.

  Definition jfin_at (n h : nat) : Prop := forall info t v ad o, minfo env c info t -> mem (deref_type t) = true -> (rank (deref_type t) <= n)%nat ->
    has_type env t v = true -> firm v = true -> (jheight v < h)%nat -> exists k, fin (E k info v ad o) = true.
  Lemma jpart_inv n e : jsturdy_part mem rank n e = true -> mem (deref_type e) = true /\ (rank (deref_type e) <= n)%nat.
  Proof. unfold jsturdy_part. rewrite andb_true_iff, Nat.leb_le. auto. Qed.

  (** The fields of a struct, with their types and values. *)
  Lemma jparsed_in n : forall fs i num fis l lp, parse_fields env fs i num = EOk fis -> length lp = i -> forall2b (fun f w => has_type env (sf_type f) w) fs l = true ->
    forallb (jsturdy_field mem rank n) fs = true ->
    forall fi, In fi fis -> jsturdy_part mem rank n (fi_type fi) = true /\ In (nth (fi_index fi) (lp ++ l) VInvalid) l /\ has_type env (fi_type fi) (nth (fi_index fi) (lp ++ l) VInvalid) = true.
  Proof.
    induction fs as [|f fs IHf]; intros i num fis l lp Hp Hlp Ht Hf fi Hin.
    - cbn [parse_fields] in Hp. apply EOk_inj in Hp. subst fis. contradiction.
    - destruct l as [|v l]; [discriminate|]. cbn [forall2b forallb] in Ht, Hf. apply andb_true_iff in Ht, Hf. destruct Ht as [Ht1 Ht2], Hf as [Hf1 Hf2].
      apply parse_step in Hp. pose proof (field_opts_json (Z.of_nat num + 1) f) as Fo. unfold jsturdy_field in Hf1.
      assert (Llp : length (lp ++ [v]) = S i) by (rewrite app_length; cbn [length]; lia).
      assert (Ea : lp ++ v :: l = (lp ++ [v]) ++ l) by (rewrite <- app_assoc; reflexivity).
      assert (R : forall num' rest, parse_fields env fs (S i) num' = EOk rest -> In fi rest -> jsturdy_part mem rank n (fi_type fi) = true /\
         In (nth (fi_index fi) (lp ++ v :: l) VInvalid) (v :: l) /\ has_type env (fi_type fi) (nth (fi_index fi) (lp ++ v :: l) VInvalid) = true).
      { intros num' rest Hp' Hr. rewrite Ea. destruct (IHf _ _ _ _ _ Hp' Llp Ht2 Hf2 fi Hr) as (A & B & C). split; [exact A|]. split; [right; exact B|exact C]. }
      destruct (json_opts f) as [jo|] eqn:Ejo; rewrite Fo in Hp.
      + destruct Hp as (fi' & rest & -> & Hix & Hty & _ & _ & _ & Hp). destruct Hin as [<-|Hin]; [|eapply R; eassumption].
        rewrite Hix, Hty. replace (nth i (lp ++ v :: l) VInvalid) with v by (rewrite <- Hlp; symmetry; apply nth_mid). split; [exact Hf1|]. split; [left; reflexivity|exact Ht1].
      + eapply R; eassumption.
  Qed.

  Lemma jswitch_fin n h info b w ad o : jfin_at n h -> minfo env c info b -> deref_type b = b -> b <> TTime -> jsturdy_plain env mem rank b -> (rank b <= n)%nat ->
    has_type env b w = true -> firm w = true -> (jheight w < S h)%nat -> exists k, fin (json_switch env je c (E k) info w ad o) = true.
  Proof.
    intros IH Hi Hb Nt Hp Hrk Ht Hf Hh. pose proof (minfo_type _ _ _ _ Hi) as Ety. rewrite Hb in Ety. unfold json_switch. rewrite Ety. unfold jsturdy_plain in Hp.
    assert (L : forall e l, (if is_uint8 env e then gotype_eqb e (TPrim PUint8) else jsturdy_part mem rank (rank b) e) = true ->
      forallb (has_type env e) l = true -> forallb firm l = true -> (maxl (map jheight l) < h)%nat -> match w with VSlice (Some l') | VArr l' => l' = l | _ => False end ->
      exists k, fin (json_list env c (E k) e w ad o) = true).
    { intros e l He Hl Hfl Hhl Hw. unfold json_list. destruct (is_uint8 env e).
      { exists 0%nat. destruct w as [| | | | | |l'|[l'|]| | | | | | |]; try contradiction; rewrite He, orb_true_r; reflexivity. }
      apply jpart_inv in He. destruct He as [Hmem Hre]. rewrite forallb_forall in Hl, Hfl.
      assert (G : forall ad', exists k, fin (elet einfo := get_type_info env c e in elet bs := json_elems (E k) einfo l ad' o in EOk (91 :: join bs ++ [93])) = true).
      { intros ad'. pose proof (jgti_fin e Hmem) as Gf. destruct (get_type_info env c e) as [einfo| | |] eqn:Eg; try discriminate Gf; [|exists 0%nat; reflexivity].
        destruct (fuel_for (fun v k => fin (E k einfo v ad' o) = true) l) as [k Hk].
        - intros x Hx. apply (IH einfo e); [apply gti_minfo; assumption|exact Hmem|lia|apply Hl, Hx|apply Hfl, Hx|]. pose proof (maxl_in jheight l x Hx). lia.
        - intros x k k' Hk H. eapply jfin_more; eassumption.
        - exists k. cbn [ebind]. apply fin_bind; [apply jelems_fin; exact Hk|reflexivity]. }
      destruct w as [| | | | | |l'|[l'|]| | | | | | |]; try contradiction; subst l'; apply G. }
    destruct (resolve env b) as [p| |an e|e|e|kt vt| | |i|fs|] eqn:Er; try contradiction.
    - exists 0%nat. rewrite (has_type_prim env b p w Er) in Ht. destruct p, w; try discriminate Ht; try reflexivity; cbn [json_prim]; destruct (fo_unsafe o); try reflexivity; apply calm_fin, Hst.
    - destruct w as [| | | | | |l| | | | | | | |]; cbn [has_type] in Ht; rewrite Er in Ht; try discriminate Ht. apply andb_true_iff in Ht. destruct Ht as [_ Ht].
      apply (L e l); try assumption; try reflexivity. cbn [jheight] in Hh. lia.
    - destruct w as [| | | | | | |[l|]| | | | | | |]; cbn [has_type] in Ht; rewrite Er in Ht; try discriminate Ht; [|exists 0%nat; reflexivity].
      apply (L e l); try assumption; try reflexivity. cbn [jheight] in Hh. lia.
    - apply jpart_inv in Hp. destruct Hp as [Hmem Hrv]. unfold json_map. destruct (resolve env kt) as [[]| | | | | | | | | |] eqn:Ek; try (exists 0%nat; reflexivity).
      destruct w as [| | | | | | | | | | |[l|]| | |]; cbn [has_type] in Ht; rewrite Er in Ht; try discriminate Ht; [|exists 0%nat; reflexivity].
      pose proof (jgti_fin vt Hmem) as Gf. cbn [jfirm] in Hf. rewrite forallb_forall in Hf. cbn [jheight] in Hh.
      destruct (fuel_for (fun p k => forall w info, under (snd p) = Some w -> get_type_info env c vt = EOk info -> fin (E k info w (val_is_ptr (snd p)) o) = true) l) as [k Hk].
      + intros [x v] Hx. cbn [snd]. destruct (get_type_info env c vt) as [vi| | |] eqn:Eg; try (exists 0%nat; discriminate). destruct (under v) as [y|] eqn:U; [|exists 0%nat; discriminate].
        pose proof (proj1 (forallb_forall _ _) Ht _ Hx) as Hxt. cbn [fst snd] in Hxt. apply andb_true_iff in Hxt. destruct Hxt as [_ Hv]. specialize (Hf _ Hx). cbn [snd] in Hf.
        destruct (IH vi (deref_type vt) y (val_is_ptr v) o (minfo_deref _ _ _ _ (gti_minfo _ _ _ _ Hs Eg))) as [k Hk].
        * rewrite deref_idem. exact Hmem.
        * rewrite deref_idem. lia.
        * eapply under_typed; eassumption.
        * eapply jfirm_under; eassumption.
        * pose proof (jheight_under _ _ U). pose proof (maxl_in (fun p => jheight (snd p)) l _ Hx) as X. cbn [snd] in X. lia.
        * exists k. intros y' info' E1 E2. injection E1 as <-. apply EOk_inj in E2. subst info'. exact Hk.
      + intros x k k' Hk H y info' U' G'. eapply jfin_more; [exact Hk|]. apply H; assumption.
      + exists k. apply fin_bind; [|reflexivity]. eapply jmembers_fin; [exact Ek|exact Ht|exact Hmem|]. intros p y info' Hp. exact (Hk p Hp y info').
    - apply (resolve_iface _ _ _ We) in Er. clear Ety. subst b. destruct w as [| | | | | | | | | |[[ct cv]|]| | | |]; try discriminate Ht; [|exists 0%nat; reflexivity].
      cbn [has_type resolve] in Ht. apply andb_true_iff in Ht. destruct Ht as [Him Ht].
      assert (Htc : has_type env ct cv = true) by (destruct ct; try exact Ht; discriminate). clear Ht.
      cbn [jfirm] in Hf. rewrite !andb_true_iff in Hf. destruct Hf as [[[Hmem Hni] Hu] Hf]. unfold json_interface. rewrite deref_pointers_under.
      destruct (under cv) as [x|] eqn:U; [|discriminate]. pose proof (under_typed env We _ _ _ Htc U) as Hx.
      assert (Nx : match x with VIface _ => False | _ => True end).
      { destruct x; try exact I. cbn [has_type] in Hx. destruct (resolve env (deref_type ct)) as [[]| | | | | | | |i'| |] eqn:Er; try discriminate Hx.
        apply (resolve_iface _ _ _ We) in Er. rewrite Er in Hni. discriminate. }
      assert (G : exists k, fin (elet info := get_type_info env c (deref_type ct) in
                match info with
                | TIConc ci => match ci_reg ci with
                               | None => EErr "cannot encode unregistered concrete type"%string
                               | Some r => elet b := E k info x (val_is_ptr cv) o in EOk (wrap_name (ri_name r) b)
                               end
                | TIFace _ => EErr "cannot encode unregistered concrete type"%string
                end) = true).
      { pose proof (jgti_fin (deref_type ct)) as Gf. rewrite deref_idem in Gf. specialize (Gf Hmem).
        destruct (get_type_info env c (deref_type ct)) as [[ci|]| | |] eqn:Eg; try discriminate Gf; cbn [ebind]; [|exists 0%nat; reflexivity|exists 0%nat; reflexivity].
        destruct (ci_reg ci); [|exists 0%nat; reflexivity].
        destruct (IH (TIConc ci) (deref_type ct) x (val_is_ptr cv) o (gti_minfo _ _ _ _ Hs Eg)) as [k Hk]; try assumption.
        * rewrite deref_idem. exact Hmem.
        * rewrite deref_idem. specialize (Hp ct Him Hmem). lia.
        * eapply jfirm_under; eassumption.
        * pose proof (jheight_under _ _ U). cbn [jheight] in Hh. lia.
        * exists k. apply fin_bind; [exact Hk|reflexivity]. }
      destruct G as [k G]. exists k. destruct x; try contradiction; exact G.
    - destruct info as [ci|ii]; [|exfalso; destruct Hi as [_ Hi]; rewrite Hb in Hi; rewrite Hi in Er; discriminate Er].
      unfold json_struct. destruct w as [| | | | | | | | |l| | | | |]; cbn [has_type] in Ht; rewrite Er in Ht; try discriminate Ht.
      destruct Hi as [Hty Hio]. destruct (info_ok_parts _ _ Hio) as (_ & Hpf & _). rewrite Hty, Hb in Hpf. unfold parse_struct_info in Hpf. rewrite Er in Hpf.
      pose proof (jparsed_in (rank b) fs 0%nat 0%nat (ci_fields ci) l [] Hpf eq_refl Ht Hp) as F. cbn [app] in F.
      cbn [jfirm] in Hf. rewrite forallb_forall in Hf. cbn [jheight] in Hh.
      destruct (fuel_for (fun f k => forall info, get_type_info env c (fi_type f) = EOk info -> fin (E k info (nth (fi_index f) l VInvalid) ad (fi_opts f)) = true) (ci_fields ci)) as [k Hk].
      + intros f Hfi. destruct (F f Hfi) as (A & B & C). apply jpart_inv in A. destruct A as [A1 A2].
        destruct (get_type_info env c (fi_type f)) as [fi| | |] eqn:Eg; try (exists 0%nat; discriminate).
        destruct (IH fi (fi_type f) (nth (fi_index f) l VInvalid) ad (fi_opts f) (gti_minfo _ _ _ _ Hs Eg)) as [k Hk]; try assumption; try lia.
        * apply Hf, B.
        * pose proof (maxl_in jheight l _ B). lia.
        * exists k. intros info' X. apply EOk_inj in X. subst info'. exact Hk.
      + intros f k k' Hk H info G'. eapply jfin_more; [exact Hk|]. apply H; assumption.
      + exists k. apply fin_bind; [|reflexivity]. apply jfields_fin. intros f Hfi. destruct (F f Hfi) as (A & _). apply jpart_inv in A. split; [apply A|]. exact (Hk f Hfi).
  Qed.

  Theorem jfin_all : forall n h, jfin_at n h.
  Proof.
    induction n as [n IHn] using lt_wf_ind. induction h as [|h IH]; intros info t v ad o Hi Hmem Hrk Ht Hf Hh; [lia|].
    destruct (under v) as [w|] eqn:U; [|exists 1%nat; rewrite enc_nil by exact U; reflexivity].
    pose proof (under_typed env We _ _ _ Ht U) as Hw. pose proof (jfirm_under _ _ U Hf) as Hfw. pose proof (jheight_under _ _ U) as Hhw.
    assert (G : exists k, fin (enc_base env je c k info w (ad || val_is_ptr v) o) = true).
    2:{ destruct G as [k G]. exists (S k). rewrite (enc_step env je c k info v w ad o (typed_valid env _ _ Ht) U). exact G. }
    unfold enc_base. set (ad' := ad || val_is_ptr v). rewrite (minfo_type _ _ _ _ Hi). destruct (proj2 Hst _ Hmem) as (Pa & Sh & Ok).
    assert (P : deref_type t <> TTime -> jsturdy_plain env mem rank (deref_type t) -> exists k, fin (json_switch env je c (E k) info w ad' o) = true).
    { intros Nt Hp. apply (jswitch_fin n h info (deref_type t) w ad' o IH (minfo_deref _ _ _ _ Hi) (deref_idem t) Nt Hp Hrk Hw Hfw). lia. }
    assert (Q : match deref_type t with TNamed id => te_marshal env id = None | TTime => False | _ => True end -> jsturdy_plain env mem rank (deref_type t) ->
      exists k, fin match info with
          | TIConc {| ci_type := t'; ci_marshal := Some r |} => elet rv := to_repr env t' w in elet rinfo := get_type_info env c r in E k rinfo rv false o
          | _ => json_switch env je c (E k) info w ad' o
          end = true).
    { intros N Hp. destruct P as [k Hk]; [intros X; rewrite X in N; exact N|exact Hp|]. exists k. destruct info as [ci|ii]; [|exact Hk].
      destruct Hi as [Hty Hio]. pose proof (minfo_method _ _ _ Hty Hio) as M. destruct ci as [ct cf cm cu cr]. cbn [ci_type ci_marshal] in *. destruct cm as [r|]; [|exact Hk].
      destruct M as (id' & f & E1 & E2 & _). rewrite E1 in N. congruence. }
    unfold marshal_override. destruct (deref_type t) as [p| |an ae|se|pe|mk me| | |ifc|id] eqn:D; try (apply Q; [exact I|exact Ok]).
    - exists 0%nat. destruct w; cbn [has_type resolve] in Hw; try discriminate Hw. apply calm_fin, Ok.
    - destruct Ok as [Oj Or].
      assert (R : match te_marshal env id with
            | None => jsturdy_plain env mem rank (TNamed id)
            | Some (MOk r f) => mem r = true /\ (rank r < rank (TNamed id))%nat /\
                forall v, has_type env (TNamed id) v = true -> calm (f v) /\ forall w, f v = EOk w -> firm w = true
            | Some (MBad _) => False
            end -> exists k, fin match info with
          | TIConc {| ci_type := t'; ci_marshal := Some r |} => elet rv := to_repr env t' w in elet rinfo := get_type_info env c r in E k rinfo rv false o
          | _ => json_switch env je c (E k) info w ad' o
          end = true).
      { clear Or. intros Or. destruct (te_marshal env id) as [[m|r f]|] eqn:Em; [contradiction| |apply Q; [reflexivity|exact Or]].
        destruct Or as (Hmr & Hrr & Hcm). destruct (Hcm w Hw) as [Cf Ff]. cbn [shaped] in Sh. rewrite Em in Sh. destruct Sh as [Nr _].
        destruct info as [ci|ii]; [|destruct Hi as [_ Hi]; exfalso; revert Hi; rewrite D; discriminate].
        destruct Hi as [Hty Hio]. pose proof (minfo_method _ _ _ Hty Hio) as M. destruct ci as [ct cf cm cu cr]. cbn [ci_type ci_marshal] in *.
        destruct cm as [r'|]; [|rewrite (M id D) in Em; discriminate]. destruct M as (id' & f' & E1 & E2 & Er). rewrite D in E1. injection E1 as <-. rewrite Em in E2. injection E2 as <- <-.
        rewrite Hty, D. unfold to_repr. rewrite Em. destruct (f w) as [y| | |] eqn:Ef; try contradiction; cbn [ebind]; [|exists 0%nat; reflexivity].
        pose proof (jgti_fin r) as Gf. rewrite Er in Gf. specialize (Gf Hmr). destruct (get_type_info env c r) as [rinfo| | |] eqn:Eg; try discriminate Gf; cbn [ebind]; [|exists 0%nat; reflexivity].
        apply (IHn (rank r) ltac:(lia) (S (jheight y)) rinfo r y false o (gti_minfo _ _ _ _ Hs Eg)); rewrite ?Er; try assumption; try lia; [|apply Ff; reflexivity].
        eapply Hm; [exact Em|exact Hw|exact Ef]. }
      destruct (je_marshal je id) as [[bv f]|] eqn:Ej.
      + destruct (bv || ad') eqn:Eb.
        * exists 0%nat. destruct w; apply calm_fin, Oj; exact Hw.
        * destruct bv; [discriminate|]. destruct (R Or) as [k Hk]. exists k. destruct w; exact Hk.
      + destruct (R Or) as [k Hk]. exists k. destruct w; exact Hk.
  Qed.
  Theorem jmarshal_fin t v : mem (deref_type t) = true -> has_type env t v = true -> firm v = true -> exists k, fin (marshal_json k env je c t v) = true.
  Proof.
    intros Hmem Ht Hf. unfold marshal_json. pose proof (jgti_fin t Hmem) as Gf. destruct (get_type_info env c t) as [info| | |] eqn:Eg; try discriminate Gf; [|exists 0%nat; reflexivity].
    destruct (jfin_all (rank (deref_type t)) (S (jheight v)) info t v false no_opts (gti_minfo _ _ _ _ Hs Eg) Hmem (le_n _) Ht Hf (le_n _)) as [k Hk].
    exists k. cbn [ebind]. apply fin_bind; [exact Hk|]. intros b _. destruct info as [[? ? ? ? [|]]|]; reflexivity.
  Qed.
End S.
