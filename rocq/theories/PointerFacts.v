(** Facts for C96: pointers are written as what they point to. *)
From Coq Require Import ZArith String List Bool Lia.
From Coq Require Import ZifyBool ZifyNat.
From Verif Require Import Base Prims PrimFacts Types Codec BinEnc BinDec Amino ValueInd Typing Registry SpecRegistry RegistryFacts Sane DecSafe SpecNorm EncFacts
  SpecStruct SkipFacts RoundTrip TopFacts ConcatFacts SpecArray ArrayFacts SpecPointer.
Import ListNotations.
Local Open Scope Z_scope.
Local Open Scope amino_scope.

Section Pointers.
  Variable env : tenv.
  Variable c : codec.
  Hypothesis Hs : sane_codec env c.
  Notation Enc k := (encode_reflect k env c).

  Lemma no_method_info t ci : deref_type t = t -> has_method env t = false -> get_type_info env c t = EOk (TIConc ci) -> ci_type ci = t /\ ci_marshal ci = None /\ parse_struct_info env t = EOk (ci_fields ci).
  Proof.
    intros D M G. pose proof (gti_minfo _ _ _ _ Hs G) as [T Ok]. rewrite D in T. pose proof (minfo_method _ _ _ T Ok) as Mm.
    destruct (info_ok_parts _ _ Ok) as (_ & Hp & _). rewrite T in Hp. splits; auto.
    destruct (ci_marshal ci); [|reflexivity]. destruct Mm as (id & f & -> & Y & _). unfold has_method in M. rewrite Y in M. discriminate M.
  Qed.
  Lemma parse_member fs : forall i n r j f, parse_fields env fs i n = EOk r -> nth_error fs j = Some f -> visible f = true -> (forall o, unpacked_list env (sf_type f) o = EOk false) -> exists fi, In fi r /\ fi_index fi = (i + j)%nat /\ fi_type fi = sf_type f /\ fi_unpacked fi = false.
  Proof.
    induction fs as [|g fs IH]; intros i n r j f P N V U; [destruct j; discriminate N|]. cbn [parse_fields] in P. destruct j as [|j].
    - injection N as <-. unfold visible in V. destruct (sf_exported g); cbn [negb andb] in *; [|discriminate V].
      unfold parse_field_options in P. destruct (beqb (sf_json g) (bs "-")); [discriminate V|]. rewrite U in P. cbn [ebind] in P. cbv zeta in P. einv P. einv P. injection P as <-.
      eexists. split; [left; reflexivity|]. cbn. splits; auto with arith.
    - cbn [nth_error] in N. replace (i + S j)%nat with (S i + j)%nat by lia. destruct (negb (sf_exported g)); [eapply IH; eauto|]. destruct (parse_field_options g); [|eapply IH; eauto].
      einv P. cbv zeta in P. einv P. einv P. injection P as <-. destruct (IH _ _ _ _ _ E1 N V U) as (fi & A & B). exists fi. split; [right; exact A|exact B].
  Qed.
  Lemma encode_fields_member rec fs l fi bz : encode_fields env c rec fs l = EOk bz -> In fi fs -> exists b, encode_field env c rec fi (nth (fi_index fi) l VInvalid) = EOk b /\ (b <> [] -> bz <> []).
  Proof.
    revert bz. induction fs as [|g fs IH]; intros bz H X; [contradiction X|]. cbn [encode_fields] in H. einv H. einv H. injection H as <-. destruct X as [->|X].
    - exists a. split; [exact E|]. destruct a; [contradiction|]. discriminate.
    - destruct (IH _ E0 X) as (b & A & B). exists b. split; [exact A|]. intros N. specialize (B N). destruct a; [exact B|discriminate].
  Qed.

  Lemma solid_facts t v : solid env t v -> deref_type t = t /\ is_iface t = false /\ is_default_value v = (v, false) /\ has_method env t = false /\ (forall o, unpacked_list env t o = EOk false) /\
    match resolve env t with RPrim p => prim_has p v = true /\ forall o, blank_prim p o v = false | RStruct _ => True | _ => False end.
  Proof.
    intros S. assert (H : has_method env t = false /\ is_default_value v = (v, false) /\
      match resolve env t with RPrim p => prim_has p v = true /\ forall o, blank_prim p o v = false | RStruct _ => True | _ => False end).
    { destruct S as [t z N T M|t z N T M|t T M|t x s T M|t fs l i f v R M]; cbn [has_type] in *; try (destruct (resolve env t) as [p| | | | | | | | | |]; try discriminate T; split; [exact M|];
        split; [unfold is_default_value; cbn [deref_pointers]; try (rewrite (proj2 (Z.eqb_neq _ _) N)); reflexivity|]; split; [exact T|]; intros o; destruct p; try discriminate T;
        cbn; try (rewrite (proj2 (Z.eqb_neq _ _) N)); reflexivity).
      rewrite R. auto. }
    destruct H as (M & D & R). splits; auto; try (destruct t; try contradiction R; reflexivity).
    intros o. unfold unpacked_list. destruct (resolve env t); try contradiction R; reflexivity.
  Qed.
  Lemma solid_written t v : solid env t v -> forall k info o b, get_type_info env c t = EOk info -> Enc k info v o false = EOk b -> b <> [] /\ b <> [0].
  Proof.
    intros S. induction S as [t z N T M|t z N T M|t T M|t x s T M|t fs l i f v R M Nf Nl V S IH]; intros k info o b G H.
    1-4: match type of T with has_type _ _ ?v = true => assert (S : solid env t v) by (constructor; assumption) end; destruct (solid_facts _ _ S) as (D & I & _ & _ & _ & R);
      destruct k as [|k]; [discriminate H|]; destruct info as [ci|ii]; [|pose proof (gti_minfo _ _ _ _ Hs G) as [_ X]; rewrite D in X; subst t; discriminate I];
      destruct (no_method_info _ _ D M G) as (Tc & Mc & _); destruct ci as [ty fs m u r]; cbn in Tc, Mc; subst ty m; cbn [encode_reflect] in H; unfold encode_switch in H; cbn [ti_type ci_type] in H;
      destruct (resolve env t) as [p| | | | | | | | |fs'|]; try contradiction R; [|cbn [encode_struct ci_type] in H; unfold encode_struct in H; cbn [ci_type] in H; destruct (resolve env t); discriminate H];
      destruct R as [R1 R2]; split; intros ->;
      (match type of H with encode_prim _ _ _ = EOk ?b => pose proof (prim_lead p o _ b R1 ltac:(cbn; lia) H) as [L1 L2] end); try (apply L1; reflexivity); rewrite R2 in L2; destruct L2 as [L2 _]; apply L2; reflexivity.
    destruct (solid_facts _ _ S) as (Df & _ & Dv & _ & Uf & _).
    assert (D : deref_type t = t) by (destruct t; try reflexivity; discriminate R). assert (If : is_iface t = false) by (destruct t; try reflexivity; discriminate R).
    destruct k as [|k]; [discriminate H|]. destruct info as [ci|ii]; [|pose proof (gti_minfo _ _ _ _ Hs G) as [_ X]; rewrite D in X; subst t; discriminate If].
    destruct (no_method_info _ _ D M G) as (Tc & Mc & P). destruct ci as [ty fi m u r]; cbn in Tc, Mc, P; subst ty m. cbn [encode_reflect] in H. unfold encode_switch in H. cbn [ti_type ci_type] in H.
    rewrite R in H. unfold encode_struct in H. cbn [ci_type ci_fields] in H. rewrite R in H. einv H. injection H as <-. unfold finish.
    unfold parse_struct_info in P. rewrite R in P. destruct (parse_member _ _ _ _ _ _ P Nf V Uf) as (f0 & If0 & Ix & Tf & Un). cbn in Ix.
    destruct (encode_fields_member _ _ _ _ _ E If0) as (b & Eb & Nb). rewrite Ix, (nth_error_nth _ _ _ Nl) in Eb. unfold encode_field in Eb. rewrite Tf, Un, Dv in Eb. einv Eb.
    cbn [andb] in Eb. unfold write_field in Eb. einv Eb. einv Eb. einv Eb. destruct (IH _ _ _ _ E0 E3) as [B1 B2].
    assert (b <> []) as B by (destruct (negb _ && beqb a3 [0]) eqn:Q; [apply andb_prop in Q; destruct Q as [_ Q]; apply beqb_eq in Q; contradiction|]; injection Eb as <-; destruct a2; [exact B1|discriminate]).
    specialize (Nb B). split; [apply byte_slice_nonnil|]. intros X. pose proof (byte_slice_len a) as L. rewrite X in L. destruct a; [contradiction|cbn in L; lia].
  Qed.

  (** ** Fields *)
  Definition field_pointed (L L' : list value) (f f' : finfo) : Prop :=
    fi_unpacked f' = fi_unpacked f /\ fi_opts f' = fi_opts f /\
    let v := nth (fi_index f) L VInvalid in let v' := nth (fi_index f') L' VInvalid in
    (fi_type f' = fi_type f /\ v' = v \/
     fi_type f' = TPtr (fi_type f) /\ v' = VPtr (Some v) /\ fi_unpacked f = false /\ (solid env (fi_type f) v \/ fo_write_empty (fi_opts f) = true \/ val_is_ptr v = true)).
  Lemma field_pointed_same k L L' f f' : field_pointed L L' f f' ->
    encode_field env c (Enc k) f (nth (fi_index f) L VInvalid) = encode_field env c (Enc k) f' (nth (fi_index f') L' VInvalid).
  Proof.
    intros (U & O & [[T V]|(T & V & Un & Q)]); unfold encode_field; rewrite U, O, T, V; [reflexivity|].
    change (get_type_info env c (TPtr (fi_type f))) with (get_type_info env c (fi_type f)).
    change (is_default_value (VPtr (Some (nth (fi_index f) L VInvalid)))) with (is_default_value (nth (fi_index f) L VInvalid)). rewrite Un.
    destruct (get_type_info env c (fi_type f)) as [info| | |] eqn:G; cbn [ebind]; try reflexivity.
    change (val_is_ptr (VPtr (Some (nth (fi_index f) L VInvalid)))) with true.
    destruct Q as [S|[W|P]]; [|rewrite W; reflexivity|rewrite P; reflexivity].
    destruct (solid_facts _ _ S) as (_ & _ & D & _). rewrite D. cbn [andb]. unfold write_field.
    destruct (type_to_typ3 _ _ _); cbn [ebind]; try reflexivity. destruct (encode_field_key _ _); cbn [ebind]; try reflexivity.
    destruct (Enc k info _ _ _) as [b| | |] eqn:E; cbn [ebind]; try reflexivity. destruct (solid_written _ _ S _ _ _ _ G E) as [_ B].
    assert (beqb b [0] = false) as -> by (destruct (beqb b [0]) eqn:X; [apply beqb_eq in X; contradiction|reflexivity]). rewrite !andb_false_r. reflexivity.
  Qed.
  Lemma fields_pointed_same k L L' fs fs' : Forall2 (field_pointed L L') fs fs' -> encode_fields env c (Enc k) fs L = encode_fields env c (Enc k) fs' L'.
  Proof.
    induction 1 as [|f f' fs fs' H1 H IH]; cbn [encode_fields]; [reflexivity|]. rewrite (field_pointed_same _ _ _ _ _ H1), IH. reflexivity.
  Qed.
  Definition parsed_alike (L L' : list value) (x y : eres (list finfo)) : Prop :=
    match x, y with EOk r, EOk r' => Forall2 (field_pointed L L') r r' | EOk _, _ | _, EOk _ => False | _, _ => x = y end.
  Lemma parse_pointed L L' fs l fs' l' : pointed env fs l fs' l' -> forall i i' n, skipn i L = l -> skipn i' L' = l' -> parsed_alike L L' (parse_fields env fs i n) (parse_fields env fs' i' n).
  Proof.
    intros S. induction S as [|f f' v fs l fs' l' T X J B A N S IH|f f' v fs l fs' l' T X J B A N Y Q S IH|f v fs l fs' l' V S IH|f' v' fs l fs' l' V S IH]; intros i i' n E E'.
    - constructor.
    - cbn [parse_fields]. destruct (skipn_cons _ _ _ _ VInvalid E) as [N1 N2]. destruct (skipn_cons _ _ _ _ VInvalid E') as [N1' N2']. rewrite X, T.
      assert (parse_field_options f' = parse_field_options f) as -> by (unfold parse_field_options; rewrite J, B, A, N; reflexivity).
      destruct (negb (sf_exported f)); [apply IH; assumption|]. destruct (parse_field_options f) as [o|]; [|apply IH; assumption].
      destruct (unpacked_list env (sf_type f) o); cbn [ebind]; try reflexivity. cbv zeta. destruct (check_unsafe _ _ _); cbn [ebind]; try reflexivity.
      specialize (IH (Datatypes.S i) (Datatypes.S i') (Datatypes.S n) N2 N2'). unfold parsed_alike in *.
      destruct (parse_fields env fs _ _), (parse_fields env fs' _ _); cbn [ebind]; try contradiction; try discriminate IH; try exact IH.
      constructor; [|exact IH]. unfold field_pointed. cbn. splits; try reflexivity. left. split; [reflexivity|]. congruence.
    - cbn [parse_fields]. destruct (skipn_cons _ _ _ _ VInvalid E) as [N1 N2]. destruct (skipn_cons _ _ _ _ VInvalid E') as [N1' N2']. rewrite X, T.
      assert (parse_field_options f' = parse_field_options f) as -> by (unfold parse_field_options; rewrite J, B, A, N; reflexivity).
      destruct (negb (sf_exported f)); [apply IH; assumption|]. destruct (parse_field_options f) as [o|] eqn:Po; [|apply IH; assumption].
      change (unpacked_list env (TPtr (sf_type f)) o) with (@EOk bool false).
      assert (U : unpacked_list env (sf_type f) o = EOk false) by (unfold unpacked_list; unfold pointable in Y; destruct (resolve env (sf_type f)); try discriminate Y; reflexivity).
      rewrite U. cbn [ebind]. cbv zeta. unfold check_unsafe at 1. unfold check_unsafe at 1. cbn [resolve].
      assert (Cu : (if fo_unsafe (set_num (u32 (Z.of_nat n + 1)) o) then EOk tt else match resolve env (sf_type f) with
        RPrim PFloat32 | RPrim PFloat64 => EPanic "floating point types are unsafe for go-amino"%string | _ => EOk tt end) = EOk tt).
      { destruct (fo_unsafe _); [reflexivity|]. unfold pointable in Y. destruct (resolve env (sf_type f)) as [p| | | | | | | | | |]; try reflexivity. destruct p; try reflexivity; discriminate Y. }
      rewrite Cu. assert (Cu' : (if fo_unsafe (set_num (u32 (Z.of_nat n + 1)) o) then EOk tt else EOk tt) = EOk tt) by (destruct (fo_unsafe _); reflexivity). rewrite Cu'. cbn [ebind].
      specialize (IH (Datatypes.S i) (Datatypes.S i') (Datatypes.S n) N2 N2'). unfold parsed_alike in *.
      destruct (parse_fields env fs _ _), (parse_fields env fs' _ _); cbn [ebind]; try contradiction; try discriminate IH; try exact IH.
      constructor; [|exact IH]. unfold field_pointed. cbn [fi_unpacked fi_opts fi_index fi_type]. splits; try reflexivity. right. rewrite N1, N1'. splits; try reflexivity.
      destruct Q as [Q|[Q|Q]]; auto. right. left. unfold parse_field_options in Po. destruct (beqb (sf_json f) (bs "-")); [discriminate Po|]. injection Po as <-. rewrite Q. reflexivity.
    - cbn [parse_fields]. destruct (skipn_cons _ _ _ _ VInvalid E) as [N1 N2]. rewrite (hidden_none f V). apply IH; assumption.
    - cbn [parse_fields]. destruct (skipn_cons _ _ _ _ VInvalid E') as [N1 N2]. rewrite (hidden_none f' V). apply IH; assumption.
  Qed.

  (** ** Messages *)
  Theorem struct_pointed k t t' fs fs' l l' : wf_codec env c -> resolve env t = RStruct fs -> resolve env t' = RStruct fs' ->
    has_method env t = false -> has_method env t' = false -> registered c t = None -> registered c t' = None -> pointed env fs l fs' l' ->
    okeq (marshal_bare k env c t (VStruct l)) (marshal_bare k env c t' (VStruct l')).
  Proof.
    intros Wc R R' M M' U U' Sw. assert (D : deref_type t = t) by (destruct t; try reflexivity; discriminate R). assert (D' : deref_type t' = t') by (destruct t'; try reflexivity; discriminate R').
    assert (If : is_iface t = false) by (destruct t; try reflexivity; discriminate R). assert (If' : is_iface t' = false) by (destruct t'; try reflexivity; discriminate R').
    assert (Hb : is_struct_or_repeated_struct env t = true) by (unfold is_struct_or_repeated_struct, is_struct; rewrite R; reflexivity).
    assert (Hb' : is_struct_or_repeated_struct env t' = true) by (unfold is_struct_or_repeated_struct, is_struct; rewrite R'; reflexivity).
    destruct k as [|k].
    { assert (F : forall t l z, deref_type t = t -> is_struct_or_repeated_struct env t = true -> marshal_bare 0 env c t (VStruct l) <> EOk z).
      { intros ty l0 z Dt Ht X. unfold marshal_bare in X. cbn [deref_pointers] in X. einv X. rewrite Dt in E. rewrite (minfo_type _ _ _ _ (gti_minfo _ _ _ _ Hs E)), Dt, Ht in X.
        cbn [negb encode_reflect ebind] in X. discriminate X. }
      apply okeq_fail; intros z; apply F; assumption. }
    rewrite (marshal_plain env c Hs k t), (marshal_plain env c Hs k t') by (try assumption; exact I).
    pose proof (parse_pointed l l' _ _ _ _ Sw 0%nat 0%nat 0%nat eq_refl eq_refl) as P. unfold parsed_alike in P.
    assert (F : forall t fs l, resolve env t = RStruct fs -> deref_type t = t -> (forall r, parse_fields env fs 0 0 <> EOk r) ->
      forall z, (elet info := get_type_info env c t in encode_switch env c (Enc k) (S k) info (VStruct l) (set_num 1 no_opts) true) <> EOk z).
    { intros ty fs0 l0 Rt Dt Np z X. einv X. pose proof (gti_minfo _ _ _ _ Hs E) as Hi. unfold encode_switch in X. rewrite (minfo_type _ _ _ _ Hi), Dt, Rt in X.
      destruct a as [ci|ii]; [|discriminate X]. destruct Hi as [Hct Hok]. destruct (info_ok_parts _ _ Hok) as (_ & Hp & _). rewrite Hct, Dt in Hp. unfold parse_struct_info in Hp. rewrite Rt in Hp.
      exact (Np _ Hp). }
    destruct (parse_fields env fs 0 0) as [r| | |] eqn:Ep, (parse_fields env fs' 0 0) as [r'| | |] eqn:Ep'; try contradiction;
      try (apply okeq_fail; intros z; [eapply F; eauto|eapply F; eauto]; intros q; congruence).
    destruct (plain_info env c Hs t r D If M) as (ci & G & Tc & Mc & Fc); [unfold parse_struct_info; rewrite R; exact Ep|].
    destruct (plain_info env c Hs t' r' D' If' M') as (ci' & G' & Tc' & Mc' & Fc'); [unfold parse_struct_info; rewrite R'; exact Ep'|].
    rewrite G, G'. cbn [ebind]. unfold encode_switch. cbn [ti_type]. rewrite Tc, Tc', R, R'. unfold encode_struct. rewrite Tc, Tc', R, R', Fc, Fc'.
    rewrite (fields_pointed_same k _ _ _ _ P). apply okeq_refl.
  Qed.
End Pointers.
