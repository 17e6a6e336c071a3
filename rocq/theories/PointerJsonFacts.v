(** Facts for C99: pointers in struct fields are written in JSON as what they point to. *)
From Coq Require Import ZArith String List Bool Lia.
From Coq Require Import ZifyBool ZifyNat.
From Verif Require Import Base Prims PrimFacts Types Codec BinEnc BinDec Amino ValueInd Typing Registry SpecRegistry RegistryFacts Sane DecSafe SpecNorm EncFacts
  SpecStruct SkipFacts RoundTrip TopFacts ConcatFacts JsonText Json SpecArray ArrayFacts SpecPointer PointerFacts SpecTwin TwinFacts SpecPointerJson.
Import ListNotations.
Local Open Scope Z_scope.
Local Open Scope amino_scope.

Section Pointers.
  Variable env : tenv.
  Variable c : codec.
  Variable je : jenv.
  Hypothesis Hb : by_value je.
  Notation Enc k := (encode_json k env je c).

  Lemma override_addr t v ad ad' : marshal_override je t v ad = marshal_override je t v ad'.
  Proof.
    destruct t; try reflexivity. cbn [marshal_override]. destruct (je_marshal je id) as [[bv f]|] eqn:E; [|destruct v; reflexivity]. rewrite (Hb _ _ _ E). destruct v; reflexivity.
  Qed.

  (** What is written for a value without an address is written for it with an address too. *)
  Lemma elems_addr rec info o : (forall v b, rec info v false o = EOk b -> rec info v true o = EOk b) ->
    forall l b, json_elems rec info l false o = EOk b -> json_elems rec info l true o = EOk b.
  Proof.
    intros H. induction l as [|v l IH]; intros b E; cbn [json_elems] in *; [exact E|]. einv E. einv E. rewrite (H _ _ E0). cbn [ebind]. rewrite (IH _ E1). exact E.
  Qed.
  Lemma fields_addr rec l : (forall info v o b, rec info v false o = EOk b -> rec info v true o = EOk b) ->
    forall fs b, json_fields env c rec fs l false = EOk b -> json_fields env c rec fs l true = EOk b.
  Proof.
    intros H. induction fs as [|f fs IH]; intros b E; cbn [json_fields] in *; [exact E|]. einv E. rewrite E0. cbn [ebind].
    destruct (fo_omitempty (fi_opts f) && is_empty env (fi_type f) _); [apply IH; exact E|]. einv E. einv E. rewrite (H _ _ _ _ E1). cbn [ebind]. rewrite (IH _ E2). exact E.
  Qed.
  Lemma encode_addr k : forall info v o b, Enc k info v false o = EOk b -> Enc k info v true o = EOk b.
  Proof.
    induction k as [|k IH]; intros info v o b H; [discriminate H|].
    assert (Sw : forall w ad, json_switch env je c (Enc k) info w ad o = EOk b -> json_switch env je c (Enc k) info w true o = EOk b).
    { intros w [] X; [exact X|].
      assert (St : forall ci, json_struct env c (Enc k) ci w false = EOk b -> json_struct env c (Enc k) ci w true = EOk b).
      { intros ci Y. unfold json_struct in *. destruct w; try exact Y. einv Y. rewrite (fields_addr _ _ IH _ _ E). exact Y. }
      assert (Li : forall e, json_list env c (Enc k) e w false o = EOk b -> json_list env c (Enc k) e w true o = EOk b).
      { intros e Y. unfold json_list in *. destruct w; try exact Y; try (match goal with x : option (list value) |- _ => destruct x; try exact Y end); cbn [orb] in *;
          (destruct (is_uint8 env e); [destruct (gotype_eqb e (TPrim PUint8)); [exact Y|discriminate Y]|]; einv Y; rewrite E; cbn [ebind]; einv Y);
          first [rewrite E0; exact Y|rewrite (elems_addr _ _ _ (fun v b => IH a v o b) _ _ E0); exact Y]. }
      unfold json_switch in *. destruct (resolve env (ti_type info)); try exact X; try (apply Li; exact X); (destruct info as [ci|ii]; [apply St; exact X|exact X]). }
    cbn [encode_json] in *. destruct v; try discriminate H;
      (destruct (deref_pointers _) as [w []]; [exact H|]; cbn [orb] in *;
       match type of H with context [marshal_override je ?t w ?ad] => rewrite (override_addr t w true ad) end;
       destruct (marshal_override _ _ _ _); [exact H|]; destruct info as [[ty fs m u r]|ii]; [destruct m; [exact H|]|]; eapply Sw; exact H).
  Qed.
  Lemma encode_pointer k info v o b : Enc k info v false o = EOk b -> Enc k info (VPtr (Some v)) false o = EOk b.
  Proof.
    intros H. apply encode_addr in H. destruct k as [|k]; [discriminate H|]. cbn [encode_json] in *.
    change (deref_pointers (VPtr (Some v))) with (deref_pointers v). destruct v; try discriminate H; exact H.
  Qed.

  (** ** Fields *)
  Lemma parse_options fs : never_omitted fs -> forall i n r, parse_fields env fs i n = EOk r -> Forall (fun f => fo_omitempty (fi_opts f) = false) r.
  Proof.
    induction fs as [|f fs IH]; intros N i n r P; cbn [parse_fields] in P; [injection P as <-; constructor|].
    assert (N' : never_omitted fs) by (intros g o X; apply (N g o); right; exact X).
    destruct (negb (sf_exported f)); [exact (IH N' _ _ _ P)|]. destruct (parse_field_options f) as [o|] eqn:E; [|exact (IH N' _ _ _ P)].
    einv P. cbv zeta in P. einv P. einv P. injection P as <-. constructor; [|exact (IH N' _ _ _ E2)]. cbn. exact (N f o (or_introl eq_refl) E).
  Qed.
  Lemma fields_pointed_json k L L' fs fs' : Forall2 (field_pointed env L L') fs fs' -> Forall (fun f => fo_omitempty (fi_opts f) = false) fs ->
    forall b, json_fields env c (Enc k) fs L false = EOk b -> json_fields env c (Enc k) fs' L' false = EOk b.
  Proof.
    induction 1 as [|f f' fs fs' H1 H IH]; intros N b E; cbn [json_fields] in *; [exact E|]. inversion N as [|? ? N1 N2]; subst. destruct H1 as (_ & O & Q). cbv zeta in Q. rewrite O, N1 in *. cbn [andb] in *.
    einv E. einv E. einv E. 
    assert (G : get_type_info env c (fi_type f') = EOk a) by (destruct Q as [[T _]|(T & _)]; rewrite T; exact E0). rewrite G. cbn [ebind].
    assert (X : Enc k a (nth (fi_index f') L' VInvalid) false (fi_opts f) = EOk a0) by (destruct Q as [[_ V]|(_ & V & _)]; rewrite V; [exact E1|apply encode_pointer; exact E1]).
    rewrite X. cbn [ebind]. rewrite (IH N2 _ E2). exact E.
  Qed.

  (** ** Texts *)
  Hypothesis Hs : sane_codec env c.
  Hypothesis Wc : wf_codec env c.
  Theorem json_pointed k t t' fs fs' l l' b : resolve env t = RStruct fs -> resolve env t' = RStruct fs' ->
    has_method env t = false -> has_method env t' = false -> json_plain je t = true -> json_plain je t' = true -> registered c t = None -> registered c t' = None ->
    pointed env fs l fs' l' -> never_omitted fs ->
    marshal_json k env je c t (VStruct l) = EOk b -> marshal_json k env je c t' (VStruct l') = EOk b.
  Proof.
    intros R R' M M' J J' U U' Sw N H. unfold marshal_json in *. rewrite (twin_info env c Hs Wc t fs R M U) in H. rewrite (twin_info env c Hs Wc t' fs' R' M' U').
    pose proof (parse_pointed env l l' _ _ _ _ Sw 0%nat 0%nat 0%nat eq_refl eq_refl) as P. unfold parsed_alike in P.
    destruct (parse_fields env fs 0 0) as [r| | |] eqn:Ep; try discriminate H. destruct (parse_fields env fs' 0 0) as [r'| | |]; try contradiction P. cbn [ebind] in *.
    assert (X : exists id, t = TNamed id) by (destruct t; try discriminate R; eauto). assert (X' : exists id, t' = TNamed id) by (destruct t'; try discriminate R'; eauto).
    destruct X as [id E], X' as [id' E']. subst t t'. cbn [json_plain] in J, J'. destruct k as [|k]; [discriminate H|]. cbn [encode_json deref_pointers val_is_ptr orb ti_type ci_type marshal_override] in *.
    destruct (je_marshal je id); [discriminate J|]. destruct (je_marshal je id'); [discriminate J'|]. unfold json_switch in *. cbn [ti_type ci_type] in *. rewrite R in H. rewrite R'.
    unfold json_struct in *. cbn [ci_fields] in *. einv H. einv E. rewrite (fields_pointed_json k l l' r r' P (parse_options fs N _ _ _ Ep) _ E0). cbn [ebind]. injection E as <-. exact H.
  Qed.
End Pointers.
