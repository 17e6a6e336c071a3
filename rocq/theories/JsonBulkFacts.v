(** The length of JSON text. *)
From Coq Require Import ZArith String List Bool Lia.
From Coq Require Import ZifyBool ZifyNat.
From Verif Require Import Base Prims SpecWire PrimFacts PrimProps Types Codec BinEnc BinDec Amino FuelFacts DecFacts
  ValueInd Typing Registry SpecRegistry RegistryFacts Sane DecSafe SpecNorm EncFacts JsonText Json JsonFacts SpecBulk BulkFacts.
Import ListNotations.
Local Open Scope Z_scope.
Local Open Scope amino_scope.

Lemma dec_digits_length : forall k z acc, (length (dec_digits k z acc) <= k + length acc)%nat.
Proof.
  induction k as [|k IH]; intros z acc; cbn [dec_digits]; [lia|]. destruct (z <? 10); cbn [length]; [lia|].
  specialize (IH (z / 10) (48 + z mod 10 :: acc)). cbn [length] in IH. lia.
Qed.
Lemma dec_length z : (length (dec z) <= 1 + Z.to_nat (Z.log2 z))%nat.
Proof. unfold dec. etransitivity; [apply dec_digits_length|]. cbn [length]. lia. Qed.
Lemma itoa_length z : (length (itoa z) <= 2 + Z.to_nat (Z.log2 (Z.abs z)))%nat.
Proof.
  unfold itoa. destruct (Z.ltb_spec z 0); cbn [length].
  - rewrite Z.abs_neq by lia. pose proof (dec_length (- z)). lia.
  - rewrite Z.abs_eq by lia. pose proof (dec_length z). lia.
Qed.
Lemma esc_length b : (1 <= length (esc_ascii b) <= 6)%nat.
Proof. unfold esc_ascii. repeat (destruct (_ || _) || destruct (_ =? _)); cbn [length]; lia. Qed.
Lemma rune_length s p n : decode_rune s = Some (p, n) -> (1 <= n <= 4)%nat.
Proof.
  unfold decode_rune. destruct s as [|b0 r]; [discriminate|].
  destruct (b0 <? 128); [intros H; injection H; lia|].
  destruct (_ && _); [destruct r as [|b1 ?]; [discriminate|]; destruct (cont b1); [|discriminate]; intros H; injection H; lia|].
  destruct (_ && _); [destruct r as [|b1 [|b2 ?]]; try discriminate; destruct (_ && _); [|discriminate]; intros H; injection H; lia|].
  destruct (_ && _); [destruct r as [|b1 [|b2 [|b3 ?]]]; try discriminate; destruct (_ && _); [|discriminate]; intros H; injection H; lia|].
  discriminate.
Qed.
Lemma quote_body_length : forall k s, (length (quote_body k s) <= 6 * length s)%nat.
Proof.
  induction k as [|k IH]; intros s; [cbn; lia|]. destruct s as [|b r]; [cbn; lia|]. cbn [quote_body].
  destruct (b <? 128).
  - rewrite app_length. pose proof (esc_length b). specialize (IH r). cbn [length]. lia.
  - destruct (decode_rune (b :: r)) as [[p n]|] eqn:E.
    + apply rune_length in E. rewrite app_length. specialize (IH (skipn n (b :: r))). rewrite skipn_length in IH.
      match goal with |- (length ?x + _ <= _)%nat => assert (X : (length x <= 6)%nat) end.
      { destruct (_ || _); [cbn; lia|]. rewrite firstn_length. lia. }
      cbn [length] in *. lia.
    + rewrite app_length. specialize (IH r). cbn [length]. lia.
Qed.
Lemma quote_length s : (length (quote s) <= 2 + 6 * length s)%nat.
Proof. unfold quote. cbn [length]. rewrite app_length. pose proof (quote_body_length (length s) s). cbn [length]. lia. Qed.
Lemma b64_length : forall n s, (length s <= n)%nat -> (length (b64_encode s) <= 4 * length s)%nat.
Proof.
  induction n as [|n IH]; intros s H; destruct s as [|a [|b [|x r]]]; cbn [b64_encode length] in *; try lia. specialize (IH r ltac:(lia)). lia.
Qed.

Definition texts (l : list bytes) : nat := list_sum (map (fun m => S (length m)) l).
Lemma join_length l : (length (join l) <= texts l)%nat.
Proof.
  unfold texts. induction l as [|b l IH]; [cbn; lia|]. destruct l as [|b' l]; cbn [join map list_sum fold_right] in *; [lia|].
  rewrite app_length. cbn [length]. lia.
Qed.
Lemma texts_cons b l : texts (b :: l) = (S (length b) + texts l)%nat.
Proof. reflexivity. Qed.

Section JBulk.
  Variable env : tenv.
  Hypothesis We : wf_env env.
  Variable je : jenv.
  Variable c : codec.
  Hypothesis Hs : sane_codec env c.
  Variable m n : nat.
  Hypothesis Hn : short_names env c n.
  Hypothesis Hg : json_short env je m n.
  Notation jb := (jbulk m n).

  Definition jwell (info : tinfo) : Prop :=
    match info with TIConc ci => info_ok env ci /\ (forall r, ci_reg ci = Some r -> (length (ri_name r) <= n)%nat) | TIFace _ => True end.
  Lemma gti_jwell t info : get_type_info env c t = EOk info -> jwell info.
  Proof.
    intros H. destruct (gti_well env c Hs _ _ H) as [W Te]. destruct info as [ci|ii]; [|exact I]. split; [exact W|]. intros r Hr.
    unfold get_type_info in H. cbv zeta in H.
    assert (G : match assoc gotype_eqb (deref_type t) (cd_types c) with
      | Some ci => EOk (TIConc ci) | None => ebind (new_type_info env (deref_type t)) (fun ci => EOk (TIConc ci)) end = EOk (TIConc ci)).
    { destruct (deref_type t); try exact H. destruct (find_iface _ _); discriminate H. }
    clear H. destruct (assoc gotype_eqb (deref_type t) (cd_types c)) as [ci'|] eqn:A.
    - apply EOk_inj in G. injection G as ->. destruct Hn as [_ Hr2]. 
      assert (X : exists t', In (t', ci) (cd_types c)).
      { clear - A. induction (cd_types c) as [|[t' x] m IHm]; [discriminate|]. cbn [assoc] in A. destruct (gotype_eqb _ t').
        - injection A as ->. exists t'. left. reflexivity.
        - destruct (IHm A) as [t2 X]. exists t2. right. exact X. }
      destruct X as [t' X]. eapply Hr2; [exact X|exact Hr].
    - einv G. apply EOk_inj in G. injection G as ->. pose proof (new_type_info_spec _ _ _ E) as (_ & _ & X). congruence.
  Qed.

  Lemma jb_under v w : under v = Some w -> jb w = jb v.
  Proof. induction v using value_ind'; cbn [under jbulk]; intros U; try (injection U as <-; reflexivity); try discriminate; auto. Qed.
  Lemma jb_nil v : under v = None -> jb v = 4%nat.
  Proof. induction v using value_ind'; cbn [under jbulk]; intros U; try discriminate; auto. Qed.
  Lemma jb_two v : (2 <= jb v)%nat.
  Proof. induction v using value_ind'; cbn [jbulk]; lia. Qed.
  Lemma wrap_length name b : length (wrap_name name b) = (20 + length name + length b)%nat.
  Proof. unfold wrap_name. rewrite !app_length. cbn [bs length list_ascii_of_string map String.list_ascii_of_string]. change (length (bs "}")) with 1%nat.
    change (length (bs "{""type"":""")) with 9%nat. change (length (bs """,""value"":")) with 10%nat. lia. Qed.

  Section Step.
    Variable rec : tinfo -> value -> bool -> fopts -> eres bytes.
    Hypothesis IH : forall info v ad o bz, jwell info -> rec info v ad o = EOk bz -> (length bz <= jb v)%nat.
    Hypothesis Hinv : forall info ad o bz, rec info VInvalid ad o <> EOk bz.

    Lemma jelems_short einfo ad o : jwell einfo -> forall l bs, json_elems rec einfo l ad o = EOk bs ->
      (texts bs <= list_sum (map (fun x => 2 + jb x) l))%nat.
    Proof.
      intros W. induction l as [|v l IHl]; intros bs H; cbn [json_elems] in H.
      - apply EOk_inj in H. subst. cbn. lia.
      - einv H. einv H. apply EOk_inj in H. subst bs. rewrite texts_cons. cbn [map list_sum fold_right].
        specialize (IHl _ E0). apply IH in E; [|exact W]. unfold list_sum in IHl. lia.
    Qed.
    Lemma jlist_short e v ad o bz : json_list env c rec e v ad o = EOk bz -> (length bz <= jb v)%nat.
    Proof.
      assert (G : forall l ad', (jb v = 2 + list_sum (map (fun x => 2 + jb x) l))%nat ->
        (if is_uint8 env e then if ad || gotype_eqb e (TPrim PUint8) then EOk (34 :: b64_encode (val_bytes l) ++ [34])
          else EPanic "reflect.Copy: elem type mismatch"%string
        else ebind (get_type_info env c e) (fun einfo => ebind (json_elems rec einfo l ad' o) (fun bs => EOk (91 :: join bs ++ [93])))) = EOk bz ->
        (length bz <= jb v)%nat).
      { intros l ad' Ej H. rewrite Ej. destruct (is_uint8 env e).
        - destruct (_ || _); [|discriminate]. apply EOk_inj in H. subst bz. cbn [length]. rewrite app_length. cbn [length].
          pose proof (b64_length _ (val_bytes l) (Nat.le_refl _)) as B. rewrite val_bytes_length in B.
          pose proof (parts_many (fun x => 2 + jb x)%nat 4 l ltac:(intros x; pose proof (jb_two x); cbn beta; lia)) as P. unfold parts in P. lia.
        - einv H. einv H. apply EOk_inj in H. subst bz. cbn [length]. rewrite app_length. cbn [length].
          pose proof (join_length a0). pose proof (jelems_short _ _ _ (gti_jwell _ _ E) _ _ E0). lia. }
      unfold json_list. destruct v as [| | | | | |l|[l|]| | | | | | |]; intros H; try discriminate; try (eapply G; [|exact H]; reflexivity).
      apply EOk_inj in H. subst. cbn. lia.
    Qed.
    Lemma jfield_name f o : (exists fs t, resolve env t = RStruct fs /\ In f fs) -> parse_field_options f = Some o ->
      (length (quote (fo_json_name o)) <= n)%nat.
    Proof. intros (fs & t & R & Hi) Hp. pose proof (quote_length (fo_json_name o)). pose proof (proj1 Hn _ _ _ _ R Hi Hp). lia. Qed.

    Definition jf : value -> nat := fun x => (n + 2 + jb x)%nat.
    Lemma jfields_short : forall fs i num infos pre l ad ms, parse_fields env fs i num = EOk infos -> length pre = i ->
      (forall f, In f fs -> exists fs t, resolve env t = RStruct fs /\ In f fs) ->
      json_fields env c rec infos (pre ++ l) ad = EOk ms -> (texts ms <= list_sum (map jf l))%nat.
    Proof.
      assert (G : forall fs i num infos pre ad ms, parse_fields env fs i num = EOk infos -> (length pre <= i)%nat ->
        json_fields env c rec infos pre ad = EOk ms -> ms = []).
      { induction fs as [|f fs IHf]; intros i num infos pre ad ms Hp Hl H.
        - cbn [parse_fields] in Hp. apply EOk_inj in Hp. subst infos. cbn in H. apply EOk_inj in H. auto.
        - apply parse_step in Hp. destruct (field_opts _ f) as [o|]; [|exact (IHf _ _ _ _ _ _ Hp (le_S _ _ Hl) H)].
          destruct Hp as (fi & rest & -> & Hix & _ & _ & Hop & _ & Hrest). cbn [json_fields] in H. einv H.
          rewrite nth_overflow in H by lia. destruct (_ && _); [exact (IHf _ _ _ _ _ _ Hrest (le_S _ _ Hl) H)|].
          einv H. exfalso. eapply Hinv. exact E0. }
      induction fs as [|f fs IHf]; intros i num infos pre l ad ms Hp Hpre Hin H.
      - cbn [parse_fields] in Hp. apply EOk_inj in Hp. subst infos. cbn in H. apply EOk_inj in H. subst ms. cbn. lia.
      - destruct l as [|x l].
        { rewrite app_nil_r in H. rewrite (G _ _ _ _ _ _ _ Hp (Nat.eq_le_incl _ _ Hpre) H). cbn. lia. }
        assert (Ap : pre ++ x :: l = (pre ++ [x]) ++ l) by (rewrite <- app_assoc; reflexivity).
        assert (Lp : length (pre ++ [x]) = S i) by (rewrite app_length; cbn [length]; lia).
        assert (Hin' : forall g, In g fs -> exists fs t, resolve env t = RStruct fs /\ In g fs) by (intros g X; apply Hin; right; exact X).
        assert (Lj : list_sum (map jf (x :: l)) = (n + 2 + jb x + list_sum (map jf l))%nat) by reflexivity. rewrite Lj. clear Lj.
        apply parse_step in Hp. destruct (field_opts _ f) as [o|] eqn:Eo.
        + destruct Hp as (fi & rest & -> & Hix & _ & _ & Hop & _ & Hrest). cbn [json_fields] in H. einv H.
          rewrite Hix, app_nth2, <- Hpre, Nat.sub_diag in H by lia. cbn [nth] in H. rewrite Ap in H. destruct (_ && _).
          { specialize (IHf _ _ _ _ _ _ _ Hrest Lp Hin' H). lia. }
          einv H. einv H. apply EOk_inj in H. subst ms. specialize (IHf _ _ _ _ _ _ _ Hrest Lp Hin' E1).
          apply IH in E0; [|eapply gti_jwell; exact E]. rewrite texts_cons, app_length. cbn [length].
          unfold field_opts in Eo. destruct (sf_exported f); [|discriminate]. destruct (parse_field_options f) as [o0|] eqn:Ep; [|discriminate].
          cbn [option_map] in Eo. injection Eo as <-. pose proof (jfield_name f o0 (Hin f (or_introl eq_refl)) Ep) as Q.
          rewrite Hop. cbn [fo_json_name set_num]. lia.
        + rewrite Ap in H. specialize (IHf _ _ _ _ _ _ _ Hp Lp Hin' H). lia.
    Qed.
    Lemma jmembers_short vt o : forall l ms, json_members env c rec vt l o = EOk ms ->
      (texts ms <= list_sum (map (fun p => 2 + jb (fst p) + jb (snd p)) l))%nat.
    Proof.
      induction l as [|[k v] l IHl]; intros ms H; cbn [json_members] in H.
      - apply EOk_inj in H. subst. cbn. lia.
      - destruct k; try discriminate. einv H. einv H. apply EOk_inj in H. subst ms. specialize (IHl _ E0).
        assert (A : (length a <= jb v)%nat).
        { rewrite deref_pointers_under in E. destruct (under v) as [w|] eqn:U.
          - einv E. apply IH in E; [|eapply gti_jwell; exact E1]. rewrite (jb_under _ _ U) in E. exact E.
          - apply EOk_inj in E. subst a. rewrite (jb_nil _ U). cbn. lia. }
        rewrite texts_cons, app_length. cbn [length map fst snd jbulk]. pose proof (quote_length s).
        change (list_sum (?a :: ?b)) with (a + list_sum b)%nat. lia.
    Qed.
  End Step.

  Lemma jprim_short p v o bz : json_prim je p v o = EOk bz -> (length bz <= jb v)%nat.
  Proof.
    destruct p, v; cbn [json_prim]; intros H; try discriminate;
      try (destruct (fo_unsafe o); [|discriminate]; cbn [jbulk]; destruct Hg as (_ & _ & _ & G); apply G in H; lia);
      apply EOk_inj in H; subst bz; cbn [jbulk].
    all: try (cbn [length]; rewrite app_length; cbn [length]).
    all: try (match goal with |- context [itoa ?z] => pose proof (itoa_length z) end; lia).
    - destruct b; cbn; lia.
    - pose proof (quote_length s). lia.
  Qed.

  Theorem encode_json_short : forall k info v ad o bz, jwell info -> encode_json k env je c info v ad o = EOk bz -> (length bz <= jb v)%nat.
  Proof.
    induction k as [|k IH]; intros info v ad o bz W H; [discriminate|].
    assert (Hinv : forall info ad o bz, encode_json k env je c info VInvalid ad o <> EOk bz) by (intros; destruct k; discriminate).
    assert (NI : v <> VInvalid) by (intros ->; discriminate H).
    destruct (under v) as [w|] eqn:U.
    2: { rewrite (enc_nil _ _ _ _ _ _ _ _ U) in H. apply EOk_inj in H. subst bz. rewrite (jb_nil _ U). cbn. lia. }
    rewrite (enc_step _ _ _ _ _ _ _ _ _ NI U) in H. rewrite <- (jb_under _ _ U). unfold enc_base in H.
    destruct (marshal_override je (ti_type info) w (ad || val_is_ptr v)) as [r|] eqn:Mo.
    { subst r. unfold marshal_override in Mo. destruct Hg as (_ & G1 & G2 & _). destruct (ti_type info); try discriminate Mo.
      - destruct w; try discriminate Mo. injection Mo as Mo. cbn [jbulk]. eapply G2. exact Mo.
      - destruct (je_marshal je id) as [[b f]|] eqn:E; [|discriminate]. destruct (_ || _); [|discriminate]. injection Mo as Mo. eapply G1; eassumption. }
    assert (SW : json_switch env je c (encode_json k env je c) info w (ad || val_is_ptr v) o = EOk bz -> (length bz <= jb w)%nat).
    { clear H. intros H. unfold json_switch in H.
      destruct (resolve env (ti_type info)) as [p| |len e|e|e|kt e| | |i|fs|] eqn:Er; try discriminate.
      - eapply jprim_short, H.
      - destruct info as [ci|]; [|discriminate]. unfold json_struct in H. destruct w; try discriminate. einv H. apply EOk_inj in H. subst bz.
        destruct W as [W _]. destruct (info_ok_parts _ _ W) as (_ & Hpf & _). cbn [ti_type] in Er. unfold parse_struct_info in Hpf. rewrite Er in Hpf.
        apply EOk_inj in Hpf. rewrite <- Hpf in E. cbn in E. apply EOk_inj in E. subst a. cbn. lia.
      - eapply jlist_short; eassumption.
      - eapply jlist_short; eassumption.
      - unfold json_map in H. destruct (resolve env kt) as [[]| | | | | | | | | |]; try discriminate.
        destruct w as [| | | | | | | | | | |[l|]| | |]; try discriminate; [|apply EOk_inj in H; subst; cbn; lia].
        einv H. apply EOk_inj in H. subst bz. cbn [length]. rewrite app_length. cbn [length jbulk].
        pose proof (join_length a). pose proof (jmembers_short _ IH _ _ _ _ E). lia.
      - unfold json_interface in H. destruct w as [| | | | | | | | | |[[ct cv]|]| | | |]; try discriminate; [|apply EOk_inj in H; subst; cbn; lia].
        rewrite deref_pointers_under in H. destruct (under cv) as [crv|] eqn:Uc; [|discriminate].
        assert (H' : ebind (get_type_info env c (deref_type ct)) (fun info0 => match info0 with
            | TIConc ci =>
                match ci_reg ci with
                | None => EErr "cannot encode unregistered concrete type"%string
                | Some r => ebind (encode_json k env je c info0 crv (val_is_ptr cv) o) (fun b => EOk (wrap_name (ri_name r) b))
                end
            | TIFace _ => EErr "cannot encode unregistered concrete type"%string
            end) = EOk bz) by (destruct crv; try discriminate; exact H).
        clear H. einv H'. destruct a as [ci|]; [|discriminate]. destruct (ci_reg ci) as [r|] eqn:Erg; [|discriminate]. einv H'.
        apply EOk_inj in H'. subst bz. pose proof (gti_jwell _ _ E) as Wc. apply IH in E0; [|exact Wc]. rewrite (jb_under _ _ Uc) in E0.
        rewrite wrap_length. destruct Wc as [_ Wn]. specialize (Wn r Erg). cbn [jbulk]. lia.
      - destruct info as [ci|]; [|discriminate]. unfold json_struct in H. destruct w; try discriminate. einv H. apply EOk_inj in H. subst bz.
        destruct W as [W _]. destruct (info_ok_parts _ _ W) as (_ & Hpf & _). cbn [ti_type] in Er. unfold parse_struct_info in Hpf. rewrite Er in Hpf.
        cbn [length]. rewrite app_length. cbn [length jbulk]. pose proof (join_length a).
        pose proof (jfields_short _ IH Hinv fs 0 0 _ [] l _ a Hpf eq_refl ltac:(intros g Hi; eexists _, _; split; [exact Er|exact Hi]) E) as L.
        unfold jf in L. lia. }
    destruct info as [ci|ii]; [|exact (SW H)]. destruct W as [W Wn]. pose proof (minfo_method _ _ _ eq_refl W) as M.
    destruct ci as [t fs [r|] u rg]; cbn [ci_marshal ci_type] in *; [|exact (SW H)]. einv H. einv H. destruct M as (id & f & -> & Hmm & Hdr).
    unfold to_repr in E. rewrite Hmm in E. apply IH in H; [|eapply gti_jwell; exact E0].
    pose proof (proj1 Hg _ _ _ _ _ Hmm E). lia.
  Qed.

  Theorem marshal_json_short k t v bz : marshal_json k env je c t v = EOk bz -> (length bz <= 20 + n + jb v)%nat.
  Proof.
    unfold marshal_json. intros H. einv H. einv H. pose proof (gti_jwell _ _ E) as W. apply encode_json_short in E0; [|exact W].
    destruct a as [[ty fs mm u [r|]]|ii]; apply EOk_inj in H; subst bz; try lia. rewrite wrap_length. destruct W as [_ Wn].
    specialize (Wn r eq_refl). lia.
  Qed.
End JBulk.
