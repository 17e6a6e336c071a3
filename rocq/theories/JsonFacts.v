(** Writing a value as JSON and reading it back. *)
From Coq Require Import ZArith String List Bool Lia.
From Coq Require Import ZifyBool ZifyNat.
From Verif Require Import Base Prims SpecWire PrimFacts PrimProps Types Codec BinEnc BinDec Amino DecFacts
  ValueInd Typing Registry SpecRegistry RegistryFacts Sane DecSafe SpecNorm EncFacts RoundTrip SupportedFacts
  TopFacts TopProps JsonText Json SpecJson JsonTextFacts.
Import ListNotations.
Local Open Scope Z_scope.

Lemma ptrs_wrap t v : ptrs t v = rebuild t v.
Proof. unfold rebuild. induction t; cbn [ptrs wrap_ptrs]; congruence. Qed.

Section Json.
  Variable env : tenv.
  Variable je : jenv.
  Variable c : codec.
  Hypothesis We : wf_env env.
  Hypothesis Wc : wf_codec env c.
  Hypothesis Hs : sane_codec env c.
  Hypothesis Hm : marshal_typed env.
  Hypothesis Hj : jenv_ok je.

  (** ** Scalars *)
  Lemma int_text z : jtext (itoa z) /\ utf8 (itoa z).
  Proof.
    split; [apply jt_number; apply (decimal_number _ z), itoa_ok|]. apply utf8_ascii. eapply Forall_impl; [|apply itoa_ascii].
    cbv beta. intros. lia.
  Qed.
  Lemma quoted_text z : jtext (34 :: itoa z ++ [34]) /\ utf8 (34 :: itoa z ++ [34]).
  Proof.
    split; [apply jt_string, jchars_plain; eapply Forall_impl; [|apply itoa_ascii]; cbv beta; intros; lia|].
    apply utf8_cons; [lia|]. apply utf8_app; [apply int_text|apply utf8_one; lia].
  Qed.
  Lemma itoa_top z : json_top (itoa z) = Some (JNum (itoa z)).
  Proof. apply top_ok. split; [reflexivity|]. apply (decimal_number _ z), itoa_ok. Qed.
  Lemma itoa_numeral z : 0 <= z -> numeral (itoa z) z.
  Proof. intros H. unfold itoa. replace (z <? 0) with false by lia. apply dec_ok. exact H. Qed.
  Lemma last_snoc {A} (l : list A) x d : last (l ++ [x]) d = x.
  Proof. induction l as [|y l IH]; [reflexivity|]. cbn [app last]. destruct (l ++ [x]) eqn:E; [destruct l; discriminate|]. exact IH. Qed.
  Lemma prim_json p v o : prim_has p v = true -> (match p with PFloat32 | PFloat64 => False | PString => exists s, v = VStr s /\ utf8 s | _ => True end) ->
    exists bz, jtext bz /\ utf8 bz /\ bz <> null /\ json_prim je p v o = EOk bz /\ forall o', unjson_prim je p bz o' = EOk v.
  Proof.
    intros Ht Hp.
    assert (HI : forall w z, (p = PInt32 /\ w = 32 \/ p = PInt16 /\ w = 16 \/ p = PInt8 /\ w = 8) -> v = VInt z -> in_int w z = true ->
      exists bz, jtext bz /\ utf8 bz /\ bz <> null /\ json_prim je p v o = EOk bz /\ forall o', unjson_prim je p bz o' = EOk v).
    { intros w z Hw -> Hz. exists (itoa z). destruct (int_text z) as [A B]. split; [exact A|]. split; [exact B|]. split.
      { intros E. pose proof (itoa_top z) as T. rewrite E in T. discriminate. }
      destruct Hw as [[-> ->]|[[-> ->]|[-> ->]]]; (split; [reflexivity|]); intros o'; unfold unjson_prim, with_top;
        rewrite itoa_top, (parse_int_ok _ z (itoa_ok z)), Hz; reflexivity. }
    assert (HU : forall w z, (p = PUint32 /\ w = 32 \/ p = PUint16 /\ w = 16 \/ p = PUint8 /\ w = 8) -> v = VUint z -> in_uint w z = true ->
      exists bz, jtext bz /\ utf8 bz /\ bz <> null /\ json_prim je p v o = EOk bz /\ forall o', unjson_prim je p bz o' = EOk v).
    { intros w z Hw -> Hz. exists (itoa z). destruct (int_text z) as [A B]. split; [exact A|]. split; [exact B|]. split.
      { intros E. pose proof (itoa_top z) as T. rewrite E in T. discriminate. }
      assert (Pu : parse_uint (itoa z) = Some z) by (apply parse_uint_ok, itoa_numeral; unfold in_uint in Hz; lia).
      destruct Hw as [[-> ->]|[[-> ->]|[-> ->]]]; (split; [reflexivity|]); intros o'; unfold unjson_prim, with_top;
        rewrite itoa_top, Pu, Hz; reflexivity. }
    assert (QQ : forall z, (34 :: itoa z ++ [34]) <> null) by (intros z; discriminate).
    assert (QL : forall z, (length (34%Z :: itoa z ++ [34%Z]) <? 2)%nat = false) by (intros; cbn [length]; rewrite app_length; cbn [length]; apply Nat.ltb_ge; lia).
    assert (QE : forall z, last (34 :: itoa z ++ [34]) 0 = 34) by (intros; apply (last_snoc (34 :: itoa z))).
    assert (QR : forall z, removelast (tl (34 :: itoa z ++ [34])) = itoa z) by (intros; cbn [tl]; apply removelast_last).
    destruct p; destruct v as [b|z|z|bits|s|sec ns|l|ol|ov|l|ov|ol|b| |]; try discriminate; try contradiction; cbn [prim_has] in Ht.
    - exists (if b then bs "true" else bs "false"). destruct b; (split; [constructor|]); (split; [apply utf8_ascii; repeat constructor; lia|]);
        (split; [discriminate|]); split; reflexivity.
    - exists (34 :: itoa z ++ [34]). destruct (quoted_text z) as [A B]. split; [exact A|]. split; [exact B|]. split; [apply QQ|]. split; [reflexivity|].
      intros o'. unfold unjson_prim. cbv beta iota zeta. rewrite QE, QL, QR. cbn [Z.eqb Pos.eqb negb orb]. cbv iota. unfold with_top. rewrite itoa_top, (parse_int_ok _ z (itoa_ok z)), Ht. reflexivity.
    - apply (HI 8 z); tauto.
    - apply (HI 16 z); tauto.
    - apply (HI 32 z); tauto.
    - exists (34 :: itoa z ++ [34]). destruct (quoted_text z) as [A B]. split; [exact A|]. split; [exact B|]. split; [apply QQ|]. split; [reflexivity|].
      intros o'. unfold unjson_prim. cbv beta iota zeta. rewrite QE, QL, QR. cbn [Z.eqb Pos.eqb negb orb]. cbv iota. unfold with_top. rewrite itoa_top, (parse_int_ok _ z (itoa_ok z)), Ht. reflexivity.
    - exists (34 :: itoa z ++ [34]). destruct (quoted_text z) as [A B]. split; [exact A|]. split; [exact B|]. split; [apply QQ|]. split; [reflexivity|].
      intros o'. unfold unjson_prim. cbv beta iota zeta. rewrite QE, QL, QR. cbn [Z.eqb Pos.eqb negb orb]. cbv iota. unfold with_top.
      assert (Pu : parse_uint (itoa z) = Some z) by (apply parse_uint_ok, itoa_numeral; unfold in_uint in Ht; lia).
      rewrite itoa_top, Pu, Ht. reflexivity.
    - apply (HU 8 z); tauto.
    - apply (HU 16 z); tauto.
    - apply (HU 32 z); tauto.
    - exists (34 :: itoa z ++ [34]). destruct (quoted_text z) as [A B]. split; [exact A|]. split; [exact B|]. split; [apply QQ|]. split; [reflexivity|].
      intros o'. unfold unjson_prim. cbv beta iota zeta. rewrite QE, QL, QR. cbn [Z.eqb Pos.eqb negb orb]. cbv iota. unfold with_top.
      assert (Pu : parse_uint (itoa z) = Some z) by (apply parse_uint_ok, itoa_numeral; unfold in_uint in Ht; lia).
      rewrite itoa_top, Pu, Ht. reflexivity.
    - destruct Hp as (s' & E & Hu). injection E as <-. exists (quote s). destruct (quote_text s (utf8_nonneg_all s Hu)) as [A B].
      split; [exact A|]. split; [exact B|]. split; [discriminate|]. split; [reflexivity|]. intros o'. unfold unjson_prim, with_top.
      rewrite (top_ok (JStr (quote_body (length s) s))); [unfold unq; rewrite unquoted_quote by exact Hu; reflexivity|].
      split; [reflexivity|]. apply quote_body_ok; [apply utf8_nonneg_all; exact Hu|lia].
  Qed.

  (** ** One step of the encoder and of the decoder *)
  Definition enc_base (m : nat) (info : tinfo) (w : value) (ad : bool) (o : fopts) : eres bytes :=
    match marshal_override je (ti_type info) w ad with
    | Some r => r
    | None =>
        match info with
        | TIConc {| ci_type := t; ci_marshal := Some r |} =>
            ebind (to_repr env t w) (fun rv => ebind (get_type_info env c r) (fun rinfo => encode_json m env je c rinfo rv false o))
        | _ => json_switch env je c (encode_json m env je c) info w ad o
        end
    end.
  Lemma enc_nil m info v ad o : under v = None -> encode_json (S m) env je c info v ad o = EOk null.
  Proof. intros H. cbn [encode_json]. rewrite deref_pointers_under, H. destruct v; try discriminate; reflexivity. Qed.
  Lemma enc_step m info v w ad o : v <> VInvalid -> under v = Some w ->
    encode_json (S m) env je c info v ad o = enc_base m info w (ad || val_is_ptr v) o.
  Proof. intros Hv H. cbn [encode_json]. rewrite deref_pointers_under, H. destruct v; try congruence; reflexivity. Qed.
  Definition dec_base (m : nat) (bz : bytes) (info : tinfo) (b : gotype) (o : fopts) : eres value :=
    match b with
    | TTime =>
        if time_text bz then ebind (je_untime je bz) (fun r => EOk (VTime (fst r) (snd r)))
        else EErr "amino:JSON time must be an RFC3339Nano string in UTC"%string
    | _ =>
        match (match b with TNamed id => je_unmarshal je id | _ => None end) with
        | Some g => g bz (zero env b)
        | None =>
            match info with
            | TIConc {| ci_type := ct; ci_unmarshal := Some r |} =>
                ebind (get_type_info env c r) (fun rinfo =>
                ebind (decode_json m env je c bz rinfo r (zero env r) o) (fun rv =>
                ebind (from_repr env ct (zero env b) rv) (fun ve =>
                match snd ve with Some e => EErr e | None => EOk (fst ve) end)))
            | _ => unjson_switch env je c (decode_json m env je c) info bz (zero env b) o
            end
        end
    end.
  Lemma beqb_false a b : a <> b -> beqb a b = false.
  Proof. intros H. destruct (beqb a b) eqn:E; [apply beqb_eq in E; contradiction|reflexivity]. Qed.
  Lemma dec_step m bz info t o : minfo env c info t -> is_ptr t && is_iface (deref_type t) = false -> bz <> null ->
    decode_json (S m) env je c bz info t (zero env t) o = ebind (dec_base m bz info (deref_type t) o) (fun w => EOk (ptrs t w)).
  Proof.
    intros Hi Hp Hb. cbn [decode_json]. rewrite base_zero, (beqb_false _ _ Hb). unfold dec_base.
    assert (E : forall (w : value), rebuild t w = ptrs t w) by (intros; symmetry; apply ptrs_wrap).
    destruct info as [ci|ii].
    - destruct (deref_type t) eqn:D; cbv beta iota zeta; f_equal; reflexivity.
    - destruct Hi as [_ D]. destruct t; cbn [is_ptr is_iface andb] in Hp; try reflexivity; rewrite D in Hp; discriminate.
  Qed.
  Lemma dec_null m info t o : minfo env c info t -> is_ptr t && is_iface (deref_type t) = false ->
    decode_json (S m) env je c null info t (zero env t) o = EOk (zero env t).
  Proof.
    intros Hi Hp. cbn [decode_json]. change (beqb null null) with true. destruct info as [ci|ii]; [destruct t; reflexivity|].
    destruct Hi as [_ D]. destruct t; try reflexivity. cbn [is_ptr is_iface andb] in Hp. rewrite D in Hp. discriminate.
  Qed.

  (** ** The round trip *)
  Definition good (k : nat) (t : gotype) (v : value) (n : bool) (w : value) (info : tinfo) (bz : bytes) : Prop :=
    jtext bz /\ utf8 bz /\ (bz = null <-> n = true) /\ (n = true -> w = zero env t) /\
    forall m, (k <= m)%nat -> (forall ad o, encode_json m env je c info v ad o = EOk bz) /\
                              (forall o, decode_json m env je c bz info t (zero env t) o = EOk w).
  Definition round (k : nat) : Prop := forall t v n w info, jform k env je c t v = Some (n, w) -> has_type env t v = true ->
    get_type_info env c t = EOk info -> exists bz, good k t v n w info bz.
  Lemma known_info t : known env c t = true -> exists info, get_type_info env c t = EOk info.
  Proof. unfold known. destruct (get_type_info env c t) as [i| | |]; try discriminate. intros _. exists i. reflexivity. Qed.

  Section Step.
    Variable k : nat.
    Hypothesis IH : round k.
    Definition go (t : gotype) (v : value) : option value := option_map snd (jform k env je c t v).
    Lemma round_value t v w info : go t v = Some w -> has_type env t v = true -> get_type_info env c t = EOk info ->
      exists bz, jtext bz /\ utf8 bz /\ forall m, (k <= m)%nat -> (forall ad o, encode_json m env je c info v ad o = EOk bz) /\
                              (forall o, decode_json m env je c bz info t (zero env t) o = EOk w).
    Proof.
      unfold go. destruct (jform k env je c t v) as [[n w']|] eqn:E; [|discriminate]. intros H Ht Hi. injection H as <-.
      destruct (IH t v n w' info E Ht Hi) as (bz & A & B & _ & _ & D). exists bz. split; [exact A|]. split; [exact B|exact D].
    Qed.
    Lemma round_elems e einfo : get_type_info env c e = EOk einfo -> forall l l', opt_map (go e) l = Some l' -> forallb (has_type env e) l = true ->
      exists raws, Forall jtext raws /\ Forall utf8 raws /\ length raws = length l /\ forall m, (k <= m)%nat ->
        (forall ad o, json_elems (encode_json m env je c) einfo l ad o = EOk raws) /\
        (forall o, unjson_elems (decode_json m env je c) einfo e raws (repeat (zero env e) (length raws)) o = EOk l').
    Proof.
      intros Hi. induction l as [|v l IHl]; intros l' H Ht.
      - cbn [opt_map] in H. injection H as <-. exists []. split; [constructor|]. split; [constructor|]. split; [reflexivity|]. intros m Hm'. split; reflexivity.
      - cbn [opt_map] in H. destruct (go e v) as [w|] eqn:G; [|discriminate]. destruct (opt_map (go e) l) as [r|] eqn:R; [|discriminate].
        injection H as <-. cbn [forallb] in Ht. apply andb_true_iff in Ht. destruct Ht as [Hv Hl].
        destruct (round_value e v w einfo G Hv Hi) as (bz & A & B & D). destruct (IHl r eq_refl Hl) as (raws & A' & B' & L & D').
        exists (bz :: raws). split; [constructor; assumption|]. split; [constructor; assumption|]. split; [cbn [length]; congruence|].
        intros m Hm'. destruct (D m Hm') as [D1 D2]. destruct (D' m Hm') as [D3 D4]. split.
        + intros ad o. cbn [json_elems]. rewrite D1. cbn [ebind]. rewrite D3. reflexivity.
        + intros o. cbn [length repeat unjson_elems]. rewrite D2. cbn [ebind]. rewrite D4. reflexivity.
    Qed.

    (** Fields. *)
    Lemma deep_zero_like : forall v, forall t, deep_zero env t v = zero_like env t v.
    Proof.
      assert (FL : forall e l, Forall (fun v => forall t, deep_zero env t v = zero_like env t v) l -> forallb (deep_zero env e) l = forallb (zero_like env e) l).
      { intros e l H. induction H as [|x l Hx H IHl]; [reflexivity|]. cbn [forallb]. rewrite Hx, IHl. reflexivity. }
      assert (FS : forall fs l, Forall (fun v => forall t, deep_zero env t v = zero_like env t v) l ->
        forall2b (fun f w => deep_zero env (sf_type f) w) fs l = forall2b (fun f w => zero_like env (sf_type f) w) fs l).
      { induction fs as [|f fs IHf]; intros l H; [destruct l; reflexivity|]. destruct H as [|x l Hx H]; [reflexivity|]. cbn [forall2b]. rewrite Hx, IHf by exact H. reflexivity. }
      refine (value_ind' (fun v => forall t, deep_zero env t v = zero_like env t v) _ _ _ _ _ _ _ _ _ _ _ _ _ _ _ _ _ _ _);
        intros; cbn [deep_zero zero_like]; destruct (resolve env _) as [[]| | | | | | | | | |] eqn:Er; try reflexivity; auto.
      all: destruct b; reflexivity.
    Qed.
    Lemma is_empty_omitted t v : has_type env t v = true -> is_empty env t v = omitted env t v.
    Proof.
      intros Ht. unfold is_empty, omitted. rewrite deref_pointers_under. destruct (under v) as [w|]; [|reflexivity].
      rewrite deep_zero_like. destruct w as [b|z|z|bits|s|sec ns|l|[[|]|]|ov|l|ov|ol|b| |]; try reflexivity; destruct s || destruct l; reflexivity.
    Qed.

    Lemma distinct_cons x l : distinct (x :: l) = true -> ~ In x l /\ distinct l = true.
    Proof.
      clear. cbn [distinct]. rewrite andb_true_iff, negb_true_iff. intros [H1 H2]. split; [|exact H2]. intros Hin.
      assert (existsb (beqb x) l = true) by (apply existsb_exists; exists x; split; [exact Hin|apply beqb_eq; reflexivity]). congruence.
    Qed.
    Lemma distinct_nodup l : distinct l = true -> NoDup l.
    Proof. clear. induction l as [|x l IHl]; [constructor|]. intros H. apply distinct_cons in H. constructor; [apply H|apply IHl, H]. Qed.
    Lemma assoc_none {A} x (l : list (bytes * A)) : ~ In x (map fst l) -> assoc beqb x l = None.
    Proof.
      clear. induction l as [|[y a] l IHl]; [reflexivity|]. cbn [map fst In assoc]. intros H.
      destruct (beqb x y) eqn:E; [apply beqb_eq in E; subst; tauto|apply IHl; tauto].
    Qed.
    Lemma jtext_nonempty bz : jtext bz -> exists x r, bz = x :: r.
    Proof. clear. intros H. destruct (jtext_head bz H) as (x & r & E & _). eauto. Qed.
    Lemma field_opts_json n f : match json_opts f with Some o => field_opts n f = Some (set_num n o) | None => field_opts n f = None end.
    Proof. clear. unfold json_opts, field_opts. destruct (sf_exported f); [|reflexivity]. destruct (parse_field_options f); reflexivity. Qed.
    Lemma names_cons f fs : json_names (f :: fs) = match json_opts f with Some o => fo_json_name o :: json_names fs | None => json_names fs end.
    Proof. unfold json_names. cbn [flat_map]. destruct (json_opts f); reflexivity. Qed.
    Lemma round_fields : forall fs i num fis l l', parse_fields env fs i num = EOk fis ->
      forall2b (fun f w => has_type env (sf_type f) w) fs l = true -> jnorm_fields env c go fs l = Some l' ->
      distinct (json_names fs) = true -> forallb valid_utf8 (json_names fs) = true ->
      exists ms, Forall member_ok ms /\ incl (map fst ms) (json_names fs) /\ NoDup (map fst ms) /\ forall m, (k <= m)%nat ->
        (forall lp ad, length lp = i -> json_fields env c (encode_json m env je c) fis (lp ++ l) ad = EOk (map member ms)) /\
        (forall M tp o, length tp = i -> (forall x, In x (json_names fs) -> assoc beqb x M = assoc beqb x ms) ->
           unjson_fields env c (decode_json m env je c) fis M (tp ++ map (fun f => zero env (sf_type f)) fs) o = EOk (tp ++ l')).
    Proof.
      induction fs as [|f fs IHf]; intros i num fis l l' Hp Ht Hn Hd Hu.
      - destruct l; [|discriminate]. cbn [jnorm_fields] in Hn. injection Hn as <-. cbn [parse_fields] in Hp. apply EOk_inj in Hp. subst fis.
        exists []. split; [constructor|]. split; [intros x []|]. split; [constructor|]. intros m Hm'. split; reflexivity.
      - destruct l as [|v l]; [discriminate|]. cbn [forall2b] in Ht. apply andb_true_iff in Ht. destruct Ht as [Hv Hl].
        cbn [jnorm_fields] in Hn. destruct (jnorm_field env c go f v) as [w|] eqn:Ef; [|discriminate].
        destruct (jnorm_fields env c go fs l) as [r|] eqn:Er; [|discriminate]. injection Hn as <-.
        apply parse_step in Hp. rewrite names_cons in Hd, Hu |- *. unfold jnorm_field in Ef. pose proof (field_opts_json (Z.of_nat num + 1) f) as Fo.
        destruct (json_opts f) as [jo|] eqn:Ejo; rewrite Fo in Hp.
        + destruct Hp as (fi & rest & -> & Hix & Hty & _ & Hopt & _ & Hp). apply distinct_cons in Hd. destruct Hd as [Hnin Hd].
          cbn [forallb] in Hu. apply andb_true_iff in Hu. destruct Hu as [Hu1 Hu].
          destruct (IHf (S i) (S num) rest l r Hp Hl Er Hd Hu) as (ms & A & B & D & F).
          assert (Hna : fo_json_name (fi_opts fi) = fo_json_name jo) by (rewrite Hopt; reflexivity).
          assert (Hoe : fo_omitempty (fi_opts fi) = fo_omitempty jo) by (rewrite Hopt; reflexivity).
          destruct (negb (known env c (sf_type f))) eqn:Ek; [discriminate|]. apply negb_false_iff in Ek. destruct (known_info _ Ek) as [info Ei].
          destruct (fo_omitempty jo && omitted env (sf_type f) v) eqn:Eo.
          * injection Ef as <-. exists ms. split; [exact A|]. split; [intros x Hx; right; apply B, Hx|]. split; [exact D|].
            intros m Hm'. destruct (F m Hm') as [F1 F2]. split.
            { intros lp ad Hlp. cbn [json_fields]. rewrite Hix, Hty, Ei, Hoe. rewrite <- Hlp. rewrite nth_mid.
              rewrite is_empty_omitted by exact Hv. cbn [ebind]. rewrite Eo. change (v :: l) with ([v] ++ l). rewrite app_assoc. apply F1.
              rewrite app_length. cbn [length]. lia. }
            { intros M tp o Htp HM. cbn [unjson_fields map]. rewrite Hix, Hty, Ei, Hoe, Hna. cbn [ebind].
              rewrite HM by (left; reflexivity). rewrite assoc_none by (intros Hx; apply Hnin, B, Hx).
              apply andb_true_iff in Eo. destruct Eo as [-> _].
              specialize (F2 M (tp ++ [zero env (sf_type f)]) o). rewrite <- !app_assoc in F2. apply F2.
              - rewrite app_length. cbn [length]. lia.
              - intros x Hx. apply HM. right. exact Hx. }
          * destruct (round_value _ _ _ _ Ef Hv Ei) as (bz & J1 & J2 & J3). destruct (jtext_nonempty bz J1) as (b0 & br & Ebz).
            exists ((fo_json_name jo, bz) :: ms). split; [constructor; [|exact A]|].
            { unfold member_ok. cbn [fst snd]. rewrite <- valid_utf8_ok. auto. }
            cbn [map fst]. split; [intros x [<-|Hx]; [left; reflexivity|right; apply B, Hx]|].
            split; [constructor; [intros Hx; apply Hnin, B, Hx|exact D]|].
            intros m Hm'. destruct (F m Hm') as [F1 F2]. destruct (J3 m Hm') as [J4 J5]. split.
            { intros lp ad Hlp. cbn [json_fields]. rewrite Hix, Hty, Ei, Hoe, Hna. rewrite <- Hlp. rewrite nth_mid.
              rewrite is_empty_omitted by exact Hv. cbn [ebind]. rewrite Eo, J4. cbn [ebind]. change (v :: l) with ([v] ++ l). rewrite app_assoc, F1.
              - reflexivity.
              - rewrite app_length. cbn [length]. lia. }
            { intros M tp o Htp HM. cbn [unjson_fields map]. rewrite Hix, Hty, Ei, Hna. cbn [ebind].
              rewrite HM by (left; reflexivity). cbn [assoc]. rewrite (proj2 (beqb_eq _ _) eq_refl).
              assert (X : forall T (a d : T), match bz with [] => a | _ => d end = d) by (intros; rewrite Ebz; reflexivity). rewrite X.
              rewrite <- Htp. rewrite nth_mid, J5. cbn [ebind]. rewrite upd_mid.
              specialize (F2 M (tp ++ [w]) o). rewrite <- !app_assoc in F2. rewrite <- !app_assoc. apply F2.
              - rewrite app_length. cbn [length]. lia.
              - intros x Hx. rewrite HM by (right; exact Hx). cbn [assoc]. destruct (beqb x (fo_json_name jo)) eqn:Eb; [|reflexivity].
                apply beqb_eq in Eb. subst x. contradiction. }
        + injection Ef as <-. destruct (IHf (S i) num fis l r Hp Hl Er Hd Hu) as (ms & A & B & D & F).
          exists ms. split; [exact A|]. split; [exact B|]. split; [exact D|]. intros m Hm'. destruct (F m Hm') as [F1 F2]. split.
          { intros lp ad Hlp. change (v :: l) with ([v] ++ l). rewrite app_assoc. apply F1. rewrite app_length. cbn [length]. lia. }
          { intros M tp o Htp HM. cbn [map]. specialize (F2 M (tp ++ [zero env (sf_type f)]) o). rewrite <- !app_assoc in F2. apply F2.
            - rewrite app_length. cbn [length]. lia.
            - exact HM. }
    Qed.

    (** Members of a map. *)
    Definition gom (vt : gotype) (p : value * value) : option (value * value) :=
      match go vt (snd p) with Some w' => Some (fst p, w') | None => None end.
    Lemma typed_valid t v : has_type env t v = true -> v <> VInvalid.
    Proof. clear -We. intros Ht ->. cbn [has_type] in Ht. destruct (resolve env t) as [[]| | | | | | | | | |]; discriminate. Qed.
    Lemma enc_deref t v w info m ad o : has_type env t v = true -> under v = Some w ->
      encode_json m env je c info w (ad || val_is_ptr v) o = encode_json m env je c info v ad o.
    Proof.
      intros Ht Hw. destruct m as [|m]; [reflexivity|]. pose proof (typed_valid _ _ Ht) as Hv.
      rewrite (enc_step m info v w ad o Hv Hw). pose proof (under_typed env We _ _ _ Ht Hw) as Htw.
      rewrite (enc_step m info w w); [|eapply typed_valid; exact Htw|apply under_idem with v; exact Hw].
      rewrite (under_not_ptr v w Hw), orb_false_r. reflexivity.
    Qed.
    Lemma round_members vt vinfo : get_type_info env c vt = EOk vinfo -> forall l l', opt_map (gom vt) l = Some l' ->
      forallb (fun p => has_type env (TPrim PString) (fst p) && has_type env vt (snd p)) l = true -> forallb valid_utf8 (map_keys l) = true ->
      exists ms, Forall member_ok ms /\ map fst ms = map_keys l /\ forall m, (k <= m)%nat ->
        (forall o, json_members env c (encode_json m env je c) vt l o = EOk (map member ms)) /\
        (forall o, unjson_members env (decode_json m env je c) (TPrim PString) vt vinfo ms o = EOk l').
    Proof.
      intros Hi. induction l as [|[x v] l IHl]; intros l' H Ht Hu.
      - cbn [opt_map] in H. injection H as <-. exists []. split; [constructor|]. split; [reflexivity|]. intros m Hm'. split; reflexivity.
      - cbn [opt_map] in H. unfold gom at 1 in H. cbn [fst snd] in H. destruct (go vt v) as [w|] eqn:G; [|discriminate].
        destruct (opt_map (gom vt) l) as [r|] eqn:R; [|discriminate].
        injection H as <-. cbn [forallb fst snd] in Ht. apply andb_true_iff in Ht. destruct Ht as [Hv Hl]. apply andb_true_iff in Hv. destruct Hv as [Hx Hv].
        assert (Ex : exists s, x = VStr s) by (destruct x; try discriminate; eauto). destruct Ex as [s ->].
        cbn [map_keys map fst forallb] in Hu. apply andb_true_iff in Hu. destruct Hu as [Hus Hu].
        destruct (round_value vt v w vinfo G Hv Hi) as (bz & A & B & D). destruct (IHl r eq_refl Hl Hu) as (ms & A' & B' & D').
        exists ((s, bz) :: ms). split; [constructor; [|exact A']|].
        { unfold member_ok. cbn [fst snd]. rewrite <- valid_utf8_ok. auto. }
        split; [cbn [map map_keys fst]; f_equal; exact B'|].
        intros m Hm'. destruct (D m Hm') as [D1 D2]. destruct (D' m Hm') as [D3 D4]. split.
        + intros o. cbn [json_members]. rewrite deref_pointers_under.
          assert (Q : (match match under v with Some w => (w, false) | None => (VInvalid, true) end with
                       | (_, true) => EOk null
                       | (w0, false) => ebind (get_type_info env c (deref_type vt)) (fun info => encode_json m env je c info w0 (val_is_ptr v) o)
                       end) = EOk bz).
          { destruct (under v) as [w0|] eqn:Uv.
            - rewrite gti_deref, Hi. cbn [ebind]. rewrite <- (orb_false_l (val_is_ptr v)), (enc_deref vt v w0 vinfo m false o Hv Uv). apply D1.
            - destruct m as [|m]; [specialize (D1 false o); discriminate|]. rewrite <- (D1 false o). symmetry. apply enc_nil. exact Uv. }
          rewrite Q. cbn [ebind]. rewrite D3. reflexivity.
        + intros o. cbn [unjson_members]. rewrite D2. cbn [ebind gotype_eqb]. change (gotype_eqb (TPrim PString) (TPrim PString)) with true.
          cbn [negb]. rewrite D4. reflexivity.
    Qed.

    (** Interfaces. *)
    Lemma registration_info t name ptr : registration c t = Some (name, ptr) ->
      exists ci r, In ci (cd_concretes c) /\ ci_type ci = t /\ ci_reg ci = Some r /\ ri_name r = name /\ ri_ptr r = ptr /\
        get_type_info env c t = EOk (TIConc ci) /\ type_info_from_name c name = EOk ci /\ deref_type t = t.
    Proof.
      clear k IH. unfold registration. destruct (find _ _) as [ci|] eqn:F; [|discriminate]. apply find_some in F. destruct F as [Hin Ht].
      apply gotype_eqb_eq in Ht. destruct (ci_reg ci) as [r|] eqn:Er; [|discriminate]. intros H. injection H as <- <-.
      exists ci, r. split; [exact Hin|]. split; [exact Ht|]. split; [exact Er|]. split; [reflexivity|]. split; [reflexivity|].
      destruct (proj1 (wc_conc _ _ Wc ci) Hin) as [Ha _]. destruct (wc_types _ _ Wc _ _ Ha) as [_ Hok].
      destruct (info_ok_parts _ _ Hok) as (Hc & _). split.
      { rewrite get_type_info_conc by (rewrite <- Ht; exact Hc). rewrite <- Ht, Ha. reflexivity. }
      split.
      { unfold type_info_from_name. rewrite (proj2 (wc_names _ _ Wc (ri_name r) ci)); [reflexivity|]. split; [exact Hin|]. unfold ci_name. rewrite Er. reflexivity. }
      rewrite <- Ht. destruct (ci_type ci); try reflexivity; discriminate.
    Qed.
    Lemma round_iface ii ct cv w' : has_type env ct cv = true -> jnorm_iface env c go (ii_id ii) ct cv = Some w' ->
      exists bz, jtext bz /\ utf8 bz /\ bz <> null /\ forall m, (k <= m)%nat ->
        (forall o, json_interface env c (encode_json m env je c) (VIface (Some (ct, cv))) o = EOk bz) /\
        (forall o, unjson_interface env c (decode_json m env je c) ii bz o = EOk w').
    Proof.
      intros Ht H. unfold jnorm_iface in H. destruct (registration c (deref_type ct)) as [[name ptr]|] eqn:R; [|discriminate].
      destruct (under cv) as [w|] eqn:U; [|discriminate].
      destruct (te_impl env (if ptr then TPtr (deref_type ct) else deref_type ct) (ii_id ii) && unescaped name && negb (beqb name [])) eqn:C; [|discriminate].
      apply andb_true_iff in C. destruct C as [C Cn]. apply andb_true_iff in C. destruct C as [Ci Cc]. apply unescaped_ok in Cc. destruct Cc as [Cu Cc].
      destruct (go (deref_type ct) w) as [x|] eqn:G; [|discriminate]. injection H as <-.
      destruct (registration_info _ _ _ R) as (ci & r & Hin & Hct & Hr & Hnm & Hptr & Hg & Hn & _).
      pose proof (under_typed env We _ _ _ Ht U) as Htw.
      destruct (round_value _ _ _ _ G Htw Hg) as (bz & A & B & D).
      assert (Ne : name <> []) by (intros ->; discriminate).
      exists (wrap_name name bz). split; [eapply jt_object; apply wrap_text; [exact Cc|exact A]|]. split; [apply wrap_utf8; assumption|].
      split; [discriminate|]. intros m Hm'. destruct (D m Hm') as [D1 D2]. split; intros o.
      - unfold json_interface. rewrite deref_pointers_under, U. rewrite Hg. cbn [ebind]. rewrite Hr, D1, Hnm. cbn [ebind].
        assert (NI : match w with VIface _ => False | _ => True end).
        { destruct w; try exact I. cbn [has_type] in Htw. destruct (resolve env (deref_type ct)) as [[]| | | | | | | | |i|] eqn:Er; try discriminate.
          apply resolve_iface in Er; [|exact We]. rewrite Er in Hct. destruct (proj1 (wc_conc _ _ Wc ci) Hin) as [Ha _].
          destruct (wc_types _ _ Wc _ _ Ha) as [_ Hok]. destruct (info_ok_parts _ _ Hok) as (Hc & _). rewrite Hct in Hc. discriminate. }
        destruct w; try reflexivity. contradiction.
      - unfold unjson_interface. rewrite wrapper_ok by assumption. cbn [ebind fst snd]. rewrite Hn. cbn [ebind]. rewrite Hr, Hptr, Hct, D2, Ci.
        reflexivity.
    Qed.

    Lemma byte_list e l : is_uint8 env e = true -> forallb (has_type env e) l = true -> Forall (fun b => 0 <= b < 256) (val_bytes l) /\ bytes_val (val_bytes l) = l.
    Proof.
      clear k IH. intros He Hl. split; [|apply (val_bytes_val env e); assumption].
      unfold is_uint8 in He. destruct (resolve env e) as [p| | | | | | | | | |] eqn:Er; try discriminate. destruct p; try discriminate.
      apply Forall_forall. intros b Hb. unfold val_bytes in Hb. apply in_map_iff in Hb. destruct Hb as (v & <- & Hin).
      rewrite forallb_forall in Hl. specialize (Hl v Hin). rewrite (has_type_prim _ _ _ _ Er) in Hl. destruct v; try discriminate.
      cbn [prim_has] in Hl. unfold in_uint in Hl. cbn [val_byte]. change (2 ^ 8) with 256 in Hl. lia.
    Qed.
    (** Values without methods, not nil. *)
    Lemma round_plain b w w' info : deref_type b = b -> minfo env c info b -> has_type env b w = true ->
      match w with VSlice None | VIface None => False | _ => True end -> jnorm_plain env c go b w = Some w' ->
      exists bz, jtext bz /\ utf8 bz /\ bz <> null /\ forall m, (k <= m)%nat ->
        (forall ad o, json_switch env je c (encode_json m env je c) info w ad o = EOk bz) /\
        (forall o, unjson_switch env je c (decode_json m env je c) info bz (zero env b) o = EOk w').
    Proof.
      intros Hb Hi Ht Hw H. pose proof (minfo_type _ _ _ _ Hi) as Hty. rewrite Hb in Hty.
      assert (SW : forall m ad o, json_switch env je c (encode_json m env je c) info w ad o =
        match resolve env b with
        | RIface _ => json_interface env c (encode_json m env je c) w o
        | RArray _ e | RSlice e => json_list env c (encode_json m env je c) e w ad o
        | RStruct _ | RTime => match info with TIConc ci => json_struct env c (encode_json m env je c) ci w ad | TIFace _ => EPanic "unreachable"%string end
        | RMap kt vt => json_map env c (encode_json m env je c) kt vt w o
        | RPrim p => json_prim je p w o
        | RPtr _ | RFunc | ROther | RBad => EPanic "unsupported type"%string
        end) by (intros; unfold json_switch; rewrite Hty; reflexivity).
      assert (DW : forall m bz o, unjson_switch env je c (decode_json m env je c) info bz (zero env b) o =
        match resolve env b with
        | RIface _ => match info with TIFace ii => unjson_interface env c (decode_json m env je c) ii bz o | TIConc _ => EPanic "unreachable"%string end
        | RArray n e => unjson_array env c (decode_json m env je c) n e bz (zero env b) o
        | RSlice e => unjson_slice env c (decode_json m env je c) e bz (zero env b) o
        | RStruct _ | RTime => match info with TIConc ci => unjson_struct env c (decode_json m env je c) ci bz (zero env b) o | TIFace _ => EPanic "unreachable"%string end
        | RMap kt vt => unjson_map env c (decode_json m env je c) kt vt bz o
        | RPrim p => unjson_prim je p bz o
        | RPtr _ | RFunc | ROther | RBad => EPanic "unsupported type"%string
        end) by (intros; unfold unjson_switch; rewrite Hty; reflexivity).
      unfold jnorm_plain in H. destruct (resolve env b) as [p| |n e|e|e|kt vt| | |i|fs|] eqn:Er; try discriminate.
      - (* scalars *)
        rewrite (has_type_prim _ _ _ _ Er) in Ht.
        assert (Hp : w' = w /\ match p with PFloat32 | PFloat64 => False | PString => exists s, w = VStr s /\ utf8 s | _ => True end).
        { destruct p; try discriminate; try (injection H as <-; split; [reflexivity|exact I]).
          destruct w; try discriminate. destruct (valid_utf8 s) eqn:V; [|discriminate]. injection H as <-. split; [reflexivity|].
          exists s. split; [reflexivity|]. apply valid_utf8_ok. exact V. }
        destruct Hp as [-> Hp]. destruct (prim_json p w no_opts Ht Hp) as (bz & A & B & D & E & F).
        exists bz. split; [exact A|]. split; [exact B|]. split; [exact D|]. intros m Hm'. split; intros.
        + rewrite SW. rewrite <- E. destruct p; try contradiction; reflexivity.
        + rewrite DW. apply F.
      - (* arrays *)
        destruct w as [| | | | | |l| | | | | | | |]; cbn [has_type] in Ht; rewrite Er in Ht; try discriminate.
        apply andb_true_iff in Ht. destruct Ht as [Hlen Hl]. apply Nat.eqb_eq in Hlen.
        destruct (is_uint8 env e) eqn:U8.
        + destruct (gotype_eqb e (TPrim PUint8)) eqn:Ge; [|discriminate]. injection H as <-. destruct (byte_list e l U8 Hl) as [Hby Hbv].
          exists (34 :: b64_encode (val_bytes l) ++ [34]). destruct (bytes_text _ Hby) as [A B]. split; [exact A|]. split; [exact B|]. split; [discriminate|].
          intros m Hm'. split; intros.
          * rewrite SW. unfold json_list. rewrite U8, Ge, orb_true_r. reflexivity.
          * rewrite DW. unfold unjson_array. rewrite U8, Ge, raw_bytes_ok by exact Hby. cbn [ebind negb]. unfold val_bytes at 1. rewrite map_length, Hlen, Nat.eqb_refl.
            cbn [negb]. rewrite Hbv. reflexivity.
        + destruct (known env c e) eqn:Ke; [|discriminate]. destruct (known_info e Ke) as [einfo Ei]. destruct (opt_map (go e) l) as [r|] eqn:Eo; [|discriminate].
          cbn [option_map] in H. injection H as <-. destruct (round_elems e einfo Ei l r Eo Hl) as (raws & A & B & L & D).
          exists (91 :: join raws ++ [93]). split; [eapply jt_array; apply array_text; exact A|].
          split; [apply utf8_cons; [lia|]; apply utf8_app; [apply join_utf8; exact B|apply utf8_one; lia]|]. split; [discriminate|].
          intros m Hm'. destruct (D m Hm') as [D1 D2]. split; intros.
          * rewrite SW. unfold json_list. rewrite U8, Ei. cbn [ebind]. rewrite D1. reflexivity.
          * rewrite DW. unfold unjson_array. rewrite U8, Ei, raw_list_ok by exact A. cbn [ebind]. rewrite L, Hlen, Nat.eqb_refl. cbn [negb].
            rewrite (zero_array _ _ _ _ We Er). rewrite <- Hlen, <- L, D2. reflexivity.
      - (* slices *)
        destruct w as [| | | | | | |[l|]| | | | | | |]; cbn [has_type] in Ht; rewrite Er in Ht; try discriminate; try contradiction.
        destruct (is_uint8 env e) eqn:U8.
        + destruct (gotype_eqb e (TPrim PUint8)) eqn:Ge; [|discriminate]. injection H as <-. destruct (byte_list e l U8 Ht) as [Hby Hbv].
          exists (34 :: b64_encode (val_bytes l) ++ [34]). destruct (bytes_text _ Hby) as [A B]. split; [exact A|]. split; [exact B|]. split; [discriminate|].
          intros m Hm'. split; intros.
          * rewrite SW. unfold json_list. rewrite U8, Ge, orb_true_r. reflexivity.
          * rewrite DW. unfold unjson_slice. rewrite U8, raw_bytes_ok by exact Hby. cbn [ebind]. rewrite Hbv. reflexivity.
        + destruct (known env c e) eqn:Ke; [|discriminate]. destruct (known_info e Ke) as [einfo Ei]. destruct (opt_map (go e) l) as [r|] eqn:Eo; [|discriminate].
          cbn [option_map] in H. injection H as <-. destruct (round_elems e einfo Ei l r Eo Ht) as (raws & A & B & L & D).
          exists (91 :: join raws ++ [93]). split; [eapply jt_array; apply array_text; exact A|].
          split; [apply utf8_cons; [lia|]; apply utf8_app; [apply join_utf8; exact B|apply utf8_one; lia]|]. split; [discriminate|].
          intros m Hm'. destruct (D m Hm') as [D1 D2]. split; intros.
          * rewrite SW. unfold json_list. rewrite U8, Ei. cbn [ebind]. rewrite D1. reflexivity.
          * rewrite DW. unfold unjson_slice. rewrite U8, Ei, raw_list_ok by exact A. cbn [ebind]. rewrite D2. reflexivity.
      - (* maps *)
        destruct w as [| | | | | | | | | | |[l|]| | |]; cbn [has_type] in Ht; rewrite Er in Ht; try discriminate.
        + destruct (gotype_eqb kt (TPrim PString)) eqn:Gk; [|discriminate]. apply gotype_eqb_eq in Gk. subst kt.
          destruct (known env c vt) eqn:Kv; [|discriminate]. destruct (distinct (map_keys l)) eqn:Dk; [|discriminate].
          destruct (forallb valid_utf8 (map_keys l)) eqn:Vk; [|discriminate]. cbn [andb] in H. destruct (known_info vt Kv) as [vinfo Ei].
          change (option_map (fun r => VMap (Some r)) (opt_map (gom vt) l) = Some w') in H.
          destruct (opt_map (gom vt) l) as [r|] eqn:Eo; [|discriminate]. cbn [option_map] in H. injection H as <-.
          destruct (round_members vt vinfo Ei l r Eo Ht Vk) as (ms & A & B & D).
          exists (123 :: join (map member ms) ++ [125]). split.
          { eapply jt_object. apply object_text. eapply Forall_impl; [|exact A]. intros q (X & Y & Z). split; [apply utf8_nonneg_all; exact X|exact Y]. }
          split; [apply object_utf8; eapply Forall_impl; [|exact A]; intros q (X & Y & Z); split; [apply utf8_nonneg_all; exact X|exact Z]|].
          split; [discriminate|]. intros m Hm'. destruct (D m Hm') as [D1 D2]. split; intros.
          * rewrite SW. unfold json_map. cbn [resolve]. rewrite D1. reflexivity.
          * rewrite DW. unfold unjson_map. rewrite raw_map_ok by (try exact A; rewrite B; apply distinct_nodup; exact Dk). cbn [ebind resolve].
            rewrite Ei. cbn [ebind]. rewrite D2. reflexivity.
        + destruct (gotype_eqb kt (TPrim PString)) eqn:Gk; [|discriminate]. apply gotype_eqb_eq in Gk. subst kt.
          destruct (known env c vt) eqn:Kv; [|discriminate]. cbn [andb] in H. injection H as <-. destruct (known_info vt Kv) as [vinfo Ei].
          exists (123 :: join (map member []) ++ [125]). split; [eapply jt_object; apply object_text; constructor|].
          split; [apply object_utf8; constructor|]. split; [discriminate|]. intros m Hm'. split; intros.
          * rewrite SW. reflexivity.
          * rewrite DW. unfold unjson_map. rewrite raw_map_ok by constructor. cbn [ebind resolve]. rewrite Ei. reflexivity.
      - (* interfaces *)
        apply resolve_iface in Er; [|exact We]. subst b. destruct w as [| | | | | | | | | |[[ct cv]|]| | | |]; try discriminate.
        assert (Hii : exists ii, info = TIFace ii /\ ii_id ii = i).
        { destruct info as [ci|ii]; [|exists ii; split; [reflexivity|destruct Hi as [_ Hi]; cbn in Hi; congruence]].
          destruct Hi as [X Y]. destruct (info_ok_parts _ _ Y) as (Hc & _). rewrite X in Hc. discriminate. }
        destruct Hii as (ii & -> & <-).
        assert (Htc : has_type env ct cv = true).
        { cbn [has_type resolve] in Ht. apply andb_true_iff in Ht. destruct Ht as [_ Ht]. destruct ct; try exact Ht; discriminate. }
        destruct (round_iface ii ct cv w' Htc H) as (bz & A & B & D & F). exists bz. split; [exact A|]. split; [exact B|]. split; [exact D|].
        intros m Hm'. destruct (F m Hm') as [F1 F2]. split; intros; [rewrite SW; apply F1|rewrite DW; apply F2].
      - (* structs *)
        destruct w as [| | | | | | | | |l| | | | |]; cbn [has_type] in Ht; rewrite Er in Ht; try discriminate.
        destruct (distinct (json_names fs)) eqn:Dn; [|discriminate]. destruct (forallb valid_utf8 (json_names fs)) eqn:Vn; [|discriminate].
        cbn [andb] in H. destruct (jnorm_fields env c go fs l) as [l'|] eqn:En; [|discriminate]. cbn [option_map] in H. injection H as <-.
        destruct info as [ci|ii]; [|destruct Hi as [_ Hi]; rewrite Hb in Hi; subst b; discriminate].
        destruct Hi as [Hct Hok]. destruct (info_ok_parts _ _ Hok) as (_ & Hpf & _). rewrite Hct, Hb in Hpf. unfold parse_struct_info in Hpf. rewrite Er in Hpf.
        destruct (round_fields fs 0%nat 0%nat (ci_fields ci) l l' Hpf Ht En Dn Vn) as (ms & A & _ & Dd & F).
        exists (123 :: join (map member ms) ++ [125]). split.
        { eapply jt_object. apply object_text. eapply Forall_impl; [|exact A]. intros q (X & Y & Z). split; [apply utf8_nonneg_all; exact X|exact Y]. }
        split; [apply object_utf8; eapply Forall_impl; [|exact A]; intros q (X & Y & Z); split; [apply utf8_nonneg_all; exact X|exact Z]|].
        split; [discriminate|]. intros m Hm'. destruct (F m Hm') as [F1 F2]. split; intros.
        + rewrite SW. unfold json_struct. rewrite (F1 [] ad eq_refl : json_fields _ _ _ _ l _ = _). reflexivity.
        + rewrite DW. unfold unjson_struct. rewrite raw_map_ok by assumption. cbn [ebind]. rewrite (zero_struct _ _ _ We Er).
          pose proof (F2 ms [] o eq_refl (fun _ _ => eq_refl)) as F3. cbn [app] in F3. rewrite F3. reflexivity.
    Qed.

    (** The step. *)
    Lemma time_text_ok m : time_text (34 :: m ++ [90; 34]) = true.
    Proof.
      clear. unfold time_text. cbn [length]. rewrite app_length. cbn [length].
      replace (S (length m + 2) - 1)%nat with (length (34%Z :: m ++ [90%Z])) by (cbn [length]; rewrite app_length; cbn [length]; lia).
      replace (S (length m + 2) - 2)%nat with (length (34%Z :: m)) by (cbn [length]; lia).
      assert (A : nth (length (34 :: m ++ [90])) (34 :: m ++ [90; 34]) 0 = 34).
      { change (34 :: m ++ [90; 34]) with (34 :: m ++ [90] ++ [34]). rewrite app_assoc. apply (nth_mid 34 0 [] (34 :: m ++ [90])). }
      rewrite A. pose proof (nth_mid 90 0 [34] (34 :: m)) as B. cbn [app] in B. rewrite B.
      replace (2 <=? S (length m + 2))%nat with true by (symmetry; apply Nat.leb_le; lia). reflexivity.
    Qed.
    Lemma round_step : round (S k).
    Proof.
      intros t v n w info H Ht Hg. pose proof (gti_minfo _ _ _ _ Hs Hg) as Hi. pose proof (minfo_type _ _ _ _ Hi) as Hty.
      cbn [jform] in H. destruct (is_ptr t && is_iface (deref_type t)) eqn:Hp; [discriminate|]. cbn [orb] in H.
      destruct (negb (known env c t)); [discriminate|].
      assert (NULL : forall m ad o, under v = None -> encode_json (S m) env je c info v ad o = EOk null) by (intros; apply enc_nil; assumption).
      assert (GN : (forall m, (k <= m)%nat -> forall ad o, encode_json (S m) env je c info v ad o = EOk null) -> n = true -> w = zero env t ->
        exists bz, good (S k) t v n w info bz).
      { intros HE -> ->. exists null. split; [constructor|]. split; [apply utf8_ascii; repeat constructor; lia|]. split; [tauto|]. split; [reflexivity|].
        intros [|m] Hm'; [lia|]. split; intros; [apply HE; lia|]. apply dec_null; assumption. }
      destruct (under v) as [x|] eqn:U; [|injection H as <- <-; apply GN; auto].
      pose proof (under_typed env We _ _ _ Ht U) as Htx. pose proof (typed_valid _ _ Ht) as Hv.
      assert (GT : forall bz x', jtext bz -> utf8 bz -> bz <> null -> n = false -> w = ptrs t x' ->
        (forall m, (k <= m)%nat -> (forall ad o, enc_base m info x ad o = EOk bz) /\ (forall o, dec_base m bz info (deref_type t) o = EOk x')) ->
        exists bz, good (S k) t v n w info bz).
      { intros bz x' A B D -> -> F. exists bz. split; [exact A|]. split; [exact B|]. split; [split; congruence|]. split; [discriminate|].
        intros [|m] Hm'; [lia|]. destruct (F m ltac:(lia)) as [F1 F2]. split; intros.
        - rewrite (enc_step _ _ _ _ _ _ Hv U). apply F1.
        - rewrite dec_step by assumption. rewrite F2. reflexivity. }
      assert (PL : forall (Hid : match deref_type t with TTime => False | TNamed id => je_marshal je id = None /\ je_unmarshal je id = None /\ te_marshal env id = None /\ te_unmarshal env id = None | _ => True end),
        match x with
        | VSlice None | VIface None => Some (true, zero env t)
        | _ => match jnorm_plain env c go (deref_type t) x with Some w' => Some (false, ptrs t w') | None => None end
        end = Some (n, w) -> exists bz, good (S k) t v n w info bz).
      { intros Hid HP.
        assert (MO : forall ad, marshal_override je (ti_type info) x ad = None).
        { intros ad. rewrite Hty. unfold marshal_override. destruct (deref_type t); try reflexivity; [contradiction|]. destruct Hid as (-> & _). reflexivity. }
        assert (CM : match info with TIConc ci => ci_marshal ci = None /\ ci_unmarshal ci = None | TIFace _ => True end).
        { destruct info as [ci|]; [|exact I]. destruct Hi as [Hct Hok]. pose proof (minfo_method _ _ _ Hct Hok) as M1. pose proof (minfo_unmethod _ _ _ Hct Hok) as M2.
          split.
          - destruct (ci_marshal ci); [|reflexivity]. destruct M1 as (id & f & E & M1 & _). rewrite E in Hid. destruct Hid as (_ & _ & Y & _). congruence.
          - destruct (ci_unmarshal ci); [|reflexivity]. destruct M2 as (id & f & E & M2 & _). rewrite E in Hid. destruct Hid as (_ & _ & _ & Y). congruence. }
        assert (EB : forall m ad o, enc_base m info x ad o = json_switch env je c (encode_json m env je c) info x ad o).
        { intros. unfold enc_base. rewrite MO. destruct info as [[ct cf cm cu cr]|]; [|reflexivity]. cbn in CM. destruct CM as [-> ->]. reflexivity. }
        assert (DB : forall m bz o, dec_base m bz info (deref_type t) o = unjson_switch env je c (decode_json m env je c) info bz (zero env (deref_type t)) o).
        { intros. unfold dec_base. destruct (deref_type t) eqn:D; try contradiction; try (destruct Hid as (_ & -> & _));
            (destruct info as [[ct cf cm cu cr]|]; [|reflexivity]); cbn in CM; destruct CM as [-> ->]; reflexivity. }
        destruct (match x with VSlice None | VIface None => true | _ => false end) eqn:N.
        - assert (Hn : Some (true, zero env t) = Some (n, w)) by (rewrite <- HP; destruct x as [| | | | | | |[|]| | |[|]| | | |]; try discriminate; reflexivity).
          injection Hn as <- <-. apply GN; try reflexivity. intros m Hm' ad o. rewrite (enc_step _ _ _ _ _ _ Hv U), EB. unfold json_switch. rewrite Hty.
          destruct x as [| | | | | | |[|]| | |[|]| | | |]; try discriminate; cbn [has_type] in Htx;
            destruct (resolve env (deref_type t)) as [[]| | | | | | | | | |] eqn:Er; try discriminate; reflexivity.
        - assert (HP' : match jnorm_plain env c go (deref_type t) x with Some w' => Some (false, ptrs t w') | None => None end = Some (n, w))
            by (rewrite <- HP; destruct x as [| | | | | | |[|]| | |[|]| | | |]; try discriminate; reflexivity).
          destruct (jnorm_plain env c go (deref_type t) x) as [x'|] eqn:J; [|discriminate]. injection HP' as <- <-.
          destruct (round_plain (deref_type t) x x' info (deref_idem t) (minfo_deref _ _ _ _ Hi) Htx) as (bz & A & B & D & F); [|exact J|].
          { destruct x as [| | | | | | |[|]| | |[|]| | | |]; try exact I; discriminate. }
          apply (GT bz x' A B D eq_refl eq_refl). intros m Hm'. destruct (F m Hm') as [F1 F2]. split; intros; [rewrite EB; apply F1|rewrite DB; apply F2]. }
      destruct (deref_type t) as [p| |an ae|se|pe|mk me| | |ifc|id] eqn:D; try (apply PL; [exact I|exact H]).
      - (* times *)
        destruct x as [| | | | |s ns| | | | | | | | |]; try discriminate. destruct (je_time je s ns) as [bz| | |] eqn:E; try discriminate.
        injection H as <- <-. destruct (jo_time je Hj _ _ _ E) as (A & B & q & Eq). rewrite <- D in *.
        apply (GT bz (VTime s ns) A B); try reflexivity; [rewrite Eq; discriminate|]. intros m Hm'. split; intros.
        + unfold enc_base. rewrite Hty, D. cbn [marshal_override]. exact E.
        + unfold dec_base. rewrite D, Eq, time_text_ok, <- Eq. rewrite D in Htx. cbn [has_type resolve] in Htx.
          rewrite (jo_untime je Hj s ns bz); [reflexivity|lia|exact E].
      - (* declared types *)
        destruct (je_marshal je id) as [[[] f]|] eqn:Jm; [| discriminate|].
        + destruct (je_unmarshal je id) as [g|] eqn:Ju; [|discriminate]. destruct (f x) as [bz| | |] eqn:Fx; try discriminate.
          destruct (jo_marshal je Hj _ _ _ _ _ Jm Fx) as [A B].
          assert (EB : forall m ad o, enc_base m info x ad o = EOk bz) by (intros; unfold enc_base; rewrite Hty; cbn [marshal_override]; rewrite Jm; exact Fx).
          destruct (beqb bz (bs "null")) eqn:Nb.
          * apply beqb_eq in Nb. injection H as <- <-. apply GN; try reflexivity. intros. rewrite (enc_step _ _ _ _ _ _ Hv U), EB, Nb. reflexivity.
          * destruct (g bz (zero env (TNamed id))) as [x'| | |] eqn:Gx; try discriminate. injection H as <- <-.
            apply (GT bz x' A B); try reflexivity; [intros ->; discriminate|]. intros m Hm'. split; intros; [apply EB|].
            unfold dec_base. rewrite Ju. exact Gx.
        + destruct (je_unmarshal je id) as [g|] eqn:Ju; [discriminate|].
          destruct (te_marshal env id) as [[|r f]|] eqn:Tm; [discriminate| |].
          * destruct (te_unmarshal env id) as [[|r' g]|] eqn:Tu; try discriminate. destruct (f x) as [y| | |] eqn:Fx; try discriminate.
            destruct (gotype_eqb r r') eqn:Gr; [|discriminate]. apply gotype_eqb_eq in Gr. subst r'.
            destruct info as [[ct cf cm cu cr]|ii]; [|destruct Hi as [_ Hi]; rewrite D in Hi; discriminate].
            destruct Hi as [Hct Hok]. cbn [ci_type] in Hct. rewrite D in Hct. subst ct.
            pose proof (minfo_method _ _ _ eq_refl Hok) as M1. pose proof (minfo_unmethod _ _ _ eq_refl Hok) as M2. cbn [ci_type ci_marshal ci_unmarshal] in M1, M2.
            destruct cm as [rm|]; [|specialize (M1 id eq_refl); congruence]. destruct cu as [ru|]; [|specialize (M2 id eq_refl); congruence].
            destruct M1 as (id1 & f1 & E1 & M1 & Mr). injection E1 as <-. rewrite Tm in M1. injection M1 as <- <-.
            destruct M2 as (id2 & g2 & E2 & M2 & _). injection E2 as <-. rewrite Tu in M2. injection M2 as <- <-.
            destruct (jform k env je c r y) as [[ny y']|] eqn:Jy; [|discriminate].
            pose proof (Hm _ _ _ _ _ Tm Htx Fx) as Hty'.
            assert (Kr : exists rinfo, get_type_info env c r = EOk rinfo).
            { apply known_info. destruct k as [|k']; [discriminate|]. cbn [jform] in Jy. destruct (known env c r); [reflexivity|].
              rewrite orb_true_r in Jy. discriminate. }
            destruct Kr as [rinfo Gr]. destruct (IH r y ny y' rinfo Jy Hty' Gr) as (bz & A & B & Nn & _ & F).
            assert (EB : forall m, (k <= m)%nat -> forall ad o, enc_base m (TIConc {| ci_type := TNamed id; ci_fields := cf; ci_marshal := Some r; ci_unmarshal := Some r; ci_reg := cr |}) x ad o = EOk bz).
            { intros m Hm' ad o. unfold enc_base. cbn [ti_type ci_type marshal_override]. rewrite Jm. cbn [to_repr]. rewrite Tm, Fx. cbn [ebind]. rewrite Gr. cbn [ebind]. apply F. exact Hm'. }
            destruct ny.
            { injection H as <- <-. apply GN; try reflexivity. intros m Hm' ad o. rewrite (enc_step _ _ _ _ _ _ Hv U), EB by exact Hm'. rewrite (proj2 Nn eq_refl). reflexivity. }
            destruct (g (zero env (TNamed id)) y') as [[x' [e|]]| | |] eqn:Gx; try discriminate. injection H as <- <-.
            apply (GT bz x' A B); try reflexivity; [intros E; apply Nn in E; discriminate|]. intros m Hm'. split; intros; [apply EB; exact Hm'|].
            unfold dec_base. rewrite Ju, Gr. cbn [ebind]. rewrite (proj2 (F m Hm')). cbn [ebind from_repr]. rewrite Tu, Gx. reflexivity.
          * destruct (te_unmarshal env id) as [|] eqn:Tu; [discriminate|]. apply PL; [auto|exact H].
    Qed.
  End Step.
  Theorem round_all : forall k, round k.
  Proof.
    induction k as [|k IH]; [intros t v n w info H; discriminate|apply round_step, IH].
  Qed.
End Json.
