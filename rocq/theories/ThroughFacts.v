(** What is read back from JSON is the same to the binary encoder. *)
From Coq Require Import ZArith String List Bool Lia.
From Coq Require Import ZifyBool ZifyNat.
From Verif Require Import Base Prims SpecWire PrimFacts PrimProps Types Codec BinEnc BinDec Amino DecFacts
  ValueInd Typing Registry SpecRegistry RegistryFacts RegistryProps Sane DecSafe SpecNorm EncFacts RoundTrip SupportedFacts
  TopFacts TopProps FrameFacts JsonText Json SpecJson JsonTextFacts JsonFacts JsonProps ReencodeFacts SpecJsonAgain JsonAgainFacts
  SpecStruct SpecDefault DefaultFacts SpecThrough.
Import ListNotations.
Local Open Scope Z_scope.

Section Through.
  Variable env : tenv.
  Variable je : jenv.
  Variable c : codec.
  Variable mem : gotype -> bool.
  Hypothesis We : wf_env env.
  Hypothesis Wc : wf_codec env c.
  Hypothesis Hsup : jsupported env je c mem.
  Hypothesis Hpa : passed env je c mem.

  Lemma uz_under : forall v w, unsigned_zeros v = true -> under v = Some w -> unsigned_zeros w = true.
  Proof.
    clear. induction v using value_ind'; intros y Hj Hu; cbn [under] in Hu; try (injection Hu as <-; exact Hj); try discriminate.
    cbn [unsigned_zeros] in Hj. eauto.
  Qed.
  Lemma default_under v w : under v = Some w -> defaultv v = defaultv w.
  Proof. clear. induction v using value_ind'; intros U; cbn [under] in U; try (injection U as <-; reflexivity); try discriminate. cbn [defaultv]. auto. Qed.
  Lemma default_none v : under v = None -> defaultv v = true.
  Proof. clear. induction v using value_ind'; intros U; cbn [under] in U; try discriminate; cbn [defaultv]; auto. Qed.
  Lemma zero_ptr_nothing t : is_ptr t = true -> nothing env t (zero env t).
  Proof. intros P. split; [apply has_type_zero, We|]. destruct t; try discriminate. reflexivity. Qed.
  Lemma same_ptrs t x y : same env (deref_type t) x y -> same env t (ptrs t x) (ptrs t y).
  Proof. clear. induction t; cbn [deref_type ptrs]; auto. intros H. constructor. auto. Qed.

  Lemma zero_res t : match resolve env t with
    | RPrim p => zero env t = zero_prim p
    | RTime => zero env t = zero_time
    | RArray n e => zero env t = VArr (repeat (zero env e) n)
    | RSlice _ => zero env t = VSlice None
    | RPtr _ => zero env t = VPtr None
    | RMap _ _ => zero env t = VMap None
    | RFunc => zero env t = VFunc true
    | ROther => zero env t = VOther
    | RIface _ => zero env t = VIface None
    | RStruct fs => zero env t = VStruct (map (fun f => zero env (sf_type f)) fs)
    | RBad => True
    end.
  Proof.
    destruct t as [p| |n e|e|e|ke e| | |i|id]; try reflexivity. pose proof (we_def _ We id) as N. cbn [zero]. rewrite (we_zero _ We). unfold zero_of_def. cbn [resolve] in N |- *.
    destruct (te_def env id) as [fs|u]; [reflexivity|]. destruct u; try reflexivity; congruence.
  Qed.
  (** Zero values are those that look like it. *)
  Lemma zero_like_eq : forall v t, has_type env t v = true -> unsigned_zeros v = true -> zero_like env t v = true -> v = zero env t.
  Proof.
    induction v using value_ind'; intros ty Ht Hu Hz; cbn [zero_like unsigned_zeros] in Hz, Hu; try discriminate Hz;
      cbn [has_type] in Ht; pose proof (zero_res ty) as Z; destruct (resolve env ty) as [p| |n e|e|e|ke e| | |i|fs|] eqn:Er; try discriminate Ht; try (destruct p; discriminate Ht); rewrite Z; clear Z;
      try reflexivity; try discriminate Hz.
    - destruct p; try discriminate Ht. destruct b; [discriminate|reflexivity].
    - apply Z.eqb_eq in Hz. subst z. destruct p; try discriminate Ht; reflexivity.
    - apply Z.eqb_eq in Hz. subst z. destruct p; try discriminate Ht; reflexivity.
    - apply negb_true_iff in Hu. apply orb_false_iff in Hu. destruct Hu as [U1 U2]. destruct p; try discriminate Ht; cbn [zero_prim]; f_equal; apply orb_true_iff in Hz; destruct Hz as [Hz|Hz]; try congruence; apply Z.eqb_eq in Hz; exact Hz.
    - destruct s; [|discriminate]. destruct p; try discriminate Ht. reflexivity.
    - apply andb_true_iff in Hz. destruct Hz as [H1 H2]. apply Z.eqb_eq in H1, H2. subst. reflexivity.
    - apply andb_true_iff in Ht. destruct Ht as [Hn Ht]. apply Nat.eqb_eq in Hn. subst n. f_equal. clear Er.
      induction l as [|x l IHl]; [reflexivity|]. cbn [forallb length repeat] in *. apply andb_true_iff in Ht, Hu, Hz. inversion H; subst. f_equal; [apply H2; tauto|apply IHl; tauto].
    - f_equal. clear Er. revert fs Ht Hz. induction l as [|x l IHl]; intros [|f fs] Ht Hz; try discriminate; [reflexivity|].
      cbn [forallb forall2b map] in *. apply andb_true_iff in Ht, Hu, Hz. inversion H; subst. f_equal; [apply H2; tauto|apply IHl; tauto].
    - destruct b; [reflexivity|discriminate].
  Qed.
  (** Fields that omitempty leaves out read as zero, which is the same. *)
  Definition like (t : gotype) (v w : value) : Prop := same env t v w \/ is_ptr t = true /\ nothing env t v /\ nothing env t w.
  Lemma omitted_like t v : has_type env t v = true -> unsigned_zeros v = true -> omitted env t v = true ->
    (is_ptr t && match resolve env (deref_type t) with RArray _ _ => true | _ => false end) = false -> like t v (zero env t).
  Proof.
    intros Ht Hu Ho Hp. unfold omitted in Ho. destruct (is_ptr t) eqn:P.
    - right. split; [exact P|]. split; [|apply zero_ptr_nothing; exact P]. split; [exact Ht|]. destruct (under v) as [w|] eqn:U; [|apply default_none; exact U].
      rewrite (default_under _ _ U). cbn [negb andb orb] in Ho, Hp. pose proof (under_typed env We _ _ _ Ht U) as Hw.
      destruct w as [| | | |[|]| |[|]|[[|]|]| | | | | | |]; try discriminate Ho; try reflexivity. cbn [has_type] in Hw. destruct (resolve env (deref_type t)) as [[]| | | | | | | | | |]; discriminate.
    - left. rewrite (under_nonptr env v t Ht P We) in Ho. cbn [negb andb] in Ho. apply orb_true_iff in Ho. destruct Ho as [Hz|Hz].
      + rewrite <- (zero_like_eq v t Ht Hu Hz). constructor.
      + pose proof (zero_res t) as Z. destruct v as [| | | |[|]| |[|]|[[|]|]| | | | | | |]; try discriminate Hz; cbn [has_type] in Ht;
          destruct (resolve env t) as [p| |n e|e|e|ke e| | |i|fs|] eqn:Er; try discriminate Ht; try (destruct p; discriminate Ht); rewrite Z; try (constructor; fail).
        * destruct p; try discriminate Ht. constructor.
        * apply andb_true_iff in Ht. destruct Ht as [Hn _]. apply Nat.eqb_eq in Hn. subst n. constructor.
        * eapply same_empty. exact Er.
  Qed.

  Definition thru (k : nat) : Prop := forall t v n w, jpart_ok mem t = true -> has_type env t v = true -> unsigned_zeros v = true ->
    jform k env je c t v = Some (n, w) -> like t v w.
  Section Step.
    Variable k : nat.
    Hypothesis IH : thru k.
    Notation go := (go env je c k).
    Lemma thru_go t v w : go t v = Some w -> jpart_ok mem t = true -> has_type env t v = true -> unsigned_zeros v = true -> like t v w.
    Proof.
      intros G Hp Ht Hu. unfold JsonFacts.go in G. destruct (jform k env je c t v) as [[n w']|] eqn:J; [|discriminate]. injection G as <-.
      eapply IH; eassumption.
    Qed.
    Lemma thru_elems e : jpart_ok mem e = true -> forall l l', opt_map (go e) l = Some l' -> forallb (has_type env e) l = true -> forallb unsigned_zeros l = true ->
      same_all env e l l'.
    Proof.
      intros He. induction l as [|v l IHl]; intros l' H Ht Hf; cbn [opt_map] in H; [injection H as <-; constructor|].
      cbn [forallb] in Ht, Hf. apply andb_true_iff in Ht, Hf. destruct Ht, Hf.
      destruct (go e v) as [w|] eqn:G; [|discriminate]. destruct (opt_map (go e) l) as [r|] eqn:R; [|discriminate]. injection H as <-.
      destruct (thru_go e v w G He) as [S|(_ & N1 & N2)]; try assumption; [apply same_cons|apply same_skip]; auto.
    Qed.
    Lemma thru_fields : forall fs l l', jnorm_fields env c go fs l = Some l' -> forall2b (fun f w => has_type env (sf_type f) w) fs l = true -> forallb unsigned_zeros l = true ->
      forallb (jfield_ok mem) fs = true -> forallb (passed_field env) fs = true -> same_fields env fs l l'.
    Proof.
      induction fs as [|f fs IHf]; intros [|v l] l' H Ht Hf Hok Hst'; cbn [jnorm_fields] in H; try discriminate; [injection H as <-; constructor|].
      cbn [forall2b forallb] in Ht, Hf, Hok, Hst'. apply andb_true_iff in Ht, Hf, Hok, Hst'. destruct Ht as [Ht1 Ht2], Hf as [Hf1 Hf2], Hok as [Ho1 Ho2], Hst' as [Hs1 Hs2].
      destruct (jnorm_field env c go f v) as [w|] eqn:E; [|discriminate]. destruct (jnorm_fields env c go fs l) as [r|] eqn:R; [|discriminate]. injection H as <-.
      specialize (IHf l r R Ht2 Hf2 Ho2 Hs2). unfold jnorm_field in E. unfold jfield_ok in Ho1. unfold passed_field in Hs1.
      destruct (json_opts f) as [o|] eqn:Jo.
      - assert (Vis : visible f = true /\ writes_empty f = fo_write_empty o).
        { unfold json_opts in Jo. unfold visible, writes_empty. destruct (sf_exported f); [|discriminate]. rewrite Jo. split; [|reflexivity].
          unfold parse_field_options in Jo. destruct (beqb (sf_json f) (bs "-")); [discriminate|reflexivity]. }
        destruct Vis as [Vis Wr]. destruct (known env c (sf_type f)); [|discriminate]. cbn [negb] in E.
        assert (L : like (sf_type f) v w).
        { destruct (fo_omitempty o && omitted env (sf_type f) v) eqn:Eo.
          - injection E as <-. apply andb_true_iff in Eo. destruct Eo as [Oe Oo]. apply omitted_like; try assumption.
            destruct (is_ptr (sf_type f)); [|reflexivity]. cbn [negb orb andb] in Hs1 |- *. rewrite Oe in Hs1. apply andb_true_iff in Hs1. destruct Hs1 as [_ Hs1]. apply negb_true_iff in Hs1. exact Hs1.
          - eapply thru_go; eassumption. }
        destruct L as [S|(P & N1 & N2)]; [apply same_shown|apply same_default]; try assumption.
        rewrite Wr. rewrite P in Hs1. cbn [negb orb] in Hs1. apply andb_true_iff in Hs1. destruct Hs1 as [Hs1 _]. apply negb_true_iff in Hs1. exact Hs1.
      - apply same_hidden; [|exact IHf]. unfold json_opts in Jo. unfold visible. destruct (sf_exported f); [|reflexivity]. unfold parse_field_options in Jo.
        destruct (beqb (sf_json f) (bs "-")); [reflexivity|discriminate].
    Qed.
    Lemma thru_plain b w w' : methods env je b = false -> mem b = true -> jplain_ok env c mem b = true -> has_type env b w = true -> unsigned_zeros w = true ->
      jnorm_plain env c go b w = Some w' -> same env b w w'.
    Proof.
      intros Hme Hmem Hok Ht Hf H. unfold jnorm_plain in H. pose proof (Hpa b Hmem) as Hso. unfold passed_ok in Hso. rewrite Hme in Hso.
      unfold jplain_ok in Hok. destruct (resolve env b) as [p| |n e|e|e|kt vt| | |i|fs|] eqn:Er; try discriminate; try contradiction.
      - destruct p; try discriminate; try (injection H as <-; constructor). destruct w; try (injection H as <-; constructor; fail). destruct (valid_utf8 _); [|discriminate]. injection H as <-. constructor.
      - destruct w as [| | | | | |l| | | | | | | |]; try discriminate. cbn [has_type] in Ht. rewrite Er in Ht. apply andb_true_iff in Ht. destruct Ht as [_ Ht]. unfold jlist_ok in Hok.
        destruct (is_uint8 env e); [pif H; injection H as <-; constructor|]. destruct (known env c e); [|discriminate]. destruct (opt_map (go e) l) as [r|] eqn:Eo; [|discriminate].
        injection H as <-. eapply same_array; [exact Er|]. eapply thru_elems; eassumption.
      - destruct w as [| | | | | | |[l|]| | | | | | |]; try discriminate. cbn [has_type] in Ht. rewrite Er in Ht. unfold jlist_ok in Hok.
        assert (SL : forall l', (l' = [] <-> l = []) -> same_all env e l l' -> same env b (VSlice (Some l)) (slice_of l')).
        { intros [|x l'] El S; cbn [slice_of]; [rewrite (proj1 El eq_refl); eapply same_empty; exact Er|eapply same_slice; eassumption]. }
        destruct (is_uint8 env e); [pif H; injection H as <-; apply SL; [tauto|apply same_all_refl]|].
        destruct (known env c e); [|discriminate]. destruct (opt_map (go e) l) as [r|] eqn:Eo; [|discriminate]. injection H as <-.
        apply SL; [eapply opt_map_nil; exact Eo|eapply thru_elems; eassumption].
      - destruct w as [| | | | | | | | | |[[ct cv]|]| | | |]; try discriminate. cbn [has_type] in Ht. rewrite Er in Ht.
        apply resolve_iface in Er; [|exact We]. subst b.
        assert (Htc : te_impl env ct i = true /\ has_type env ct cv = true).
        { apply andb_true_iff in Ht. destruct Ht as [T1 T2]. split; [|destruct ct; try exact T2; discriminate]. try (apply andb_true_iff in T1; destruct T1 as [T1 _]); exact T1. }
        destruct Htc as [Him Htc]. unfold jnorm_iface in H.
        destruct (registration c (deref_type ct)) as [[name ptr]|] eqn:R; [|discriminate]. destruct (under cv) as [x|] eqn:U; [|discriminate]. pif H.
        destruct (go (deref_type ct) x) as [y|] eqn:G; [|discriminate]. injection H as <-.
        destruct (registration_info env c Wc _ _ _ R) as (ci & r & Hin & Hct & Hr & Hnm & Hptr & Hg & Hn & Hd).
        unfold jiface_ok in Hok. rewrite forallb_forall in Hok. specialize (Hok ci Hin). rewrite Hr, Hct in Hok.
        assert (Hni : is_iface (deref_type ct) = false).
        { destruct (proj1 (wc_conc _ _ Wc ci) Hin) as [Ha _]. destruct (wc_types _ _ Wc _ _ Ha) as [_ Hio]. destruct (info_ok_parts _ _ Hio) as (Hc & _).
          rewrite Hct in Hc. destruct (deref_type ct); try reflexivity; discriminate. }
        rewrite (impl_ptr env We ct i) in Hok; try assumption; [|apply deref_is_ptr]. cbn [negb orb] in Hok. rewrite !andb_true_iff in Hok. destruct Hok as [[[K1 _] _] _].
        assert (L : like (deref_type ct) x y).
        { eapply thru_go; [exact G| |exact (under_typed env We _ _ _ Htc U)|apply (uz_under cv); [exact Hf|exact U]].
          unfold jpart_ok. rewrite deref_idem, K1, deref_is_ptr. reflexivity. }
        destruct L as [S|(P & _)]; [|rewrite deref_is_ptr in P; discriminate].
        assert (Uy : under y = Some y).
        { pose proof (same_under _ _ _ _ S) as SU. pose proof (same_ptrness _ _ _ _ S) as SP. rewrite (under_not_ptr _ _ U) in SP. destruct y; try reflexivity. discriminate. }
        eapply (same_held env i ct _ cv _ x y); [|exact U| |exact S]; destruct ptr; cbn [deref_type under]; try apply deref_idem; exact Uy.
      - destruct w as [| | | | | | | | |l| | | | |]; try discriminate. cbn [has_type] in Ht. rewrite Er in Ht. rewrite !andb_true_iff in Hok. destruct Hok as [[_ _] Hok].
        pif H. destruct (jnorm_fields env c go fs l) as [l'|] eqn:En; [|discriminate]. injection H as <-. eapply same_struct; [exact Er|]. eapply thru_fields; eassumption.
    Qed.
    Lemma thru_step : thru (S k).
    Proof.
      intros t v n w Hp Ht Hf J. unfold jpart_ok in Hp. apply andb_true_iff in Hp. destruct Hp as [Hmem Hpi].
      destruct (under v) as [x|] eqn:U.
      2:{ assert (P : is_ptr t = true). { destruct (is_ptr t) eqn:P; [reflexivity|]. rewrite (under_nonptr env v t Ht P We) in U. discriminate. }
          right. split; [exact P|]. split; [split; [exact Ht|apply default_none; exact U]|].
          cbn [jform] in J. destruct (_ || _); [discriminate|]. rewrite U in J. injection J as <- <-. apply zero_ptr_nothing. exact P. }
      pose proof (under_typed env We _ _ _ Ht U) as Htx. pose proof (uz_under _ _ Hf U) as Hfx.
      destruct (jform_base env je c k t v x n w U J) as (y & Hy & Hw).
      assert (Hv : v = ptrs t x) by (apply (typed_ptrs env We); assumption).
      (* text *)
      assert (TX : n = false -> same env (deref_type t) x y -> like t v w).
      { intros N S. left. rewrite Hv, (Hw N). apply same_ptrs. exact S. }
      (* null *)
      assert (NU : defaultv x = true -> x = zero env (deref_type t) -> n = true -> like t v w).
      { intros Dx Zx ->. assert (Ew : w = zero env t).
        { clear -J. cbn [jform] in J. destruct (_ || _); [discriminate|]. destruct (under v) as [x|]; [|injection J as <-; reflexivity].
          assert (PL : forall o : option value, match x with VSlice None | VIface None => Some (true, zero env t) | _ => match o with Some w' => Some (false, ptrs t w') | None => None end end = Some (true, w) -> w = zero env t)
            by (intros o E; destruct x as [| | | | | | |[|]| | |[|]| | | |], o; try discriminate; injection E as <-; reflexivity).
          destruct (deref_type t) eqn:D; try (match type of J with context [jnorm_plain env c ?f ?T x] => exact (PL (jnorm_plain env c f T x) J) end).
          - destruct x; try discriminate. destruct (je_time _ _ _); discriminate.
          - destruct (je_marshal je id) as [[[] f]|]; try discriminate.
            + destruct (je_unmarshal je id); [|discriminate]. destruct (f x); try discriminate. destruct (beqb _ _); [injection J as <-; reflexivity|]. destruct (e _ _); discriminate.
            + destruct (je_unmarshal je id); [discriminate|]. destruct (te_marshal env id) as [[|r f]|]; [discriminate| |destruct (te_unmarshal env id); [discriminate|match type of J with context [jnorm_plain env c ?f ?T x] => exact (PL (jnorm_plain env c f T x) J) end]].
              destruct (te_unmarshal env id) as [[|r' g]|]; try discriminate. destruct (f x); try discriminate. destruct (gotype_eqb _ _); [|discriminate].
              destruct (jform _ _ _ _ _ _) as [[[] x']|]; [injection J as <-; reflexivity| |discriminate]. destruct (g _ _) as [[? []]| | |]; discriminate. }
        subst w. destruct (is_ptr t) eqn:P.
        - right. split; [exact P|]. split; [split; [exact Ht|rewrite (default_under _ _ U); exact Dx]|apply zero_ptr_nothing; exact P].
        - left. rewrite Hv. rewrite (deref_nonptr _ P) in Zx. rewrite (ptrs_id t x P), <- Zx. constructor. }
      pose proof (Hpa _ Hmem) as Hso. pose proof (Hsup _ Hmem) as Hty. unfold passed_ok in Hso.
      assert (MM : methods env je (deref_type t) = true -> like t v w).
      { intros M. rewrite M in Hso. destruct (Hso _ _ _ _ Htx Hy) as [N S]. exact (TX N S). }
      assert (PL : methods env je (deref_type t) = false -> jplain_ok env c mem (deref_type t) = true ->
        match x with
        | VSlice None | VIface None => Some (true, zero env (deref_type t))
        | _ => match jnorm_plain env c go (deref_type t) x with Some w' => Some (false, ptrs (deref_type t) w') | None => None end
        end = Some (n, y) -> like t v w).
      { intros M Hok N. destruct (match x with VSlice None | VIface None => true | _ => false end) eqn:Z.
        - apply NU; [destruct x as [| | | | | | |[|]| | |[|]| | | |]; try discriminate Z; reflexivity| |destruct x as [| | | | | | |[|]| | |[|]| | | |]; try discriminate Z; congruence].
          pose proof (zero_res (deref_type t)) as Zr. destruct x as [| | | | | | |[|]| | |[|]| | | |]; try discriminate Z; cbn [has_type] in Htx;
            destruct (resolve env (deref_type t)) as [[]| | | | | | | | | |]; try discriminate Htx; rewrite Zr; reflexivity.
        - assert (E : match jnorm_plain env c go (deref_type t) x with Some w' => Some (false, ptrs (deref_type t) w') | None => None end = Some (n, y))
            by (rewrite <- N; destruct x as [| | | | | | |[|]| | |[|]| | | |]; try discriminate Z; reflexivity).
          destruct (jnorm_plain env c go (deref_type t) x) as [x'|] eqn:P; [|discriminate]. rewrite ptrs_id in E by apply deref_is_ptr. injection E as <- <-.
          apply TX; [reflexivity|]. eapply thru_plain; eassumption. }
      cbn [jform] in Hy. rewrite deref_is_ptr, deref_idem, (under_idem _ _ U) in Hy. cbn [andb orb] in Hy. destruct (negb (known _ _ _)); [discriminate|].
      unfold jtype_ok in Hty. unfold methods in MM, PL. change (fun t v => option_map snd (jform k env je c t v)) with go in Hy.
      destruct (deref_type t) as [p| |an ae|se|pe|mk me| | |ifc|id] eqn:D;
        try (apply PL; [reflexivity|exact Hty|exact Hy]).
      - destruct x; try discriminate. destruct (je_time je s ns); try discriminate. injection Hy as <- <-. apply TX; [reflexivity|constructor].
      - destruct (je_marshal je id) as [jm|]; [apply MM; reflexivity|]. destruct (te_marshal env id) as [tm|]; [apply MM; reflexivity|].
        destruct (je_unmarshal je id); [discriminate|]. destruct (te_unmarshal env id); [discriminate|].
        apply PL; [reflexivity|exact Hty|exact Hy].
    Qed.
  End Step.
  Theorem thru_all : forall k, thru k.
  Proof. induction k as [|k IH]; [intros t v n w _ _ _ J; discriminate|apply thru_step, IH]. Qed.

  Theorem top_thru k t v w : jpart_ok mem t = true -> is_ptr t = false -> has_type env t v = true -> unsigned_zeros v = true ->
    jnorm k env je c t v = Some w -> same env t v w.
  Proof.
    unfold jnorm. intros Hp P Ht Hu H. destruct (jform k env je c t v) as [[n w']|] eqn:J; [|discriminate]. injection H as <-.
    destruct (thru_all k t v n w' Hp Ht Hu J) as [S|(P' & _)]; [exact S|congruence].
  Qed.
End Through.
