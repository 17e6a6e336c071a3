(** Facts about struct tags (SpecTags.v). *)
From Coq Require Import ZArith String List Bool Lia.
From Verif Require Import Base SpecWire PrimFacts Types Codec Registry SpecRegistry RegistryFacts Sane DecSafe SpecNorm EncFacts SpecProto ProtoFacts SpecTags.
Import ListNotations.
Local Open Scope Z_scope.

Lemma split_nonempty s : split_comma s <> [].
Proof. destruct s as [|c s]; cbn [split_comma]; [discriminate|]. destruct (c =? 44); [discriminate|]. destruct (split_comma s); discriminate. Qed.

(** The head of the split is the first word, the rest is the split of what follows the comma. *)
Lemma split_first s : forall p ps, split_comma s = p :: ps ->
  ~ In comma p /\ (ps = [] /\ s = p \/ exists r, s = p ++ comma :: r /\ split_comma r = ps).
Proof.
  induction s as [|c s IH]; intros p ps H; cbn [split_comma] in H.
  - inversion H; subst. split; [intros []|left; split; reflexivity].
  - destruct (c =? 44) eqn:Ec.
    + apply Z.eqb_eq in Ec. subst c. inversion H; subst. split; [intros []|]. right. exists s. split; reflexivity.
    + destruct (split_comma s) as [|p0 ps0] eqn:Es; [destruct (split_nonempty s Es)|].
      inversion H; subst. destruct (IH _ _ eq_refl) as [Hn Hr]. apply Z.eqb_neq in Ec. split.
      * intros [X|X]; [unfold comma in X; lia|exact (Hn X)].
      * destruct Hr as [[-> ->]|(r & -> & Hr)]; [left; split; reflexivity|]. right. exists r. split; [reflexivity|exact Hr].
Qed.
Lemma split_app a b : ~ In comma a -> split_comma (a ++ comma :: b) = a :: split_comma b.
Proof.
  induction a as [|c a IH]; intros H; cbn [app split_comma]; [reflexivity|].
  destruct (c =? 44) eqn:Ec; [apply Z.eqb_eq in Ec; destruct H; left; exact Ec|]. rewrite IH; [reflexivity|]. intros X. apply H. right. exact X.
Qed.
Lemma split_single a : ~ In comma a -> split_comma a = [a].
Proof.
  induction a as [|c a IH]; intros H; cbn [split_comma]; [reflexivity|].
  destruct (c =? 44) eqn:Ec; [apply Z.eqb_eq in Ec; destruct H; left; exact Ec|]. rewrite IH; [reflexivity|]. intros X. apply H. right. exact X.
Qed.
Lemma split_onward w b : ~ In comma w -> onward b -> exists ps, split_comma (w ++ b) = w :: ps.
Proof.
  intros H [->|[r ->]]; [rewrite app_nil_r, split_single by exact H; eauto|]. rewrite split_app by exact H. eauto.
Qed.
Lemma split_after a s : split_comma (a ++ comma :: s) = split_comma a ++ split_comma s.
Proof.
  induction a as [|c a IH]; cbn [app split_comma]; [reflexivity|]. rewrite IH. destruct (c =? 44); [reflexivity|].
  destruct (split_comma a) as [|p ps] eqn:E; [destruct (split_nonempty a E)|]. reflexivity.
Qed.

(** Words of the split. *)
Lemma split_in w : ~ In comma w -> forall n s, (length s <= n)%nat ->
  In w (split_comma s) <-> exists a b, s = a ++ w ++ b /\ upto a /\ onward b.
Proof.
  intros Hw n. induction n as [n IHn] using lt_wf_ind. intros s Hl. split.
  - intros H. destruct (split_comma s) as [|p ps] eqn:E; [destruct H|]. destruct (split_first _ _ _ E) as [Hp Hr].
    destruct H as [->|H].
    + destruct Hr as [[-> ->]|(r & -> & _)]; exists [].
      * exists []. rewrite app_nil_r. split; [reflexivity|]. split; left; reflexivity.
      * exists (comma :: r). split; [reflexivity|]. split; [left; reflexivity|right; exists r; reflexivity].
    + destruct Hr as [[-> ->]|(r & -> & <-)]; [destruct H|].
      rewrite app_length in Hl. cbn [length] in Hl.
      apply (IHn (length r) ltac:(lia) r (le_n _)) in H. destruct H as (a & b & -> & Ha & Hb). exists (p ++ comma :: a), b.
      split; [rewrite <- app_assoc; reflexivity|]. split; [|exact Hb]. right. destruct Ha as [->|[a' ->]].
      * exists p. reflexivity.
      * exists (p ++ comma :: a'). rewrite <- app_assoc. reflexivity.
  - intros (a & b & -> & Ha & Hb). destruct (split_onward w b Hw Hb) as [ps E]. destruct Ha as [->|[a' ->]].
    + cbn [app]. rewrite E. left. reflexivity.
    + rewrite <- app_assoc. cbn [app]. rewrite split_after, E. apply in_or_app. right. left. reflexivity.
Qed.
Lemma has_tag_listed w s : ~ In comma (bs w) -> has_tag w (split_comma s) = true <-> listed w s.
Proof.
  intros Hw. unfold has_tag, listed. rewrite existsb_exists, <- (split_in _ Hw (length s) s (le_n _)). split.
  - intros (x & H & E). apply beqb_eq in E. subst x. exact H.
  - intros H. exists (bs w). split; [exact H|]. apply beqb_eq. reflexivity.
Qed.

Lemma app_onward_first a b a' b' : ~ In comma a -> ~ In comma a' -> onward b -> onward b' -> a ++ b = a' ++ b' -> a = a' /\ b = b'.
Proof.
  revert a'. induction a as [|x a IH]; intros a' Ha Ha' Hb Hb' E.
  - destruct a' as [|y a']; [split; [reflexivity|exact E]|]. cbn [app] in E. destruct Hb as [->|[r ->]]; [discriminate|].
    inversion E; subst. destruct Ha'. left. reflexivity.
  - destruct a' as [|y a'].
    + cbn [app] in E. destruct Hb' as [->|[r ->]]; [discriminate|]. inversion E; subst. destruct Ha. left. reflexivity.
    + inversion E; subst. destruct (IH a') as [-> ->]; auto.
      * intros X. apply Ha. right. exact X.
      * intros X. apply Ha'. right. exact X.
Qed.

(** ** The model's reading is the documented one *)

Ltac no_comma := let X := fresh in intros X; vm_compute in X; repeat (destruct X as [X|X]; [discriminate X|]); exact X.

Lemma parse_documented f num o : sf_json f <> bs "-" -> parse_field_options f = Some o -> documented num f (set_num num o).
Proof.
  unfold parse_field_options. destruct (beqb (sf_json f) (bs "-")) eqn:E; [discriminate|]. cbv zeta. intros Hj H.
  destruct (split_comma (sf_json f)) as [|p ps] eqn:Es; [destruct (split_nonempty _ Es)|]. apply split_first in Es. destruct Es as [Hp Hr].
  injection H as H. subst o.
  constructor; cbn [fo_json_name fo_omitempty fo_fixed64 fo_fixed32 fo_num fo_unsafe fo_write_empty fo_empty_elements set_num].
  - reflexivity.
  - apply beqb_eq.
  - rewrite andb_true_iff, negb_true_iff, beqb_eq. split; [tauto|]. intros ->. split; reflexivity.
  - apply has_tag_listed. no_comma.
  - apply has_tag_listed. no_comma.
  - apply has_tag_listed. no_comma.
  - split.
    + intros H. destruct ps as [|q ps]; [discriminate|]. apply beqb_eq in H. subst q.
      destruct Hr as [[X _]|(r & Er & Es)]; [discriminate|]. apply split_first in Es. destruct Es as [_ Hr].
      exists p. destruct Hr as [[_ ->]|(r' & -> & _)].
      * exists []. rewrite app_nil_r. split; [exact Hp|]. split; [exact Er|left; reflexivity].
      * exists (comma :: r'). split; [exact Hp|]. split; [exact Er|right; eexists; reflexivity].
    + intros (a & b & Ha & Ej & Hb).
      assert (W : forall r, p ++ comma :: r = a ++ comma :: bs "omitempty" ++ b -> r = bs "omitempty" ++ b).
      { intros r X. destruct (app_onward_first p (comma :: r) a (comma :: bs "omitempty" ++ b) Hp Ha (or_intror (ex_intro _ _ eq_refl)) (or_intror (ex_intro _ _ eq_refl)) X) as [_ Y].
        exact (f_equal (@tl Z) Y). }
      destruct Hr as [[-> X]|(r & X & Er)].
      * exfalso. rewrite X in Ej. apply Hp. rewrite Ej. apply in_or_app. right. left. reflexivity.
      * rewrite X in Ej. apply W in Ej. subst r. destruct (split_onward (bs "omitempty") b) as [qs Eq]; [no_comma|exact Hb|].
        rewrite Eq in Er. subst ps. apply beqb_eq. reflexivity.
  - assert (F : first_word p (sf_json f)).
    { split; [exact Hp|]. destruct Hr as [[_ ->]|(r & -> & _)].
      - exists []. rewrite app_nil_r. split; [reflexivity|left; reflexivity].
      - exists (comma :: r). split; [reflexivity|right; eexists; reflexivity]. }
    destruct p as [|x p]; [left; split; [exact F|reflexivity]|right; split; [exact F|discriminate]].
Qed.
Lemma parse_skip f : parse_field_options f = None <-> sf_json f = bs "-".
Proof.
  unfold parse_field_options. rewrite <- beqb_eq. destruct (beqb (sf_json f) (bs "-")); [tauto|]. split; discriminate.
Qed.

Lemma set_num_twice a b o : set_num a (set_num b o) = set_num a o.
Proof. destruct o; reflexivity. Qed.
Lemma parse_described env fs : forall i num infos, Z.of_nat (num + length fs) < 2 ^ 32 ->
  parse_fields env fs i num = EOk infos -> described env i (Z.of_nat num + 1) fs infos.
Proof.
  induction fs as [|f fs IH]; intros i num infos Hn H; [apply EOk_inj in H; subst; constructor|]. cbn [length] in Hn.
  cbn [parse_fields] in H. destruct (sf_exported f) eqn:Ex; cbn [negb] in H.
  - destruct (parse_field_options f) as [o|] eqn:Eo.
    + assert (J : sf_json f <> bs "-") by (intros X; apply parse_skip in X; congruence).
      einv H. cbv zeta in H. einv H. einv H. apply EOk_inj in H. subst infos.
      apply ds_field; cbn [fi_name fi_index fi_type fi_unpacked fi_opts]; try reflexivity.
      * split; assumption.
      * eapply unpacked_entries; eassumption.
      * rewrite u32_small by lia. apply parse_documented; assumption.
      * replace (Z.of_nat num + 1 + 1) with (Z.of_nat (S num) + 1) by lia. apply IH; [lia|assumption].
    + apply ds_skip; [|apply IH; [lia|exact H]]. intros [_ X]. apply X, parse_skip, Eo.
  - apply ds_skip; [|apply IH; [lia|exact H]]. intros [X _]. congruence.
Qed.

(** The description determines the options. *)
Lemma bool_iff a b (P : Prop) : (a = true <-> P) -> (b = true <-> P) -> a = b.
Proof. intros H H'. destruct a, b; try reflexivity; [symmetry; apply H', H; reflexivity|apply H, H'; reflexivity]. Qed.
Lemma first_word_unique a b s : first_word a s -> first_word b s -> a = b.
Proof. intros [Ha (x & -> & Hx)] [Hb (y & E & Hy)]. destruct (app_onward_first a x b y Ha Hb Hx Hy E). assumption. Qed.
Lemma documented_unique num f o o' : documented num f o -> documented num f o' -> o = o'.
Proof.
  intros H H'. destruct H as [H1 H2 H3 H4 H5 H6 H7 H8], H' as [K1 K2 K3 K4 K5 K6 K7 K8].
  assert (N : fo_json_name o = fo_json_name o').
  { destruct H8 as [[A B]|[A B]], K8 as [[C D]|[C D]].
    - congruence.
    - destruct D. symmetry. eapply first_word_unique; eassumption.
    - destruct B. eapply first_word_unique; eassumption.
    - eapply first_word_unique; eassumption. }
  pose proof (bool_iff _ _ _ H2 K2). pose proof (bool_iff _ _ _ H3 K3). pose proof (bool_iff _ _ _ H4 K4).
  pose proof (bool_iff _ _ _ H5 K5). pose proof (bool_iff _ _ _ H6 K6). pose proof (bool_iff _ _ _ H7 K7).
  destruct o, o'; cbn in *. congruence.
Qed.
Lemma described_unique env : forall fs i num infos infos', described env i num fs infos -> described env i num fs infos' -> infos = infos'.
Proof.
  intros fs i num infos infos' H. revert infos'. induction H as [|i num f fs infos Hw H IH|i num f fs fi infos Hw A B C D E H IH]; intros infos' K.
  - inversion K; reflexivity.
  - inversion K; subst; [apply IH; assumption|contradiction].
  - inversion K as [|? ? ? ? ? Hn ?|? ? ? ? fi' ? Hw' A' B' C' D' E' K']; subst; [contradiction|]. f_equal; [|apply IH; assumption].
    pose proof (documented_unique _ _ _ _ E E'). destruct fi, fi'; cbn in *. congruence.
Qed.

(** ** Integers *)

Lemma opts_written f num : written f <-> field_opts num f <> None.
Proof.
  unfold written, field_opts. destruct (sf_exported f); [|split; [intros [X _]; discriminate|intros X; destruct X; reflexivity]].
  rewrite <- parse_skip. destruct (parse_field_options f); cbn [option_map]; split; try tauto; try (intros; split; congruence). intros _. discriminate.
Qed.
Lemma number_cons f fs i num : number_at (f :: fs) (S i) = (match field_opts num f with Some _ => 1 | None => 0 end) + number_at fs i.
Proof.
  cbn [number_at]. unfold field_opts, parse_field_options. destruct (sf_exported f); cbn [andb]; [|reflexivity].
  destruct (beqb (sf_json f) (bs "-")); reflexivity.
Qed.
Lemma number_pos fs : forall i, 1 <= number_at fs i.
Proof. induction fs as [|f fs IH]; intros [|i]; cbn [number_at]; try lia. specialize (IH i). destruct (_ && _); lia. Qed.

Lemma opts_flags f num o : field_opts num f = Some o ->
  fo_fixed64 o = beqb (sf_binary f) (bs "fixed64") /\ fo_fixed32 o = beqb (sf_binary f) (bs "fixed32").
Proof.
  intros H. assert (W : written f) by (apply (opts_written f num); congruence).
  unfold field_opts in H. destruct (sf_exported f); [|discriminate]. destruct (parse_field_options f) as [o'|] eqn:E; [|discriminate].
  injection H as H. subst o. destruct (parse_documented f num o' (proj2 W) E) as [_ A B _ _ _ _ _].
  split; [apply (bool_iff _ _ _ A); apply beqb_eq|apply (bool_iff _ _ _ B); apply beqb_eq].
Qed.
Lemma tag_prim f num o p v q : field_opts num f = Some o -> tag_payload (sf_binary f) p v = Some q -> prim_wire p o v = Some q.
Proof.
  intros H. destruct (opts_flags _ _ _ H) as [A B]. destruct p, v; cbn [tag_payload prim_wire]; intros E; try discriminate; rewrite ?A, ?B; exact E.
Qed.
Lemma tag_value tag p v q : tag_payload tag p v = Some q -> under v = Some v /\
  (defaultv v = false -> exists z, (v = VInt z \/ v = VUint z) /\ z <> 0).
Proof.
  destruct p, v; cbn [tag_payload]; intros E; try discriminate; cbn [under defaultv]; (split; [reflexivity|]); intros D; exists z; split; auto; lia.
Qed.
Lemma wire_prim env c t p o v m q : plain env t -> resolve env t = RPrim p -> wire env c t o v m q -> prim_wire p o v = Some q.
Proof.
  intros Hp Hr H. inversion H; subst; try congruence.
  - destruct H1 as [X|[n X]]; congruence.
  - destruct H1 as [X|[n X]]; congruence.
  - destruct H1 as [X|[n X]]; congruence.
  - cbn in Hr. discriminate.
  - cbn in Hr. discriminate.
  - specialize (Hp id eq_refl). congruence.
Qed.

Lemma fields_above env c num fs l es n q : fields env c num fs l es -> n < num -> ~ In (n, q) es.
Proof.
  intros H Hn Hi. apply fields_order in H. destruct H as [_ H]. rewrite Forall_forall in H. specialize (H _ Hi). cbn in H. lia.
Qed.

(** The entries of an integer field: its tag's payload, present unless it is zero. *)
Lemma fields_ints env c num fs l es : fields env c num fs l es ->
  forall i f v p q, nth_error fs i = Some f -> nth_error l i = Some v -> written f -> plain env (sf_type f) -> resolve env (sf_type f) = RPrim p ->
  tag_payload (sf_binary f) p v = Some q ->
  (forall q', In (num - 1 + number_at fs i, q') es -> q' = q) /\
  (defaultv v = false -> zero_payload q = false -> In (num - 1 + number_at fs i, q) es).
Proof.
  revert num l es. induction fs as [|g fs IH]; intros num l es H i f v p q Hf Hv Hw Hp Hr Hq; [destruct i; discriminate|].
  destruct i as [|i].
  - injection Hf as ->. cbn [number_at]. replace (num - 1 + 1) with num by lia.
    assert (Hd : deref_type (sf_type f) = sf_type f) by (destruct (sf_type f); try reflexivity; discriminate Hr).
    assert (He : entries env (sf_type f) = false) by (unfold entries; rewrite Hr; reflexivity).
    destruct (tag_value _ _ _ _ Hq) as [Hu Hz].
    inversion H as [|? ? ? ? ? ? Ho Hfs|? ? ? ? ? o ? Ho Dv We Hfs|? ? ? ? ? o e vs es' es2 Ho En _ _ _ _ Hfs
      |? ? ? ? w ? o m q1 ? Ho _ Dv We _ Hu' W Zq Hfs|? ? ? ? w ? o m q1 ? Ho _ Dv Hu' W Zq Hfs]; subst; injection Hv as ->.
    + exfalso. apply (opts_written f num) in Hw. congruence.
    + split; [intros q' X; exfalso; exact (fields_above _ _ _ _ _ _ num _ Hfs ltac:(lia) X)|congruence].
    + congruence.
    + split; [intros q' X; exfalso; exact (fields_above _ _ _ _ _ _ num _ Hfs ltac:(lia) X)|].
      rewrite Hu in Hu'. injection Hu' as <-. rewrite Hd in W. apply (wire_prim _ _ _ _ _ _ _ _ Hp Hr) in W.
      rewrite (tag_prim _ _ _ _ _ _ Ho Hq) in W. injection W as <-. congruence.
    + rewrite Hu in Hu'. injection Hu' as <-. rewrite Hd in W. apply (wire_prim _ _ _ _ _ _ _ _ Hp Hr) in W.
      rewrite (tag_prim _ _ _ _ _ _ Ho Hq) in W. injection W as <-. split.
      * intros q' [X|X]; [congruence|]. exfalso. exact (fields_above _ _ _ _ _ _ num _ Hfs ltac:(lia) X).
      * intros _ _. left. reflexivity.
  - cbn [nth_error] in Hf. rewrite (number_cons g fs i num). destruct l as [|v1 l]; [discriminate|]. cbn [nth_error] in Hv.
    pose proof (number_pos fs i) as Hn.
    assert (E1 : num - 1 + (1 + number_at fs i) = num + 1 - 1 + number_at fs i) by lia.
    inversion H as [|? ? ? ? ? ? Ho Hfs|? ? ? ? ? o ? Ho Dv We Hfs|? ? ? ? ? o e vs es' es2 Ho En _ _ _ Hel Hfs
      |? ? ? ? w ? o m q1 ? Ho _ Dv We _ Hu' W Zq Hfs|? ? ? ? w ? o m q1 ? Ho _ Dv Hu' W Zq Hfs]; subst; rewrite Ho; rewrite ?E1;
      destruct (IH _ _ _ Hfs i f v p q Hf Hv Hw Hp Hr Hq) as [I1 I2].
    + split; assumption.
    + split; assumption.
    + apply elems_order in Hel. rewrite Forall_forall in Hel. split.
      * intros q' X. apply in_app_or in X. destruct X as [X|X]; [|apply I1; exact X]. apply Hel in X. cbn in X. lia.
      * intros A B. apply in_or_app. right. apply I2; assumption.
    + split; assumption.
    + split; [intros q' [X|X]; [inversion X; lia|apply I1; exact X]|]. intros A B. right. apply I2; assumption.
Qed.

Lemma tag_nonzero env t tag p v q : resolve env t = RPrim p -> has_type env t v = true -> tag_payload tag p v = Some q -> defaultv v = false -> zero_payload q = false.
Proof.
  intros Hr Ht Hq Hd. assert (P : prim_has p v = true) by (destruct v; cbn [has_type] in Ht; rewrite Hr in Ht; exact Ht).
  destruct p, v; cbn [tag_payload] in Hq; try discriminate; cbn [defaultv prim_has] in *; unfold in_int, in_uint in *;
    injection Hq as <-; try (destruct (beqb _ _)); cbn [zero_payload]; try reflexivity; try (apply Z.eqb_neq); try lia;
    intros X; apply Z.mod_divide in X; try lia; destruct X as [k X]; lia.
Qed.
