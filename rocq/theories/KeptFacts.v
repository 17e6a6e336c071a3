(** Hidden fields: the decoder does not touch those of the variable it fills. *)
From Coq Require Import ZArith String List Bool Lia.
From Coq Require Import ZifyBool ZifyNat.
From Verif Require Import Base Prims SpecWire PrimFacts PrimProps Types Codec BinEnc BinDec Amino FuelFacts DecFacts DecProps
  ValueInd Typing Registry SpecRegistry RegistryFacts Sane DecSafe SpecNorm EncFacts RoundTrip TopFacts SpecStruct SkipFacts.
Import ListNotations.
Local Open Scope Z_scope.
Local Open Scope amino_scope.

Definition ksp {A} (Q : A -> Prop) (r : dres A) : Prop := dspec (fun a _ _ => Q a) (fun _ => True) True r.
Lemma ksp_bind {A B} (Q : B -> Prop) (R : A -> Prop) (r : dres A) k :
  ksp R r -> (forall a n e, R a -> ksp Q (k a n e)) -> ksp Q (dbind r k).
Proof. intros H1 H2. apply dspec_bind. eapply dspec_weaken; [exact H1|]. cbn beta. intros; apply H2; assumption. Qed.
Lemma ksp_any {A} (r : dres A) : ksp (fun _ => True) r.
Proof. destruct r; exact I. Qed.
Lemma ksp_slide {A} (Q : A -> Prop) bz n k : ksp Q (k (skipn n bz)) -> ksp Q (slide bz n k).
Proof. unfold slide. intros H. destruct (_ <? _)%nat; [exact I|exact H]. Qed.
Lemma ksp_eget {A B} (Q : B -> Prop) (r : eres A) kerr k :
  (forall a, r = EOk a -> ksp Q (k a)) -> (forall e, ksp Q (kerr e)) -> ksp Q (eget r kerr k).
Proof. intros H1 H2. destruct r; cbn [eget]; try exact I; auto. Qed.

Section Kept.
  Variable env : tenv.
  Hypothesis We : wf_env env.

  Lemma kept_all_intro e l l' : Forall2 (kept env e) l l' -> kept_all env e l l'.
  Proof. induction 1; constructor; assumption. Qed.
  Lemma kept_all_app e a a' b b' : kept_all env e a a' -> kept_all env e b b' -> kept_all env e (a ++ b) (a' ++ b').
  Proof. induction 1; cbn [app]; intros; [assumption|]. constructor; auto. Qed.

  Lemma kept_same v : forall t, has_type env t v = true -> kept env t v v.
  Proof.
    induction v using value_ind'; intros ty Ht;
      destruct (atomic env ty) eqn:Ea; try (apply kept_atomic; exact Ea); unfold atomic in Ea; cbn [has_type] in Ht;
      destruct (resolve env ty) eqn:Er; try discriminate.
    - eapply kept_array; [exact Er|]. apply andb_true_iff in Ht. destruct Ht as [_ Ht]. clear Er Ea. induction H; [constructor|].
      cbn [forallb] in Ht. apply andb_true_iff in Ht. constructor; [apply H; tauto|apply IHForall; tauto].
    - pose proof (resolve_ptr _ _ _ We Er) as ->. apply kept_fresh.
    - pose proof (resolve_ptr _ _ _ We Er) as ->. apply kept_ptr. apply IHv. exact Ht.
    - eapply kept_struct; [exact Er|]. clear Er Ea. revert fs Ht. induction H; intros [|f fs] Ht; try discriminate; [constructor|].
      cbn [forall2b] in Ht. apply andb_true_iff in Ht. destruct Ht as [H1 H2].
      destruct (visible f) eqn:Ev; [apply kept_shown|apply kept_hidden]; auto.
  Qed.
  Lemma kept_fields_same : forall fs l, forall2b (fun f w => has_type env (sf_type f) w) fs l = true -> kept_fields env fs l l.
  Proof.
    induction fs as [|f fs IH]; intros [|v l] H; try discriminate; [constructor|].
    cbn [forall2b] in H. apply andb_true_iff in H. destruct H as [H1 H2].
    destruct (visible f) eqn:Ev; [apply kept_shown|apply kept_hidden]; auto. apply kept_same. exact H1.
  Qed.
  Lemma kept_all_same e l : forallb (has_type env e) l = true -> kept_all env e l l.
  Proof.
    induction l as [|v l IH]; intros H; [constructor|]. cbn [forallb] in H. apply andb_true_iff in H. constructor; [apply kept_same|apply IH]; tauto.
  Qed.

  Lemma kept_rebuild : forall t v0 w, has_type env t v0 = true ->
    kept env (deref_type t) (base_of env t v0) w -> kept env t v0 (rebuild t w).
  Proof.
    unfold rebuild. induction t; intros v0 w Ht H; cbn [deref_type base_of wrap_ptrs] in *; try exact H.
    destruct v0 as [| | | | | | | |[x|]| | | | | |]; try discriminate Ht; [|apply kept_fresh].
    apply kept_ptr. apply IHt; assumption.
  Qed.

  Variable c : codec.
  Hypothesis Hs : sane_codec env c.

  Section Rec.
    Variable rec : bytes -> tinfo -> gotype -> value -> fopts -> bool -> dres value.
    Hypothesis Hrec : forall bz info t v0 o bare, minfo env c info t -> has_type env t v0 = true -> ksp (kept env t v0) (rec bz info t v0 o bare).

    Lemma array_packed_kept einfo e o : minfo env c einfo e -> forall todo bz n done0 done, forallb (has_type env e) todo = true ->
      kept_all env e done0 done ->
      ksp (fun r => kept_all env e (done0 ++ todo) (fst r)) (decode_array_packed env rec bz n einfo e o done todo).
    Proof.
      intros Hi. induction todo as [|w0 todo IH]; intros bz n done0 done Ht Hd; cbn [decode_array_packed].
      - cbn. rewrite app_nil_r. exact Hd.
      - cbn [forallb] in Ht. apply andb_true_iff in Ht. destruct Ht as [H1 H2].
        eapply ksp_bind; [apply Hrec; assumption|]. intros w k er Hw. apply ksp_slide. destruct er as [er|].
        + cbn. apply kept_all_app; [exact Hd|]. constructor; [exact Hw|apply kept_all_same; exact H2].
        + replace (done0 ++ w0 :: todo) with ((done0 ++ [w0]) ++ todo) by (rewrite <- app_assoc; reflexivity).
          apply IH; [exact H2|]. apply kept_all_app; [exact Hd|]. constructor; [|constructor].
          unfold prefer_nil. destruct (_ && _); [apply kept_reset; left; reflexivity|exact Hw].
    Qed.
    Lemma array_unpacked_kept einfo e o : minfo env c einfo e -> forall todo bz n done0 done, forallb (has_type env e) todo = true ->
      kept_all env e done0 done ->
      ksp (fun r => kept_all env e (done0 ++ todo) (fst r)) (decode_array_unpacked env rec bz n einfo e o done todo).
    Proof.
      intros Hi. induction todo as [|w0 todo IH]; intros bz n done0 done Ht Hd; cbn [decode_array_unpacked].
      - cbn. rewrite app_nil_r. exact Hd.
      - pose proof Ht as Hall. cbn [forallb] in Ht. apply andb_true_iff in Ht. destruct Ht as [H1 H2].
        assert (Same : kept_all env e (done0 ++ w0 :: todo) (done ++ w0 :: todo)) by (apply kept_all_app; [exact Hd|apply kept_all_same; exact Hall]).
        eapply ksp_bind; [apply ksp_any|]. intros kt k er _. destruct (negb _); [exact Same|]. destruct (negb _); [exact Same|].
        apply ksp_slide. cbv zeta. destruct er as [er|]; [exact Same|].
        replace (done0 ++ w0 :: todo) with ((done0 ++ [w0]) ++ todo) by (rewrite <- app_assoc; reflexivity).
        destruct (skip_empty _ _ _ _ _).
        + apply IH; [exact H2|]. apply kept_all_app; [exact Hd|]. constructor; [|constructor]. apply kept_reset. right. symmetry. apply absent_eq.
        + eapply ksp_bind; [apply Hrec; assumption|]. intros w k2 er Hw. apply ksp_slide. destruct er as [er|].
          * cbn. rewrite <- app_assoc. apply kept_all_app; [exact Hd|]. constructor; [exact Hw|apply kept_all_same; exact H2].
          * apply IH; [exact H2|]. apply kept_all_app; [exact Hd|]. constructor; [exact Hw|constructor].
    Qed.

    Lemma enter_kept {A} (Q : A -> Prop) v0 bare bz k : Q v0 -> (forall b n, ksp Q (k b n)) -> ksp Q (enter v0 bare bz k).
    Proof.
      intros H0 Hk. unfold enter. destruct bare; [apply Hk|]. eapply ksp_bind; [apply ksp_any|]. intros b n e _. apply ksp_slide.
      destruct e; [exact H0|apply Hk].
    Qed.

    Lemma array_kept t n e bz v0 o bare : resolve env t = RArray n e -> has_type env t v0 = true ->
      ksp (kept env t v0) (decode_array env c rec bz e v0 o bare).
    Proof.
      intros Hr Ht. pose proof (kept_same _ _ Ht) as Same. unfold decode_array. destruct (is_uint8 env e); [exact I|].
      destruct v0; try exact I. cbn [has_type] in Ht. rewrite Hr in Ht. apply andb_true_iff in Ht. destruct Ht as [_ Hl].
      apply ksp_eget; [|intros; exact Same]. intros einfo Hg. pose proof (gti_minfo _ _ _ _ Hs Hg) as Hi.
      apply enter_kept; [exact Same|]. intros b n0. apply ksp_eget; [|intros; exact Same]. intros typ3 _.
      destruct (negb _).
      - eapply ksp_bind; [apply (array_packed_kept einfo e o Hi l b n0 [] []); [exact Hl|constructor]|].
        intros [l' b'] n' er H. cbn [fst app] in H. assert (K : kept env t (VArr l) (VArr l')) by (eapply kept_array; eassumption).
        destruct er; [exact K|]. destruct b'; exact K.
      - eapply ksp_bind; [apply (array_unpacked_kept einfo e o Hi l b n0 [] []); [exact Hl|constructor]|].
        intros [l' b'] n' er H. cbn [fst app] in H. assert (K : kept env t (VArr l) (VArr l')) by (eapply kept_array; eassumption).
        destruct er; [exact K|]. destruct b'; [exact K|]. eapply ksp_bind; [apply ksp_any|]. intros kt k er _. destruct er; [exact K|].
        destruct (_ <=? _); exact K.
    Qed.
    Lemma byte_array_kept t n e bz v0 : resolve env t = RArray n e -> is_uint8 env e = true -> has_type env t v0 = true ->
      ksp (kept env t v0) (decode_byte_array bz n e v0).
    Proof.
      intros Hr Hu Ht. pose proof (kept_same _ _ Ht) as Same. unfold decode_byte_array. destruct (_ <? _)%nat; [exact Same|].
      eapply ksp_bind; [apply ksp_any|]. intros b k er _. apply ksp_slide. destruct er; [exact Same|].
      destruct (length b =? n)%nat eqn:El; cbn [negb]; [|exact Same]. destruct (gotype_eqb _ _); [|exact I]. cbn.
      destruct v0; cbn [has_type] in Ht; rewrite Hr in Ht; try discriminate. apply andb_true_iff in Ht. destruct Ht as [Hn _].
      eapply kept_array; [exact Hr|]. apply Nat.eqb_eq in Hn. apply Nat.eqb_eq in El. rewrite <- Hn in El.
      assert (At : atomic env e = true) by (unfold atomic; unfold is_uint8 in Hu; destruct (resolve env e); try discriminate; reflexivity).
      clear - At El. revert b El. induction l as [|v l IH]; intros [|x b] El; try discriminate; cbn [bytes_val map]; constructor; [apply kept_atomic; exact At|].
      apply IH. cbn in El. lia.
    Qed.

    Lemma field_kept f pre v l bz last n : fi_index f = length pre -> has_type env (fi_type f) v = true ->
      ksp (fun st => exists v', fst (fst st) = pre ++ v' :: l /\ kept env (fi_type f) v v')
          (decode_field env c rec f (pre ++ v :: l) bz last n).
    Proof.
      intros Hx Ht. unfold decode_field. cbv zeta. rewrite Hx. rewrite app_nth2, Nat.sub_diag by lia. cbn [nth].
      assert (U : forall w, upd (length pre) w (pre ++ v :: l) = pre ++ w :: l) by (intros w; rewrite upd_mid, <- app_assoc; reflexivity).
      pose proof (kept_same _ _ Ht) as Same.
      assert (Def : kept env (fi_type f) v (default_value env (fi_type f))) by (apply kept_reset; right; symmetry; apply absent_eq).
      rewrite U. apply ksp_eget; [|intros; cbn; eexists; split; [reflexivity|exact Same]]. intros info Hg. pose proof (gti_minfo _ _ _ _ Hs Hg) as Hi.
      destruct bz as [|b0 bz]; [cbn; eexists; split; [reflexivity|exact Def]|]. destruct (fi_unpacked f).
      - eapply ksp_bind; [apply Hrec; assumption|]. intros w m e Hw. apply ksp_slide. cbn. rewrite U. eexists; split; [reflexivity|exact Hw].
      - eapply ksp_bind; [apply ksp_any|]. intros [fnum typ] m e _. destruct (_ <? _); [cbn; eexists; split; [reflexivity|exact Def]|].
        destruct (_ <=? _); [cbn; eexists; split; [reflexivity|exact Same]|]. apply ksp_slide. cbv zeta.
        destruct e; [cbn; eexists; split; [reflexivity|exact Same]|].
        destruct (negb _); [cbn; eexists; split; [reflexivity|exact Same]|].
        apply ksp_eget; [|intros; cbn; eexists; split; [reflexivity|exact Same]]. intros tw _.
        destruct (negb _); [cbn; eexists; split; [reflexivity|exact Same]|].
        eapply ksp_bind; [apply Hrec; assumption|]. intros w m2 e Hw. apply ksp_slide. cbn. rewrite U. eexists; split; [reflexivity|exact Hw].
    Qed.

    Lemma fields_kept : forall fs i num infos, parse_fields env fs i num = EOk infos ->
      forall pre l bz last n, length pre = i -> forall2b (fun f w => has_type env (sf_type f) w) fs l = true ->
      ksp (fun st => exists l', fst (fst st) = pre ++ l' /\ kept_fields env fs l l') (decode_fields env c rec infos (pre ++ l) bz last n).
    Proof.
      induction fs as [|f fs IH]; intros i num infos Hp pre l bz last n Hl Ht.
      - cbn in Hp. apply EOk_inj in Hp. subst infos. destruct l; [|discriminate]. cbn. eexists; split; [reflexivity|constructor].
      - destruct l as [|v l]; [discriminate|]. pose proof (kept_fields_same _ _ Ht) as Same. cbn [forall2b] in Ht. apply andb_true_iff in Ht. destruct Ht as [H1 H2].
        apply parse_step in Hp. destruct (field_opts _ f) as [o|] eqn:Eo.
        + destruct Hp as (fi & rest & -> & Hx & Hft & _ & _ & _ & Hp). cbn [decode_fields].
          assert (V : visible f = true) by (destruct (visible f) eqn:V; [reflexivity|]; apply visible_opts with (num := Z.of_nat num + 1) in V; congruence).
          eapply ksp_bind; [apply (field_kept fi pre v l bz last n); [congruence|rewrite Hft; exact H1]|].
          intros [[l1 b1] last1] n1 e (v' & E & K). cbn [fst] in E. subst l1. rewrite Hft in K. destruct e.
          * cbn. eexists; split; [reflexivity|]. apply kept_shown; [exact V|exact K|apply kept_fields_same; exact H2].
          * replace (pre ++ v' :: l) with ((pre ++ [v']) ++ l) by (rewrite <- app_assoc; reflexivity).
            eapply dspec_weaken; [apply (IH _ _ _ Hp); [rewrite app_length; cbn; lia|exact H2]|]. cbn beta.
            intros st _ _ (l' & E & Kl). exists (v' :: l'). rewrite E, <- app_assoc. split; [reflexivity|]. apply kept_shown; assumption.
        + apply visible_opts in Eo. replace (pre ++ v :: l) with ((pre ++ [v]) ++ l) by (rewrite <- app_assoc; reflexivity).
          eapply dspec_weaken; [apply (IH _ _ _ Hp); [rewrite app_length; cbn; lia|exact H2]|]. cbn beta.
          intros st _ _ (l' & E & Kl). exists (v :: l'). rewrite E, <- app_assoc. split; [reflexivity|]. apply kept_hidden; assumption.
    Qed.

    Lemma struct_fields_kept t fs ci bz l bare : resolve env t = RStruct fs -> ci_type ci = t -> info_ok env ci ->
      has_type env t (VStruct l) = true ->
      ksp (fun v => exists l', v = VStruct l' /\ kept_fields env fs l l') (decode_struct env c rec bz ci (VStruct l) bare).
    Proof.
      intros Hr Hct Hok Ht. cbn [has_type] in Ht. rewrite Hr in Ht. unfold decode_struct.
      apply enter_kept; [exists l; split; [reflexivity|apply kept_fields_same; exact Ht]|]. intros b n0. rewrite Hct, Hr.
      destruct (info_ok_parts _ _ Hok) as (_ & Hp & _). rewrite Hct in Hp. unfold parse_struct_info in Hp. rewrite Hr in Hp.
      eapply ksp_bind; [apply (fields_kept _ _ _ _ Hp [] l b 0 n0 eq_refl Ht)|].
      intros [[l1 b1] last1] n1 e (l' & E & K). cbn [fst app] in E. subst l1.
      destruct e; [cbn; exists l'; split; [reflexivity|exact K]|].
      eapply ksp_bind; [apply ksp_any|]. intros _ n2 e2 _. cbn. exists l'; split; [reflexivity|exact K].
    Qed.

    Lemma switch_kept bz info t v0 o bare : minfo env c info t -> deref_type t = t -> has_type env t v0 = true ->
      ksp (kept env t v0) (decode_switch env c rec bz info v0 o bare).
    Proof.
      intros Hi D Ht. destruct (atomic env t) eqn:Ea.
      { eapply dspec_weaken; [apply ksp_any|]. cbn beta. intros. apply kept_atomic. exact Ea. }
      unfold decode_switch. rewrite (minfo_type _ _ _ _ Hi), D. unfold atomic in Ea. destruct (resolve env t) eqn:Er; try discriminate.
      - destruct (is_uint8 env e) eqn:Eu; [eapply byte_array_kept|eapply array_kept]; eassumption.
      - exact I.
      - destruct info as [ci|]; [|exact I]. destruct Hi as [Hct Hok]. rewrite D in Hct.
        destruct v0; cbn [has_type] in Ht; rewrite Er in Ht; try discriminate.
        eapply dspec_weaken; [apply (struct_fields_kept t fs); try assumption; cbn [has_type]; rewrite Er; exact Ht|]. cbn beta.
        intros a _ _ (l' & -> & K). eapply kept_struct; eassumption.
    Qed.
  End Rec.

  Theorem decode_kept : forall fuel bz info t v0 o bare, minfo env c info t -> has_type env t v0 = true ->
    ksp (kept env t v0) (decode_reflect fuel env c bz info t v0 o bare).
  Proof.
    induction fuel as [|k IH]; intros bz info t v0 o bare Hi Ht; [exact I|].
    set (w0 := base_of env t v0). assert (Hw : has_type env (deref_type t) w0 = true) by (apply has_type_base; assumption).
    pose proof (minfo_deref _ _ _ _ Hi) as Hid.
    assert (G : ksp (kept env t v0) (dmap (rebuild t)
            (match info with
             | TIConc {| ci_type := ct; ci_unmarshal := Some r |} =>
                 eget (get_type_info env c r) (fun e => DRet w0 0 (Some e)) (fun rinfo =>
                 dbind (decode_reflect k env c bz rinfo r (zero env r) o bare) (fun rv n e =>
                 slide bz n (fun _ =>
                 match e with
                 | Some e => DRet w0 n (Some e)
                 | None => eget (from_repr env ct w0 rv) (fun e => DRet w0 n (Some e))
                                (fun r => DRet (fst r) n (snd r))
                 end)))
             | _ => decode_switch env c (decode_reflect k env c) bz info w0 o bare
             end))).
    { unfold dmap. eapply ksp_bind with (R := kept env (deref_type t) w0); [|intros w n e Hk; apply kept_rebuild; assumption].
      pose proof (switch_kept _ IH bz info (deref_type t) w0 o bare Hid (deref_idem t) Hw) as S.
      destruct info as [[ct fs m [r|] rg]|ii]; try exact S.
      eapply dspec_weaken; [apply ksp_any|]. cbn beta. intros a _ _ _. apply kept_method.
      destruct Hid as [Hct Hok]. cbn [ci_type] in Hct. rewrite deref_idem in Hct.
      pose proof (fun X => minfo_unmethod env _ (deref_type t) X Hok) as M. specialize (M Hct). cbn [ci_unmarshal] in M.
      destruct M as (id & g & E & Hg & _). rewrite E. cbn. rewrite Hg. reflexivity. }
    cbn [decode_reflect]. destruct info, t; try exact I; exact G.
  Qed.

  (** Whole calls: the hidden fields of the variable are as before, also after an error. *)
  Theorem unmarshal_kept fuel bz rt fs l0 v e : resolve env rt = RStruct fs -> unmarshals env rt = false ->
    has_type env rt (VStruct l0) = true ->
    unmarshal_bare fuel env c bz rt (VStruct l0) = URet v e -> exists l, v = VStruct l /\ kept_fields env fs l0 l.
  Proof.
    intros Hr Hu Ht H. rewrite unmarshal_eq in H.
    assert (Same : forall e', URet (VStruct l0) e' = URet v e -> exists l, v = VStruct l /\ kept_fields env fs l0 l).
    { intros e' X. injection X as <- _. exists l0. split; [reflexivity|]. apply kept_fields_same. cbn [has_type] in Ht. rewrite Hr in Ht. exact Ht. }
    destruct (get_type_info env c rt) as [info| | |] eqn:Eg; try discriminate; [|eapply Same; exact H].
    pose proof (gti_minfo _ _ _ _ Hs Eg) as Hi.
    assert (D : deref_type rt = rt) by (destruct rt; try reflexivity; discriminate).
    assert (B : forall b, um_body env (fun b bare => decode_reflect fuel env c b info rt (VStruct l0) top_opts bare) (ti_type info) rt (VStruct l0) b = URet v e ->
      exists l, v = VStruct l /\ kept_fields env fs l0 l).
    { intros b. unfold um_body. rewrite (minfo_type _ _ _ _ Hi), D.
      assert (Es : is_struct_or_repeated_struct env rt = true) by (unfold is_struct_or_repeated_struct; rewrite Hr; reflexivity).
      rewrite Es. cbn [negb andb].
      assert (K : ksp (fun v => exists l, v = VStruct l /\ kept_fields env fs l0 l) (decode_reflect fuel env c b info rt (VStruct l0) top_opts true)).
      { destruct fuel as [|k]; [exact I|]. destruct info as [ci|ii].
        2:{ destruct Hi as [_ Hi]. rewrite D in Hi. subst rt. discriminate. }
        destruct Hi as [Hct Hok]. rewrite D in Hct. pose proof (minfo_unmethod env ci rt Hct Hok) as M.
        destruct ci as [ct cf cm [r|] cr]; cbn [ci_unmarshal] in M.
        { destruct M as (id & g & E & Hg & _). rewrite E in Hu. unfold unmarshals in Hu. rewrite Hg in Hu. discriminate Hu. }
        pose proof (struct_fields_kept _ (fun bz info t v0 o bare => decode_kept k bz info t v0 o bare) rt fs _ b l0 true Hr Hct Hok Ht) as S.
        cbn [decode_reflect]. unfold decode_switch. cbn [ti_type ci_type] in *. rewrite Hct, Hr.

        assert (Bo : base_of env rt (VStruct l0) = VStruct l0) by (destruct rt; try reflexivity; discriminate).
        rewrite Bo. rewrite Hct in S. destruct rt; try discriminate; (eapply ksp_bind; [exact S|]; intros a n er Ha; exact Ha). }
      unfold um_finish. destruct (decode_reflect fuel env c b info rt (VStruct l0) top_opts true) as [w n [er|]| |]; try discriminate.
      - intros X. injection X as <- _. exact K.
      - destruct (negb _); intros X; injection X as <- _; exact K. }
    cbv zeta in H. destruct info as [ci|ii]; [|eapply B; exact H]. destruct (ci_reg ci) as [r|]; [|eapply B; exact H].
    destruct (_ <? _)%nat; [eapply Same; exact H|]. destruct (negb _); [eapply Same; exact H|eapply B; exact H].
  Qed.
End Kept.
