(** Decoding into two variables of the same type: same outcome, up to hidden fields. *)
From Coq Require Import ZArith String List Bool Lia.
From Coq Require Import ZifyBool ZifyNat.
From Verif Require Import Base Prims SpecWire PrimFacts PrimProps Types Codec BinEnc BinDec Amino FuelFacts DecFacts DecProps
  ValueInd Typing Registry SpecRegistry RegistryFacts Sane DecSafe SpecNorm EncFacts RoundTrip TopFacts SpecStruct SkipFacts.
Import ListNotations.
Local Open Scope Z_scope.
Local Open Scope amino_scope.

Definition dsim {A} (R : A -> A -> Prop) (r r' : dres A) : Prop :=
  match r, r' with
  | DRet a n None, DRet a' n' None => n = n' /\ R a a'
  | DRet _ n (Some e), DRet _ n' (Some e') => n = n' /\ e = e'
  | DPanic p, DPanic p' => p = p'
  | DFuel, DFuel => True
  | _, _ => False
  end.
Lemma dsim_refl {A} (R : A -> A -> Prop) r : (forall a, R a a) -> dsim R r r.
Proof. intros H. destruct r as [a n [e|]| |]; cbn; auto. Qed.
Lemma dsim_bind {A B} (R : A -> A -> Prop) (S : B -> B -> Prop) r r' k k' : dsim R r r' ->
  (forall a a' n, R a a' -> dsim S (k a n None) (k' a' n None)) ->
  (forall a a' n e, dsim S (k a n (Some e)) (k' a' n (Some e))) -> dsim S (dbind r k) (dbind r' k').
Proof.
  intros H H1 H2. destruct r as [a n [e|]|p|], r' as [a' n' [e'|]|p'|]; try contradiction; cbn [dbind dsim] in *; auto.
  - destruct H as [-> ->]. apply H2.
  - destruct H as [-> H]. apply H1. exact H.
Qed.
Lemma dsim_slide {A} (S : A -> A -> Prop) bz n k k' : dsim S (k (skipn n bz)) (k' (skipn n bz)) -> dsim S (slide bz n k) (slide bz n k').
Proof. unfold slide. intros H. destruct (_ <? _)%nat; [reflexivity|exact H]. Qed.
Lemma dsim_eget {A B} (S : B -> B -> Prop) (r : eres A) kerr kerr' k k' :
  (forall a, r = EOk a -> dsim S (k a) (k' a)) -> (forall e, dsim S (kerr e) (kerr' e)) -> dsim S (eget r kerr k) (eget r kerr' k').
Proof. intros H1 H2. destruct r; cbn [eget]; auto; reflexivity. Qed.
Lemma dsim_same {A B} (S : B -> B -> Prop) (r : dres A) k k' : 
  (forall a n e, dsim S (k a n e) (k' a n e)) -> dsim S (dbind r k) (dbind r k').
Proof. intros H. destruct r; cbn [dbind]; auto; reflexivity. Qed.

Section Reuse.
  Variable env : tenv.
  Hypothesis We : wf_env env.

  Lemma unset_res t t' v : resolve env t = resolve env t' -> unset env t v = unset env t' v.
  Proof. intros H. destruct v; cbn [unset]; rewrite H; reflexivity. Qed.
  Lemma unset_zero t : unset env t (zero env t) = true.
  Proof.
    apply (zero_ind env (fun t v => unset env t v = true) We); try reflexivity.
    - destruct p; reflexivity.
    - intros n e H. cbn [unset resolve]. apply forallb_forall. intros x Hx. pose proof (repeat_spec _ _ _ Hx) as ->.
      apply H; [reflexivity|]. destruct n; [destruct Hx|lia].
    - intros id fs Hd H. cbn [unset resolve]. rewrite Hd. rewrite <- (map_id fs) at 1. apply forall2b_map.
      intros f Hf. apply orb_true_iff. right. apply H. exact Hf.
    - intros id t' Hd _ H. rewrite <- H. apply unset_res. apply resolve_utype; assumption.
  Qed.
  Lemma unset_base t : forall v, unset env t v = true -> unset env (deref_type t) (base_of env t v) = true.
  Proof.
    induction t; intros v H; cbn [deref_type base_of]; auto.
    apply IHt. destruct v as [| | | | | | | |[w|]| | | | | |]; try apply unset_zero. exact H.
  Qed.
  Lemma alike_wrap t v w : alike env (deref_type t) v w -> alike env t (wrap_ptrs t v) (wrap_ptrs t w).
  Proof. induction t; cbn [deref_type wrap_ptrs]; auto. intros H. apply alike_ptr. auto. Qed.
  Lemma alike_all_app e a a' b b' : alike_all env e a a' -> alike_all env e b b' -> alike_all env e (a ++ b) (a' ++ b').
  Proof. induction 1; cbn [app]; intros; [assumption|]. constructor; auto. Qed.

  Hypothesis Ho : overwriting env.
  Variable c : codec.
  Hypothesis Hs : sane_codec env c.

  Definition reuse (rec : bytes -> tinfo -> gotype -> value -> fopts -> bool -> dres value) : Prop :=
    forall bz info t v0 v1 o bare, minfo env c info t -> has_type env t v0 = true -> has_type env t v1 = true ->
      unset env t v0 = true -> unset env t v1 = true ->
      dsim (alike env t) (rec bz info t v0 o bare) (rec bz info t v1 o bare).

  Section Rec.
    Variable rec : bytes -> tinfo -> gotype -> value -> fopts -> bool -> dres value.
    Hypothesis Hrec : reuse rec.
    Local Ltac err := cbn; split; reflexivity.

    Lemma enter_reuse {A} (S : A -> A -> Prop) v0 v1 bare bz k k' :
      (forall b n, dsim S (k b n) (k' b n)) -> dsim S (enter v0 bare bz k) (enter v1 bare bz k').
    Proof.
      intros H. unfold enter. destruct bare; [apply H|]. apply dsim_same. intros b n e. apply dsim_slide. destruct e; [err|apply H].
    Qed.
    Lemma scalar_reuse {A} t v0 v1 bz (r : dres A) (f f' : A -> dres value) :
      (forall a, dsim (alike env t) (f a) (f' a)) -> dsim (alike env t) (set_scalar v0 bz r f) (set_scalar v1 bz r f').
    Proof.
      intros H. unfold set_scalar. apply dsim_same. intros a n e. apply dsim_slide. destruct e; [err|].
      specialize (H a). destruct (f a) as [x m [e|]| |], (f' a) as [y m' [e'|]| |]; try contradiction; cbn [dbind dsim] in *; tauto.
    Qed.
    Lemma prim_reuse t p v0 v1 bz o : dsim (alike env t) (decode_prim p v0 bz o) (decode_prim p v1 bz o).
    Proof.
      unfold decode_prim. destruct p;
        repeat match goal with
               | |- dsim _ (set_scalar _ _ _ _) _ => apply scalar_reuse; intros
               | |- dsim _ (if ?b then _ else _) _ => destruct b
               | |- dsim _ (DRet _ _ None) _ => split; [reflexivity|apply alike_refl]
               | |- dsim _ (DRet _ _ (Some _)) _ => err
               end.
    Qed.


    Lemma array_packed_reuse einfo e o : minfo env c einfo e -> forall todo todo' bz n done done',
      length todo = length todo' -> forallb (has_type env e) todo = true -> forallb (has_type env e) todo' = true ->
      forallb (unset env e) todo = true -> forallb (unset env e) todo' = true -> alike_all env e done done' ->
      dsim (fun r r' => alike_all env e (fst r) (fst r') /\ snd r = snd r')
        (decode_array_packed env rec bz n einfo e o done todo) (decode_array_packed env rec bz n einfo e o done' todo').
    Proof.
      intros Hi. induction todo as [|w todo IH]; intros [|w' todo'] bz n done done' El T T' U U' Hd; try discriminate; cbn [decode_array_packed].
      - cbn. auto.
      - cbn [forallb] in *. apply andb_true_iff in T, T', U, U'. destruct T as [T1 T2], T' as [T1' T2'], U as [U1 U2], U' as [U1' U2'].
        eapply dsim_bind; [apply Hrec; assumption| |]; intros a a' k.
        + intros Ha. apply dsim_slide. apply IH; try assumption; [cbn in El; lia|]. apply alike_all_app; [exact Hd|]. constructor; [|constructor].
          unfold prefer_nil. rewrite !default_eq, (alike_default _ _ _ _ Ha). destruct (_ && _); [apply alike_refl|exact Ha].
        + intros er. apply dsim_slide. err.
    Qed.
    Lemma array_unpacked_reuse einfo e o : minfo env c einfo e -> forall todo todo' bz n done done',
      length todo = length todo' -> forallb (has_type env e) todo = true -> forallb (has_type env e) todo' = true ->
      forallb (unset env e) todo = true -> forallb (unset env e) todo' = true -> alike_all env e done done' ->
      dsim (fun r r' => alike_all env e (fst r) (fst r') /\ snd r = snd r')
        (decode_array_unpacked env rec bz n einfo e o done todo) (decode_array_unpacked env rec bz n einfo e o done' todo').
    Proof.
      intros Hi. induction todo as [|w todo IH]; intros [|w' todo'] bz n done done' El T T' U U' Hd; try discriminate; cbn [decode_array_unpacked].
      - cbn. auto.
      - cbn [forallb] in *. apply andb_true_iff in T, T', U, U'. destruct T as [T1 T2], T' as [T1' T2'], U as [U1 U2], U' as [U1' U2'].
        apply dsim_same. intros kt k er. destruct (negb _); [err|]. destruct (negb _); [err|]. apply dsim_slide. cbv zeta.
        destruct er; [err|]. destruct (skip_empty _ _ _ _ _).
        + apply IH; try assumption; [cbn in El; lia|]. apply alike_all_app; [exact Hd|]. constructor; [apply alike_refl|constructor].
        + eapply dsim_bind; [apply Hrec; assumption| |]; intros a a' k2.
          * intros Ha. apply dsim_slide. apply IH; try assumption; [cbn in El; lia|]. apply alike_all_app; [exact Hd|]. constructor; [exact Ha|constructor].
          * intros er. apply dsim_slide. err.
    Qed.

    Lemma array_reuse t n e bz v0 v1 o bare : resolve env t = RArray n e -> has_type env t v0 = true -> has_type env t v1 = true ->
      unset env t v0 = true -> unset env t v1 = true ->
      dsim (alike env t) (decode_array env c rec bz e v0 o bare) (decode_array env c rec bz e v1 o bare).
    Proof.
      intros Hr T T' U U'. unfold decode_array. destruct (is_uint8 env e); [reflexivity|].
      destruct v0; cbn [has_type] in T; rewrite Hr in T; try discriminate.
      destruct v1; cbn [has_type] in T'; rewrite Hr in T'; try discriminate.
      cbn [unset] in U, U'. rewrite Hr in U, U'. apply andb_true_iff in T, T'. destruct T as [L T], T' as [L' T'].
      apply Nat.eqb_eq in L, L'. assert (El : length l = length l0) by congruence.
      apply dsim_eget; [|intros; err]. intros einfo Hg. pose proof (gti_minfo _ _ _ _ Hs Hg) as Hi.
      apply enter_reuse. intros b n0. apply dsim_eget; [|intros; err]. intros typ3 _.
      destruct (negb _).
      - eapply dsim_bind; [apply (array_packed_reuse einfo e o Hi l l0 b n0 [] []); try assumption; constructor| |].
        + intros [x bx] [y by'] m [Ha Eb]. cbn [fst snd] in *. subst by'. destruct bx; [|err]. cbn. split; [reflexivity|]. eapply alike_array; eassumption.
        + intros [x bx] [y by'] m er. err.
      - eapply dsim_bind; [apply (array_unpacked_reuse einfo e o Hi l l0 b n0 [] []); try assumption; constructor| |].
        + intros [x bx] [y by'] m [Ha Eb]. cbn [fst snd] in *. subst by'.
          assert (A : alike env t (VArr x) (VArr y)) by (eapply alike_array; eassumption).
          destruct bx; [cbn; auto|]. apply dsim_same. intros kt k er. destruct er; [err|]. destruct (_ <=? _); [err|]. cbn. auto.
        + intros [x bx] [y by'] m er. err.
    Qed.

    Lemma iface_reuse ii bz v0 v1 o bare : has_type env (TIface (ii_id ii)) v0 = true -> has_type env (TIface (ii_id ii)) v1 = true ->
      unset env (TIface (ii_id ii)) v0 = true -> unset env (TIface (ii_id ii)) v1 = true ->
      dsim (alike env (TIface (ii_id ii))) (decode_interface env c rec bz ii v0 o bare) (decode_interface env c rec bz ii v1 o bare).
    Proof.
      intros T T' U U'.
      destruct v0; cbn in T; try discriminate. destruct v1; cbn in T'; try discriminate.
      destruct o0 as [[? ?]|]; cbn in U; try discriminate. destruct o1 as [[? ?]|]; cbn in U'; try discriminate.
      apply dsim_refl. intros; apply alike_refl.
    Qed.

    Lemma field_reuse f pre pre' v v' l l' bz last n : fi_index f = length pre -> length pre = length pre' ->
      has_type env (fi_type f) v = true -> has_type env (fi_type f) v' = true ->
      unset env (fi_type f) v = true -> unset env (fi_type f) v' = true ->
      dsim (fun st st' => snd st = snd st' /\ snd (fst st) = snd (fst st') /\
              exists w w', fst (fst st) = pre ++ w :: l /\ fst (fst st') = pre' ++ w' :: l' /\ alike env (fi_type f) w w')
          (decode_field env c rec f (pre ++ v :: l) bz last n) (decode_field env c rec f (pre' ++ v' :: l') bz last n).
    Proof.
      intros Hx El T T' U U'. unfold decode_field. cbv zeta.
      assert (Hx' : fi_index f = length pre') by congruence.
      assert (N : nth (fi_index f) (pre ++ v :: l) VInvalid = v) by (rewrite Hx, app_nth2, Nat.sub_diag by lia; reflexivity).
      assert (N' : nth (fi_index f) (pre' ++ v' :: l') VInvalid = v') by (rewrite Hx', app_nth2, Nat.sub_diag by lia; reflexivity).
      rewrite N, N'.
      assert (Up : forall w, upd (fi_index f) w (pre ++ v :: l) = pre ++ w :: l) by (intros w; rewrite Hx, upd_mid, <- app_assoc; reflexivity).
      assert (Up' : forall w, upd (fi_index f) w (pre' ++ v' :: l') = pre' ++ w :: l') by (intros w; rewrite Hx', upd_mid, <- app_assoc; reflexivity).
      rewrite Up, Up'.
      assert (Def : exists w w', pre ++ default_value env (fi_type f) :: l = pre ++ w :: l /\
         pre' ++ default_value env (fi_type f) :: l' = pre' ++ w' :: l' /\ alike env (fi_type f) w w').
      { eexists _, _. split; [reflexivity|]. split; [reflexivity|apply alike_refl]. }
      apply dsim_eget; [|intros; err]. intros info Hg. pose proof (gti_minfo _ _ _ _ Hs Hg) as Hi.
      destruct bz as [|b0 bz]; [cbn; auto|]. destruct (fi_unpacked f).
      - eapply dsim_bind; [apply Hrec; eassumption| |]; intros a a' m.
        + intros Ha. apply dsim_slide. cbn. rewrite Up, Up'. splits; try reflexivity. eauto.
        + intros er. apply dsim_slide. err.
      - apply dsim_same. intros [fnum typ] m e. destruct (_ <? _); [cbn; auto|].
        destruct (_ <=? _); [err|]. apply dsim_slide. cbv zeta. destruct e; [err|]. destruct (negb _); [err|].
        apply dsim_eget; [|intros; err]. intros tw _. destruct (negb _); [err|].
        eapply dsim_bind; [apply Hrec; eassumption| |]; intros a a' m2.
        + intros Ha. apply dsim_slide. cbn. rewrite Up, Up'. splits; try reflexivity. eauto.
        + intros er. apply dsim_slide. err.
    Qed.

    Lemma fields_reuse : forall fs i num infos, parse_fields env fs i num = EOk infos ->
      forall pre pre' l l' bz last n, length pre = i -> length pre' = i ->
      forall2b (fun f w => has_type env (sf_type f) w) fs l = true -> forall2b (fun f w => has_type env (sf_type f) w) fs l' = true ->
      forall2b (fun f w => negb (visible f) || unset env (sf_type f) w) fs l = true ->
      forall2b (fun f w => negb (visible f) || unset env (sf_type f) w) fs l' = true ->
      dsim (fun st st' => snd st = snd st' /\ snd (fst st) = snd (fst st') /\
              exists m m', fst (fst st) = pre ++ m /\ fst (fst st') = pre' ++ m' /\ alike_fields env fs m m')
        (decode_fields env c rec infos (pre ++ l) bz last n) (decode_fields env c rec infos (pre' ++ l') bz last n).
    Proof.
      induction fs as [|f fs IH]; intros i num infos Hp pre pre' l l' bz last n Hl Hl' T T' U U'.
      - cbn in Hp. apply EOk_inj in Hp. subst infos. destruct l; [|discriminate]. destruct l'; [|discriminate].
        cbn. splits; try reflexivity. exists [], []. splits; try reflexivity. constructor.
      - destruct l as [|v l]; [discriminate|]. destruct l' as [|v' l']; [discriminate|].
        cbn [forall2b] in T, T', U, U'. apply andb_true_iff in T, T', U, U'. destruct T as [T1 T2], T' as [T1' T2'], U as [U1 U2], U' as [U1' U2'].
        apply parse_step in Hp. destruct (field_opts _ f) as [o|] eqn:Eo.
        + destruct Hp as (fi & rest & -> & Hx & Hft & _ & _ & _ & Hp). cbn [decode_fields].
          assert (V : visible f = true) by (destruct (visible f) eqn:V; [reflexivity|]; apply visible_opts with (num := Z.of_nat num + 1) in V; congruence).
          rewrite V in U1, U1'. cbn [negb orb] in U1, U1'. rewrite <- Hft in *.
          eapply dsim_bind; [apply (field_reuse fi pre pre' v v' l l' bz last n); try assumption; congruence| |].
          * intros [[l1 b1] last1] [[l2 b2] last2] n1 (E1 & E2 & w & w' & E3 & E4 & Ha). cbn [fst snd] in *. subst.
            replace (pre ++ w :: l) with ((pre ++ [w]) ++ l) by (rewrite <- app_assoc; reflexivity).
            replace (pre' ++ w' :: l') with ((pre' ++ [w']) ++ l') by (rewrite <- app_assoc; reflexivity).
            specialize (IH _ _ _ Hp (pre ++ [w]) (pre' ++ [w']) l l' b2 last2 n1). rewrite !app_length in IH. cbn [length] in IH.
            specialize (IH ltac:(lia) ltac:(lia) T2 T2' U2 U2').
            revert IH. destruct (decode_fields env c rec rest ((pre ++ [w]) ++ l) b2 last2 n1) as [[[x1 x2] x3] xn [e|]| |],
              (decode_fields env c rec rest ((pre' ++ [w']) ++ l') b2 last2 n1) as [[[y1 y2] y3] yn [e'|]| |]; cbn; try tauto.
            intros (-> & -> & -> & m & m' & -> & -> & Hm). splits; try reflexivity. exists (w :: m), (w' :: m'). rewrite <- !app_assoc.
            splits; try reflexivity. apply alike_shown; [exact V| |exact Hm]. rewrite <- Hft. exact Ha.
          * intros [[l1 b1] last1] [[l2 b2] last2] n1 er. err.
        + apply visible_opts in Eo. replace (pre ++ v :: l) with ((pre ++ [v]) ++ l) by (rewrite <- app_assoc; reflexivity).
          replace (pre' ++ v' :: l') with ((pre' ++ [v']) ++ l') by (rewrite <- app_assoc; reflexivity).
          specialize (IH _ _ _ Hp (pre ++ [v]) (pre' ++ [v']) l l' bz last n). rewrite !app_length in IH. cbn [length] in IH.
          specialize (IH ltac:(lia) ltac:(lia) T2 T2' U2 U2').
          revert IH. destruct (decode_fields env c rec infos ((pre ++ [v]) ++ l) bz last n) as [[[x1 x2] x3] xn [e|]| |],
              (decode_fields env c rec infos ((pre' ++ [v']) ++ l') bz last n) as [[[y1 y2] y3] yn [e'|]| |]; cbn; try tauto.
          intros (-> & -> & -> & m & m' & -> & -> & Hm). splits; try reflexivity. exists (v :: m), (v' :: m'). rewrite <- !app_assoc.
          splits; try reflexivity. apply alike_hidden; assumption.
    Qed.

    Lemma struct_reuse t ci bz v0 v1 bare : deref_type t = t -> ci_type ci = t -> info_ok env ci -> is_struct env t = true ->
      has_type env t v0 = true -> has_type env t v1 = true -> unset env t v0 = true -> unset env t v1 = true ->
      dsim (alike env t) (decode_struct env c rec bz ci v0 bare) (decode_struct env c rec bz ci v1 bare).
    Proof.
      intros D Hct Hok Hst T T' U U'. unfold decode_struct. apply enter_reuse. intros b n0. rewrite Hct.
      unfold is_struct in Hst. destruct (resolve env t) eqn:Er; try discriminate.
      - apply dsim_same. intros tm m e. apply dsim_slide. destruct e; [err|]. cbn. split; [reflexivity|apply alike_refl].
      - destruct v0; cbn [has_type] in T; rewrite Er in T; try discriminate.
        destruct v1; cbn [has_type] in T'; rewrite Er in T'; try discriminate.
        cbn [unset] in U, U'. rewrite Er in U, U'.
        destruct (info_ok_parts _ _ Hok) as (_ & Hp & _). rewrite Hct in Hp. unfold parse_struct_info in Hp. rewrite Er in Hp.
        eapply dsim_bind; [apply (fields_reuse _ _ _ _ Hp [] [] l l0 b 0 n0 eq_refl eq_refl T T' U U')| |].
        + intros [[l1 b1] last1] [[l2 b2] last2] n1 (E1 & E2 & w & w' & E3 & E4 & Ha). cbn [fst snd app] in *. subst.
          apply dsim_same. intros _ n2 e2. destruct e2; [err|]. cbn. split; [reflexivity|]. eapply alike_struct; eassumption.
        + intros [[l1 b1] last1] [[l2 b2] last2] n1 er. err.
    Qed.

    Lemma switch_reuse bz info t v0 v1 o bare : minfo env c info t -> deref_type t = t ->
      has_type env t v0 = true -> has_type env t v1 = true -> unset env t v0 = true -> unset env t v1 = true ->
      dsim (alike env t) (decode_switch env c rec bz info v0 o bare) (decode_switch env c rec bz info v1 o bare).
    Proof.
      intros Hi D T T' U U'. unfold decode_switch. rewrite (minfo_type _ _ _ _ Hi), D. destruct (resolve env t) eqn:Er; try reflexivity.
      - apply prim_reuse.
      - destruct info as [ci|]; [|reflexivity]. destruct Hi as [Hct Hok]. rewrite D in Hct. apply struct_reuse; try assumption. unfold is_struct. rewrite Er. reflexivity.
      - destruct (is_uint8 env e); [|eapply array_reuse; eassumption].
        unfold decode_byte_array. destruct (_ <? _)%nat; [err|]. apply dsim_same. intros x k er. apply dsim_slide.
        destruct er; [err|]. destruct (negb _); [err|]. destruct (gotype_eqb _ _); [|reflexivity]. cbn. split; [reflexivity|apply alike_refl].
      - destruct (is_uint8 env e).
        + unfold decode_byte_slice_val. destruct bz; [cbn; split; [reflexivity|apply alike_refl]|]. apply dsim_same. intros x k er. apply dsim_slide.
          destruct er; [err|]. destruct x; [cbn; split; [reflexivity|apply alike_refl]|].
          destruct (gotype_eqb _ _); [|reflexivity]. cbn. split; [reflexivity|apply alike_refl].
        + unfold decode_slice. destruct (is_uint8 env e); [reflexivity|]. apply dsim_eget; [|intros; err]. intros einfo _. apply enter_reuse. intros b n0.
          apply dsim_eget; [|intros; err]. intros typ3 _. apply dsim_same. intros l m er. destruct er; [err|]. cbn. split; [reflexivity|apply alike_refl].
      - destruct info as [ci|ii]; [reflexivity|]. destruct Hi as [_ Hi]. rewrite D in Hi. subst t. apply iface_reuse; assumption.
      - destruct info as [ci|]; [|reflexivity]. destruct Hi as [Hct Hok]. rewrite D in Hct. apply struct_reuse; try assumption. unfold is_struct. rewrite Er. reflexivity.
    Qed.
  End Rec.

  Theorem decode_reuse : forall fuel, reuse (decode_reflect fuel env c).
  Proof.
    induction fuel as [|k IH]; intros bz info t v0 v1 o bare Hi T T' U U'; [reflexivity|].
    set (w0 := base_of env t v0). set (w1 := base_of env t v1).
    assert (T0 : has_type env (deref_type t) w0 = true) by (apply has_type_base; assumption).
    assert (T1 : has_type env (deref_type t) w1 = true) by (apply has_type_base; assumption).
    assert (U0 : unset env (deref_type t) w0 = true) by (apply unset_base; assumption).
    assert (U1 : unset env (deref_type t) w1 = true) by (apply unset_base; assumption).
    pose proof (minfo_deref _ _ _ _ Hi) as Hid.
    set (body := fun w0 => match info with
             | TIConc {| ci_type := ct; ci_unmarshal := Some r |} =>
                 eget (get_type_info env c r) (fun e => DRet w0 0 (Some e)) (fun rinfo =>
                 dbind (decode_reflect k env c bz rinfo r (zero env r) o bare) (fun rv n e =>
                 slide bz n (fun _ =>
                 match e with
                 | Some e => DRet w0 n (Some e)
                 | None => eget (from_repr env ct w0 rv) (fun e => DRet w0 n (Some e))
                                (fun r => DRet (fst r) n (snd r))
                 end)))
             | _ => decode_switch env c (decode_reflect k env c) bz info w0 o bare
             end).
    assert (B : dsim (alike env (deref_type t)) (body w0) (body w1)).
    { unfold body. pose proof (switch_reuse _ IH bz info (deref_type t) w0 w1 o bare Hid (deref_idem t) T0 T1 U0 U1) as S.
      destruct info as [[ct fs m [r|] rg]|ii]; try exact S.
      apply dsim_eget; [|intros; cbn; auto]. intros rinfo _. apply dsim_same. intros rv n e. apply dsim_slide. destruct e; [cbn; auto|].
      destruct Hid as [Hct Hok]. cbn [ci_type] in Hct. rewrite deref_idem in Hct.
      pose proof (fun X => minfo_unmethod env _ (deref_type t) X Hok) as M. specialize (M Hct). cbn [ci_unmarshal] in M.
      destruct M as (id & g & E & Hg & _). rewrite E in *. subst ct. cbn [from_repr]. rewrite Hg. rewrite (Ho _ _ _ w0 w1 rv Hg T0 T1).
      apply dsim_eget; [|intros; cbn; auto]. intros [x [er|]] _; cbn; auto. split; [reflexivity|apply alike_refl]. }
    assert (G : dsim (alike env t) (dmap (rebuild t) (body w0)) (dmap (rebuild t) (body w1))).
    { unfold dmap. eapply dsim_bind; [exact B| |]; intros a a' n; [|intros; cbn; auto]. intros Ha. cbn. split; [reflexivity|]. apply alike_wrap. exact Ha. }
    cbn [decode_reflect]. destruct info, t; try reflexivity; exact G.
  Qed.

  (** Whole calls *)
  Lemma finish_reuse t b r r' : dsim (alike env t) r r' -> usim env t (um_finish b r) (um_finish b r').
  Proof.
    unfold um_finish. destruct r as [v n [e|]|p|], r' as [v' n' [e'|]|p'|]; cbn; try tauto.
    intros [-> H]. destruct (negb _); cbn; [reflexivity|exact H].
  Qed.

  Theorem unmarshal_reuse fuel bz rt v0 v1 : has_type env rt v0 = true -> has_type env rt v1 = true ->
    unset env rt v0 = true -> unset env rt v1 = true ->
    (is_ptr rt = false \/ is_list env (deref_type rt) = false \/ struct_like env (deref_type rt) = true) ->
    usim env rt (unmarshal_bare fuel env c bz rt v0) (unmarshal_bare fuel env c bz rt v1).
  Proof.
    intros T T' U U' Hp. rewrite !unmarshal_eq.
    destruct (get_type_info env c rt) as [info| | |] eqn:Eg; try reflexivity. cbv zeta.
    pose proof (gti_minfo _ _ _ _ Hs Eg) as Hi.
    assert (B : forall b, usim env rt (um_body env (fun b bare => decode_reflect fuel env c b info rt v0 top_opts bare) (ti_type info) rt v0 b)
       (um_body env (fun b bare => decode_reflect fuel env c b info rt v1 top_opts bare) (ti_type info) rt v1 b)).
    { intros b. pose proof (fun b bare => finish_reuse rt b _ _ (decode_reuse fuel b info rt v0 v1 top_opts bare Hi T T' U U')) as F.
      assert (Ep : (if is_struct_or_repeated_struct env (ti_type info) then EOk true else is_pointer_to_struct env v0 rt) =
                   (if is_struct_or_repeated_struct env (ti_type info) then EOk true else is_pointer_to_struct env v1 rt)).
      { rewrite (minfo_type _ _ _ _ Hi). destruct (is_struct_or_repeated_struct env (deref_type rt)) eqn:Es; [reflexivity|].
        unfold is_pointer_to_struct. destruct (is_struct env rt); [reflexivity|]. destruct (is_ptr rt) eqn:Eptr; [|reflexivity].
        destruct Hp as [Hp|[Hp|Hp]]; [discriminate| |rewrite struct_like_eq in Hp; congruence].
        assert (Hst : is_struct env (deref_type rt) = false).
        { unfold is_struct. unfold is_struct_or_repeated_struct in Es. destruct (resolve env (deref_type rt)); try reflexivity; discriminate. }
        assert (Hk : is_list_kind env (deref_type rt) = false) by exact Hp.
        rewrite Es, Hst, Hk. destruct (deref_pointers v0) as [? []], (deref_pointers v1) as [? []]; reflexivity. }
      unfold um_body. rewrite Ep. destruct (if is_struct_or_repeated_struct env (ti_type info) then EOk true else is_pointer_to_struct env v1 rt) as [st| | |]; try reflexivity.
      destruct (negb st && _); [|apply F]. destruct (decode_field_key b) as [[fnum typ] nk [e|]| |]; try reflexivity.
      destruct (negb _); [reflexivity|]. destruct (type_to_typ3 env (ti_type info) no_opts); try reflexivity.
      destruct (negb _); [reflexivity|]. destruct (_ <? _)%nat; [reflexivity|]. apply F. }
    destruct info as [ci|ii]; [|apply B]. destruct (ci_reg ci); [|apply B]. destruct (_ <? _)%nat; [reflexivity|]. destruct (negb _); [reflexivity|apply B].
  Qed.
  Theorem unmarshal_length_reuse fuel bz rt v0 v1 : has_type env rt v0 = true -> has_type env rt v1 = true ->
    unset env rt v0 = true -> unset env rt v1 = true ->
    (is_ptr rt = false \/ is_list env (deref_type rt) = false \/ struct_like env (deref_type rt) = true) ->
    usim env rt (unmarshal_length_prefixed fuel env c bz rt v0) (unmarshal_length_prefixed fuel env c bz rt v1).
  Proof.
    intros T T' U U' Hp. unfold unmarshal_length_prefixed. destruct bz; [reflexivity|]. destruct (uvarint _) as [u n].
    destruct (_ <? 0); [reflexivity|]. destruct (_ <? u); [reflexivity|]. destruct (u <? _); [reflexivity|]. apply unmarshal_reuse; assumption.
  Qed.
End Reuse.
