(** What one version of a program can read carefully ([careful]), the other can read. *)
From Coq Require Import ZArith String List Bool Lia.
From Coq Require Import ZifyBool ZifyNat.
From Verif Require Import Base Prims SpecWire PrimFacts PrimProps Types Codec BinEnc BinDec Amino FuelFacts DecFacts
  ValueInd Typing Registry SpecRegistry RegistryFacts Sane DecSafe SpecNorm EncFacts RoundTrip RegistryProps TopFacts SpecProto ProtoFacts
  SpecStruct SkipFacts SpecVersion VersionFacts SpecKin Careful.
Import ListNotations.
Local Open Scope Z_scope.

Lemma slide_inv {A} bz m (k : bytes -> dres A) r : slide bz m k = r -> (forall p, r <> DPanic p) ->
  (m <= length bz)%nat /\ k (skipn m bz) = r.
Proof. unfold slide. destruct (Nat.ltb_spec (length bz) m); intros X N; [exfalso; exact (N _ (eq_sym X))|]. split; [lia|exact X]. Qed.

(** Take apart the next call in a successful run. *)
Ltac dstep H :=
  match type of H with
  | dbind ?r _ = DRet _ _ None => let E := fresh "E" in destruct r as [? ? ?| |] eqn:E; cbn [dbind] in H; try discriminate H
  | eget ?r _ _ = DRet _ _ None => let E := fresh "E" in destruct r as [?|?|?|] eqn:E; cbn [eget] in H; try discriminate H
  | slide _ _ _ = DRet _ _ None => let L := fresh "L" in apply slide_inv in H; [destruct H as [L H]|intros; discriminate]
  end.

(** ** Declarations *)

Section Same.
  Variables A B : tenv.
  Hypothesis K : kin A B.

  Ltac same := match goal with |- context [resolve A ?t] => destruct (kin_resolve A B K t) as [E|(fs & ga & gb & E1 & E2 & _)];
    [rewrite E; reflexivity|rewrite E1, E2; reflexivity] end.
  Lemma same_uint8 t : is_uint8 A t = is_uint8 B t.
  Proof. unfold is_uint8. same. Qed.
  Lemma same_struct t : is_struct A t = is_struct B t.
  Proof. unfold is_struct. same. Qed.
  Lemma same_typ3 t o : type_to_typ3 A t o = type_to_typ3 B t o.
  Proof. unfold type_to_typ3. same. Qed.
  Lemma same_unsafe t o : check_unsafe A t o = check_unsafe B t o.
  Proof. unfold check_unsafe. destruct (fo_unsafe o); [reflexivity|]. same. Qed.
  Lemma same_struct_like t : is_struct_or_repeated_struct A t = is_struct_or_repeated_struct B t.
  Proof.
    unfold is_struct_or_repeated_struct. destruct (kin_resolve A B K t) as [E|(fs & ga & gb & E1 & E2 & _)]; [|rewrite E1, E2; reflexivity].
    rewrite <- E. destruct (resolve A t); try reflexivity; apply same_struct.
  Qed.
  Lemma same_unpacked t o : unpacked_list A t o = unpacked_list B t o.
  Proof.
    unfold unpacked_list. destruct (kin_resolve A B K t) as [E|(fs & ga & gb & E1 & E2 & _)]; [|rewrite E1, E2; reflexivity].
    rewrite <- E. destruct (resolve A t); try reflexivity; rewrite same_uint8, same_typ3; reflexivity.
  Qed.
  Lemma same_parse : forall fs i num, parse_fields A fs i num = parse_fields B fs i num.
  Proof.
    induction fs as [|f fs IH]; intros i num; cbn [parse_fields]; [reflexivity|].
    destruct (negb _); [apply IH|]. destruct (parse_field_options f) as [o|]; [|apply IH].
    rewrite same_unpacked. destruct (unpacked_list B _ _); cbn [ebind]; try reflexivity.
    cbv zeta. rewrite same_unsafe. destruct (check_unsafe B _ _); cbn [ebind]; try reflexivity. rewrite IH. reflexivity.
  Qed.
  Lemma same_skip einfo einfo' ert o bz : ti_type einfo = ti_type einfo' -> skip_empty A einfo ert o bz = skip_empty B einfo' ert o bz.
  Proof. intros E. unfold skip_empty. rewrite E, same_struct. reflexivity. Qed.

  Hypothesis WA : wf_env A.
  Hypothesis WB : wf_env B.

  (** The relation depends on the underlying type only. *)
  Lemma reread_under t t' v w : resolve A t = resolve A t' -> resolve B t = resolve B t' -> (forall e, t <> TPtr e) -> reread A B t v w -> reread A B t' v w.
  Proof.
    intros EA EB N H. inversion H; subst; try (exfalso; eapply N; reflexivity).
    - apply rr_atom. assumption.
    - eapply rr_arr; [rewrite <- EA|]; eassumption.
    - eapply rr_slice; [rewrite <- EA|]; eassumption.
    - apply rr_iface. assumption.
    - eapply rr_struct; [rewrite <- EA|rewrite <- EB| | | |]; eassumption.
  Qed.

  Lemma rereads_repeat e v w : reread A B e v w -> forall n, rereads A B e (repeat v n) (repeat w n).
  Proof. intros H. induction n; cbn; constructor; assumption. Qed.
  Lemma rereads_app e l m l' m' : rereads A B e l m -> rereads A B e l' m' -> rereads A B e (l ++ l') (m ++ m').
  Proof. intros H. revert l' m'. induction l in m, H |- *; inversion H; subst; intros l' m' H'; cbn; [exact H'|]. constructor; [assumption|]. apply IHl; assumption. Qed.
  Lemma reread_fields_app fs l m gs l' m' : reread_fields A B fs l m -> reread_fields A B gs l' m' -> reread_fields A B (fs ++ gs) (l ++ l') (m ++ m').
  Proof. intros H. revert l' m'. induction fs in l, m, H |- *; inversion H; subst; intros l' m' H'; cbn; [exact H'|]. constructor; [assumption|]. apply IHfs; assumption. Qed.

  Lemma zero_named id t : te_def B id = UType t -> zero B (TNamed id) = zero B t.
  Proof. intros H. cbn [zero]. rewrite (we_zero _ WB), H. reflexivity. Qed.

  Lemma reread_zero t : reread A B t (zero A t) (zero B t).
  Proof.
    apply (zero_ind A (fun t v => reread A B t v (zero B t)) WA); cbn [zero]; intros; try (apply rr_atom; exact I).
    - apply rr_atom. destruct p; exact I.
    - eapply rr_arr; [reflexivity|]. destruct n; [constructor|]. apply rereads_repeat. apply H; [reflexivity|lia].
    - rewrite (we_zero _ WB). unfold zero_of_def.
      assert (Fz : forall l, (forall f, In f l -> In f fs) -> reread_fields A B l (map (fun f => zero A (sf_type f)) l) (map (fun f => zero B (sf_type f)) l)).
      { induction l as [|f l IH]; intros Hl; cbn; constructor; [apply H0; apply Hl; left; reflexivity|]. apply IH. intros g Hg. apply Hl. right. exact Hg. }
      destruct (kin_def _ _ K id) as [E|(f0 & gs & [[E1 E2]|[E1 E2]])].
      + rewrite <- E, H. pose proof (rr_struct A B (TNamed id) fs [] [] (map (fun f => zero A (sf_type f)) fs) (map (fun f => zero B (sf_type f)) fs) [] []) as R.
        rewrite !app_nil_r in R. apply R; auto; cbn [resolve]; rewrite <- ?E, H; reflexivity.
      + rewrite E2, map_app. rewrite H in E1. inversion E1; subst f0.
        pose proof (rr_struct A B (TNamed id) fs [] gs (map (fun f => zero A (sf_type f)) fs) (map (fun f => zero B (sf_type f)) fs) [] (map (fun f => zero B (sf_type f)) gs)) as R.
        rewrite !app_nil_r in R. apply R; auto; cbn [resolve]; rewrite ?E2, ?H; reflexivity.
      + rewrite E2. rewrite H in E1. inversion E1; subst fs. rewrite map_app.
        pose proof (rr_struct A B (TNamed id) f0 gs [] (map (fun f => zero A (sf_type f)) f0) (map (fun f => zero B (sf_type f)) f0) (map (fun f => zero A (sf_type f)) gs) []) as R.
        rewrite !app_nil_r in R. apply R; auto.
        * cbn [resolve]. rewrite H. reflexivity.
        * cbn [resolve]. rewrite E2. reflexivity.
        * apply Fz. intros f Hf. apply in_or_app. auto.
        * apply map_length.
    - assert (E : te_def B id = UType t0).
      { destruct (kin_def _ _ K id) as [E|(f0 & gs & [[E1 E2]|[E1 E2]])]; congruence. }
      rewrite (we_zero _ WB), E. unfold zero_of_def.
      assert (D : resolve A (TNamed id) <> RBad /\ resolve B (TNamed id) <> RBad) by (split; apply we_def; assumption).
      destruct t0 as [p| |n e|e|e|ke e| | |i|i]; try (exfalso; eapply H0; reflexivity);
        (eapply reread_under; [| | |exact H1]; [cbn [resolve] in *; rewrite ?H in *; try reflexivity; destruct D; congruence
          |cbn [resolve] in *; rewrite ?E in *; try reflexivity; destruct D; congruence|intros ? X; try discriminate X; cbn [resolve] in D; rewrite H in D; destruct D; congruence]).
  Qed.

  Lemma reread_ptrs : forall t v w, reread A B (deref_type t) v w -> reread A B t (ptrs t v) (ptrs t w).
  Proof. induction t; intros v w H; cbn [ptrs deref_type] in *; try exact H. apply rr_ptr. apply IHt. exact H. Qed.
  Lemma reread_default t : reread A B t (default_value A t) (default_value B t).
  Proof.
    unfold default_value. destruct (deref_type t) eqn:E; try apply reread_zero. rewrite <- !ptrs_wrap. apply reread_ptrs. apply rr_atom. exact I.
  Qed.
  Lemma reread_defaultv : forall v t w, reread A B t v w -> defaultv v = defaultv w.
  Proof.
    induction v using value_ind'; intros tt w HR; inversion HR; subst; try reflexivity.
    - match goal with X : rereads _ _ _ _ _ |- _ => inversion X; subst; reflexivity end.
    - cbn [defaultv]. eapply IHv; eassumption.
  Qed.
  Lemma reread_prefer ert v w : reread A B ert v w -> reread A B ert (prefer_nil A ert v) (prefer_nil B ert w).
  Proof.
    intros H. unfold prefer_nil. rewrite !default_eq, (reread_defaultv _ _ _ H).
    destruct (is_ptr ert && defaultv w); [apply reread_zero|exact H].
  Qed.
End Same.

(** ** Scalars *)

Lemma rereads_bytes A B e : forall l, rereads A B e (bytes_val l) (bytes_val l).
Proof. unfold bytes_val. induction l; cbn; constructor; [apply rr_atom; exact I|assumption]. Qed.


Lemma set_scalar_swap {X} v0 w0 bz (r : dres X) f g v n :
  set_scalar v0 bz r f = DRet v n None ->
  (forall a m, f a = DRet v m None -> g a = DRet v m None /\ atomic v) ->
  set_scalar w0 bz r g = DRet v n None /\ atomic v.
Proof.
  unfold set_scalar. intros H F. dstep H. cbn [dbind]. dstep H. rewrite slide_le by assumption. destruct e; [discriminate H|].
  destruct (f a) as [v' m e| |] eqn:Ef; try discriminate H. cbn [dbind] in H. inversion H; subst.
  destruct (F a m Ef) as [-> Av]. split; [reflexivity|exact Av].
Qed.
Lemma decode_prim_swap p v0 w0 bz o v n : decode_prim p v0 bz o = DRet v n None -> decode_prim p w0 bz o = DRet v n None /\ atomic v.
Proof.
  destruct p; cbn [decode_prim]; repeat match goal with |- context [if ?b then _ else _] => match b with negb _ => destruct b | fo_fixed64 _ => destruct b | fo_fixed32 _ => destruct b end end;
    try discriminate; intros H; apply (set_scalar_swap _ _ _ _ _ _ _ _ H); clear H.
  all: intros a m; try (match goal with |- (if ?b then _ else _) = _ -> _ => destruct b; [discriminate|] end); intros E; (split; [exact E|inversion E; exact I]).
Qed.

(** ** The simulation *)

Definition twin (a b : cinfo) : Prop := ci_type a = ci_type b /\ ci_reg a = ci_reg b.

Section Sim.
  Variables A B : tenv.
  Hypothesis K : kin A B.
  Hypothesis WA : wf_env A.
  Hypothesis WB : wf_env B.
  Variables cA cB : codec.
  Hypothesis HcA : wf_codec A cA.
  Hypothesis HcB : wf_codec B cB.
  Hypothesis HsA : sane_codec A cA.
  Hypothesis HsB : sane_codec B cB.
  Hypothesis Htwin : forall a, In a (cd_concretes cA) -> exists b, In b (cd_concretes cB) /\ twin a b.
  Hypothesis Hclash : forall a b, In a (cd_concretes cA) -> In b (cd_concretes cB) -> ci_prefix a = ci_prefix b ->
    exists a', In a' (cd_concretes cA) /\ twin a' b.
  Hypothesis Hknown : forall t, known A cA t = true -> known B cB t = true.
  Hypothesis Happ : forall t g, appended A B t g -> visible g = true -> known B cB (sf_type g) = true.

  Lemma both_known t infoA : get_type_info A cA t = EOk infoA -> exists infoB, get_type_info B cB t = EOk infoB /\
    minfo A cA infoA t /\ minfo B cB infoB t /\ ti_type infoA = ti_type infoB.
  Proof.
    intros H. specialize (Hknown t). unfold known in Hknown. rewrite H in Hknown. destruct (get_type_info B cB t) as [infoB| | |] eqn:E; try (discriminate (Hknown eq_refl)).
    exists infoB. pose proof (gti_minfo _ _ _ _ HsA H) as MA. pose proof (gti_minfo _ _ _ _ HsB E) as MB. splits; auto.
    rewrite (minfo_type _ _ _ _ MA), (minfo_type _ _ _ _ MB). reflexivity.
  Qed.

  Lemma conc_ok env c ci : wf_codec env c -> In ci (cd_concretes c) -> info_ok env ci.
  Proof. intros W H. apply (wc_conc _ _ W) in H. destruct H as [H _]. apply (wc_types _ _ W) in H. tauto. Qed.

  Lemma find_disfix d ciA : type_info_from_disfix cA d = EOk ciA -> exists ciB, type_info_from_disfix cB d = EOk ciB /\ twin ciA ciB /\
    info_ok A ciA /\ info_ok B ciB.
  Proof.
    unfold type_info_from_disfix. destruct (assoc beqb d (cd_disfix cA)) as [ci|] eqn:E; [|discriminate]. intros H. apply EOk_inj in H. subst ci.
    apply (wc_disfix _ _ HcA) in E. destruct E as [Hin Hd]. destruct (Htwin _ Hin) as (ciB & HinB & T).
    assert (E : assoc beqb d (cd_disfix cB) = Some ciB).
    { apply (wc_disfix _ _ HcB). split; [exact HinB|]. destruct T as [_ T]. unfold ci_disfix in *. rewrite <- T. exact Hd. }
    rewrite E. exists ciB. splits; auto; eapply conc_ok; eassumption.
  Qed.

  Lemma find_prefix iiA iiB p ciA : In iiA (cd_ifaces cA) -> In iiB (cd_ifaces cB) -> ii_id iiA = ii_id iiB ->
    type_info_from_prefix iiA p = EOk ciA -> exists ciB, type_info_from_prefix iiB p = EOk ciB /\ twin ciA ciB /\ info_ok A ciA /\ info_ok B ciB.
  Proof.
    intros IA IB Ei H. pose proof (wc_impls _ _ HcA iiA p IA) as FA. pose proof (wc_impls _ _ HcB iiB p IB) as FB.
    assert (P : forall a b, twin a b -> implements A a iiA && beqb (ci_prefix a) p = implements B b iiB && beqb (ci_prefix b) p).
    { intros a b [T1 T2]. unfold implements, ci_prefix. rewrite T1, T2, Ei, (kin_impl _ _ K). reflexivity. }
    unfold type_info_from_prefix in *. unfold impls_of in FA, FB. destruct (assoc beqb p (ii_impls iiA)) as [[|x [|y q]]|] eqn:EA; try discriminate H.
    apply EOk_inj in H. subst x. set (qA := fun ci => _) in FA. set (qB := fun ci => _) in FB.
    assert (XA : In ciA (cd_concretes cA) /\ qA ciA = true). { apply filter_In. rewrite <- FA. left. reflexivity. }
    destruct XA as [InA QA]. destruct (Htwin _ InA) as (ciB & InB & T).
    assert (QB : qB ciB = true) by (unfold qB; rewrite <- (P _ _ T); exact QA).
    assert (U : forall b, In b (filter qB (cd_concretes cB)) -> b = ciB).
    { intros b Hb. apply filter_In in Hb. destruct Hb as [Inb Qb].
      assert (Ep : ci_prefix ciA = ci_prefix b).
      { unfold qA in QA. unfold qB in Qb. apply andb_true_iff in QA, Qb. destruct QA as [_ QA], Qb as [_ Qb]. apply beqb_eq in QA, Qb. congruence. }
      destruct (Hclash _ _ InA Inb Ep) as (a' & Ina' & T').
      assert (a' = ciA). { assert (X : In a' [ciA]) by (rewrite FA; apply filter_In; split; [exact Ina'|]; unfold qA; rewrite (P _ _ T'); exact Qb). destruct X as [X|[]]; congruence. }
      subst a'. apply (wc_conc _ _ HcB) in Inb. apply (wc_conc _ _ HcB) in InB. destruct T as [T1 _], T' as [T1' _]. rewrite <- T1' in Inb. rewrite <- T1 in InB.
      destruct Inb as [Inb _], InB as [InB' _]. congruence. }
    assert (F1 : filter qB (cd_concretes cB) = [ciB]).
    { assert (IB2 : In ciB (filter qB (cd_concretes cB))) by (apply filter_In; auto).
      assert (ND : NoDup (map ci_type (filter qB (cd_concretes cB)))).
      { pose proof (wc_nodup _ _ HcB) as N. clear - N. induction (cd_concretes cB) as [|z l IH]; cbn [filter map]; [constructor|]. inversion N as [|? ? N1 N2]; subst.
        destruct (qB z); [|apply IH; exact N2]. cbn [map]. constructor; [|apply IH; exact N2]. intros X. apply N1. clear -X. apply in_map_iff in X. destruct X as (z' & E & X).
        apply filter_In in X. apply in_map_iff. exists z'. tauto. }
      destruct (filter qB (cd_concretes cB)) as [|b1 [|b2 l]]; [destruct IB2| |].
      - rewrite (U b1 (or_introl eq_refl)). reflexivity.
      - exfalso. rewrite (U b1 (or_introl eq_refl)), (U b2 (or_intror (or_introl eq_refl))) in ND. cbn [map] in ND. inversion ND as [|? ? N1 _]. apply N1. left. reflexivity. }
    rewrite F1 in FB. destruct (assoc beqb p (ii_impls iiB)) as [l|] eqn:EB; [|discriminate FB]. subst l.
    exists ciB. splits; auto; [apply (conc_ok A cA)|apply (conc_ok B cB)]; assumption.
  Qed.

  Lemma enter_sim {X Y} (v0 : X) (w0 : Y) bare bz kA kB v n (P : Y -> Prop) :
    enter v0 bare bz kA = DRet v n None ->
    (forall b n0, kA b n0 = DRet v n None -> exists w, kB b n0 = DRet w n None /\ P w) ->
    exists w, enter w0 bare bz kB = DRet w n None /\ P w.
  Proof.
    unfold enter. intros H F. destruct bare; [apply F; exact H|].
    dstep H. cbn [dbind]. dstep H. rewrite slide_le by assumption. destruct e; [discriminate H|]. apply F. exact H.
  Qed.

  Section Rec.
  Variables recA recB : bytes -> tinfo -> gotype -> value -> fopts -> bool -> dres value.
  Definition simulates : Prop := forall bz infoA infoB t v0 w0 o bare v n,
    minfo A cA infoA t -> minfo B cB infoB t -> base_of A t v0 = zero A (deref_type t) -> base_of B t w0 = zero B (deref_type t) ->
    recA bz infoA t v0 o bare = DRet v n None ->
    exists w, recB bz infoB t w0 o bare = DRet w n None /\ reread A B t v w.
  Hypothesis Hrec : simulates.

  Lemma iface_sim bz iiA iiB o bare v n t : In iiA (cd_ifaces cA) -> In iiB (cd_ifaces cB) -> ii_id iiA = ii_id iiB ->
    decode_interface A cA recA bz iiA (VIface None) o bare = DRet v n None ->
    exists w, decode_interface B cB recB bz iiB (VIface None) o bare = DRet w n None /\ reread A B t v w.
  Proof.
    intros IA IB Ei. cbn [decode_interface]. intros H. eapply enter_sim; [exact H|]. clear H. cbv beta. intros b n0 H.
    dstep H. cbn [dbind]. dstep H. rewrite slide_le by assumption. cbv zeta in *. destruct e; [discriminate H|]. destruct a as [d p]. cbn [fst snd] in *.
    assert (X : exists ciA ciB, match d with Some d => type_info_from_disfix cA (to_disfix d p) | None => type_info_from_prefix iiA p end = EOk ciA /\
       match d with Some d => type_info_from_disfix cB (to_disfix d p) | None => type_info_from_prefix iiB p end = EOk ciB /\ twin ciA ciB /\ info_ok A ciA /\ info_ok B ciB).
    { dstep H. exists a. destruct d as [d|].
      - destruct (find_disfix _ _ E0) as (ciB & F1 & F2). exists ciB. tauto.
      - destruct (find_prefix _ _ _ _ IA IB Ei E0) as (ciB & F1 & F2). exists ciB. tauto. }
    destruct X as (ciA & ciB & EA & EB & [T1 T2] & OA & OB). rewrite EA in H. rewrite EB. cbn [eget] in *.
    assert (W : forall b, wants_key A ciA b o = wants_key B ciB b o).
    { intros b'. unfold wants_key. rewrite T1, (same_struct_like A B K). f_equal. f_equal.
      destruct (kin_resolve A B K (ci_type ciB)) as [E'|(fs & ga & gb & E1 & E2 & _)]; [rewrite E'|rewrite E1, E2]; reflexivity. }
    assert (SI : forall x y (m : nat) (r : value), reread A B (ci_type ciB) x y -> set_iface A iiA ciA x (fun r => DRet r m None) = DRet r n None ->
      exists w, set_iface B iiB ciB y (fun r => DRet r m None) = DRet w n None /\ reread A B t r w).
    { intros x y m r Rxy. unfold set_iface. rewrite T1, T2, Ei. cbv zeta. destruct (match ci_reg ciB with Some r0 => ri_ptr r0 | None => false end);
        rewrite (kin_impl _ _ K); (destruct (te_impl B _ _); [|discriminate]); intros X; inversion X; subst; eexists; (split; [reflexivity|]); apply rr_iface; [apply rr_ptr|]; exact Rxy. }
    pose (go := fun env rec ii ci (bz2 : bytes) (n2 : nat) =>
              dbind (rec bz2 (TIConc ci) (ci_type ci) (zero env (ci_type ci)) o true : dres value) (fun v n3 e =>
              slide bz2 n3 (fun bz3 =>
              match e with
              | Some e => set_iface env ii ci v (fun r => DRet r (n2 + n3)%nat (Some e))
              | None =>
                  match bz3 with
                  | _ :: _ => DRet (VIface None) (n2 + n3)%nat (Some "bytes left over after reading interface contents"%string)
                  | [] => set_iface env ii ci v (fun r => DRet r (n2 + n3)%nat None)
                  end
              end))).
    change ((if wants_key A ciA (skipn n1 b) o then
              dbind (decode_field_key (skipn n1 b)) (fun kt nk e =>
              match e with
              | Some e => DRet (VIface None) (n0 + n1)%nat (Some "could not decode field number and type"%string)
              | None =>
                  if negb (fst kt =? 1) then DRet (VIface None) (n0 + n1)%nat (Some "expected field number: 1"%string)
                  else eget (type_to_typ3 A (ci_type ciA) no_opts) (fun e => DRet (VIface None) (n0 + n1)%nat (Some e)) (fun tw =>
                       if negb (snd kt =? tw) then DRet (VIface None) (n0 + n1)%nat (Some "expected field type"%string)
                       else slide (skipn n1 b) nk (fun bz2 => go A recA iiA ciA bz2 (n0 + n1 + nk)%nat))
              end)
            else go A recA iiA ciA (skipn n1 b) (n0 + n1)%nat) = DRet v n None) in H.
    change (exists w, (if wants_key B ciB (skipn n1 b) o then
              dbind (decode_field_key (skipn n1 b)) (fun kt nk e =>
              match e with
              | Some e => DRet (VIface None) (n0 + n1)%nat (Some "could not decode field number and type"%string)
              | None =>
                  if negb (fst kt =? 1) then DRet (VIface None) (n0 + n1)%nat (Some "expected field number: 1"%string)
                  else eget (type_to_typ3 B (ci_type ciB) no_opts) (fun e => DRet (VIface None) (n0 + n1)%nat (Some e)) (fun tw =>
                       if negb (snd kt =? tw) then DRet (VIface None) (n0 + n1)%nat (Some "expected field type"%string)
                       else slide (skipn n1 b) nk (fun bz2 => go B recB iiB ciB bz2 (n0 + n1 + nk)%nat))
              end)
            else go B recB iiB ciB (skipn n1 b) (n0 + n1)%nat) = DRet w n None /\ reread A B t v w).
    set (goA := go A recA iiA ciA) in H. set (goB := go B recB iiB ciB).
    assert (GO : forall bz2 n2, goA bz2 n2 = DRet v n None -> exists w, goB bz2 n2 = DRet w n None /\ reread A B t v w).
    { clear H. intros bz2 n2. unfold goA, goB, go. clear goA goB go. intros H. dstep H. dstep H. destruct e.
      { exfalso. unfold set_iface in H. cbv zeta in H. destruct (match ci_reg ciA with Some _ => _ | None => _ end); destruct (te_impl A _ _); discriminate H. }
      destruct (Hrec bz2 (TIConc ciA) (TIConc ciB) (ci_type ciA) (zero A (ci_type ciA)) (zero B (ci_type ciB)) o true a n3) as (w & DB & Rw).
      - split; [|exact OA]. pose proof (conc_nonptr A ciA OA) as N. destruct (ci_type ciA); try reflexivity; contradiction.
      - split; [|exact OB]. rewrite T1. pose proof (conc_nonptr B ciB OB) as N. destruct (ci_type ciB); try reflexivity; contradiction.
      - apply base_zero.
      - rewrite T1. apply base_zero.
      - exact E0.
      - rewrite T1 in DB, Rw. rewrite DB. cbn [dbind]. rewrite slide_le by assumption. destruct (skipn n3 bz2); [|discriminate H].
        exact (SI a w (n2 + n3)%nat v Rw H). }
    clearbody goA goB. clear go. rewrite W in H. destruct (wants_key B ciB _ o); [|apply GO; exact H].
    dstep H. cbn [dbind]. destruct e; [discriminate H|]. destruct (negb (fst a =? 1)); [discriminate H|].
    rewrite T1, (same_typ3 A B K) in H. destruct (type_to_typ3 B (ci_type ciB) no_opts); cbn [eget] in *; try discriminate H.
    destruct (negb (snd a =? a0)); [discriminate H|]. dstep H. rewrite slide_le by assumption. apply GO. exact H.
  Qed.

  Lemma array_packed_sim infoA infoB ert o : minfo A cA infoA ert -> minfo B cB infoB ert ->
    forall m bz n dA dB l bz' n', rereads A B ert dA dB ->
    decode_array_packed A recA bz n infoA ert o dA (repeat (zero A ert) m) = DRet (l, bz') n' None ->
    exists l2, decode_array_packed B recB bz n infoB ert o dB (repeat (zero B ert) m) = DRet (l2, bz') n' None /\ rereads A B ert l l2.
  Proof.
    intros IA IB. induction m as [|m IH]; intros bz n dA dB l bz' n' R; cbn [repeat decode_array_packed]; intros H.
    - inversion H; subst. eauto.
    - dstep H. dstep H. destruct e; [discriminate H|].
      destruct (Hrec _ _ infoB _ _ (zero B ert) _ _ _ _ IA IB (base_zero _ _) (base_zero _ _) E) as (w & D & Rw).
      rewrite D. cbn [dbind]. rewrite slide_le by assumption. eapply IH; [|exact H]. apply rereads_app; [exact R|]. constructor; [|constructor].
      apply reread_prefer; assumption.
  Qed.
  Lemma array_unpacked_sim infoA infoB ert o : minfo A cA infoA ert -> minfo B cB infoB ert ->
    forall m bz n dA dB l bz' n', rereads A B ert dA dB ->
    decode_array_unpacked A recA bz n infoA ert o dA (repeat (zero A ert) m) = DRet (l, bz') n' None ->
    exists l2, decode_array_unpacked B recB bz n infoB ert o dB (repeat (zero B ert) m) = DRet (l2, bz') n' None /\ rereads A B ert l l2.
  Proof.
    intros IA IB.
    assert (SK : forall bz, skip_empty A infoA ert o bz = skip_empty B infoB ert o bz).
    { intros bz. apply same_skip; [exact K|]. rewrite (minfo_type _ _ _ _ IA), (minfo_type _ _ _ _ IB). reflexivity. }
    induction m as [|m IH]; intros bz n dA dB l bz' n' R; cbn [repeat decode_array_unpacked]; intros H.
    - inversion H; subst. eauto.
    - dstep H. cbn [dbind]. destruct (negb (fst a =? fo_num o)); [discriminate H|]. destruct (negb (snd a =? Typ3ByteLength)); [discriminate H|].
      dstep H. rewrite slide_le by assumption. cbv zeta in *. destruct e; [discriminate H|]. rewrite SK in H. destruct (skip_empty B _ _ _ _).
      + eapply IH; [|exact H]. apply rereads_app; [exact R|]. constructor; [|constructor]. apply reread_default; assumption.
      + dstep H. dstep H. destruct e; [discriminate H|].
        destruct (Hrec _ _ infoB _ _ (zero B ert) _ _ _ _ IA IB (base_zero _ _) (base_zero _ _) E0) as (w & D & Rw).
        rewrite D. cbn [dbind]. rewrite slide_le by assumption. eapply IH; [|exact H]. apply rereads_app; [exact R|]. constructor; [exact Rw|constructor].
  Qed.
  Lemma slice_packed_sim infoA infoB ert o : minfo A cA infoA ert -> minfo B cB infoB ert ->
    forall m bz n dA dB l n', rereads A B ert dA dB ->
    decode_slice_packed A recA m bz n infoA ert o dA = DRet l n' None ->
    exists l2, decode_slice_packed B recB m bz n infoB ert o dB = DRet l2 n' None /\ rereads A B ert l l2.
  Proof.
    intros IA IB. induction m as [|m IH]; intros bz n dA dB l n' R; cbn [decode_slice_packed]; intros H.
    - destruct bz; [|discriminate H]. inversion H; subst. eauto.
    - destruct bz as [|x bz]; [inversion H; subst; eauto|]. set (b0 := x :: bz) in *. clearbody b0.
      dstep H. dstep H. destruct e; [discriminate H|].
      destruct (Hrec _ _ infoB _ _ (zero B ert) _ _ _ _ IA IB (base_zero _ _) (base_zero _ _) E) as (w & D & Rw).
      rewrite D. cbn [dbind]. rewrite slide_le by assumption. eapply IH; [|exact H]. apply rereads_app; [exact R|]. constructor; [|constructor].
      apply reread_prefer; assumption.
  Qed.
  Lemma slice_unpacked_sim infoA infoB ert o : minfo A cA infoA ert -> minfo B cB infoB ert ->
    forall m bz n dA dB l n', rereads A B ert dA dB ->
    decode_slice_unpacked A recA m bz n infoA ert o dA = DRet l n' None ->
    exists l2, decode_slice_unpacked B recB m bz n infoB ert o dB = DRet l2 n' None /\ rereads A B ert l l2.
  Proof.
    intros IA IB.
    assert (SK : forall bz, skip_empty A infoA ert o bz = skip_empty B infoB ert o bz).
    { intros bz. apply same_skip; [exact K|]. rewrite (minfo_type _ _ _ _ IA), (minfo_type _ _ _ _ IB). reflexivity. }
    induction m as [|m IH]; intros bz n dA dB l n' R; cbn [decode_slice_unpacked]; intros H.
    - destruct bz; [|discriminate H]. inversion H; subst. eauto.
    - destruct bz as [|x bz]; [inversion H; subst; eauto|]. set (b0 := x :: bz) in *. clearbody b0.
      dstep H. cbn [dbind]. destruct (fst a <? fo_num o); [discriminate H|]. destruct (fo_num o <? fst a); [inversion H; subst; eauto|].
      destruct (negb (snd a =? Typ3ByteLength)); [discriminate H|].
      dstep H. rewrite slide_le by assumption. cbv zeta in *. destruct e; [discriminate H|]. rewrite SK in H. destruct (skip_empty B _ _ _ _).
      + eapply IH; [|exact H]. apply rereads_app; [exact R|]. constructor; [|constructor]. apply reread_default; assumption.
      + dstep H. dstep H. destruct e; [discriminate H|].
        destruct (Hrec _ _ infoB _ _ (zero B ert) _ _ _ _ IA IB (base_zero _ _) (base_zero _ _) E0) as (w & D & Rw).
        rewrite D. cbn [dbind]. rewrite slide_le by assumption. eapply IH; [|exact H]. apply rereads_app; [exact R|]. constructor; [exact Rw|constructor].
  Qed.

  Lemma array_sim t m ert bz o bare v n : resolve A t = RArray m ert ->
    decode_array A cA recA bz ert (VArr (repeat (zero A ert) m)) o bare = DRet v n None ->
    exists w, decode_array B cB recB bz ert (VArr (repeat (zero B ert) m)) o bare = DRet w n None /\ reread A B t v w.
  Proof.
    intros Er. unfold decode_array. rewrite (same_uint8 A B K). destruct (is_uint8 B ert); [discriminate|]. intros H. dstep H.
    destruct (both_known _ _ E) as (infoB & -> & IA & IB & Et). cbn [eget]. eapply enter_sim; [exact H|]. clear H. cbv beta. intros b n0 H.
    rewrite Et, (same_typ3 A B K) in H. destruct (type_to_typ3 B _ o) as [ty| | |]; cbn [eget] in *; try discriminate H.
    destruct (negb _).
    - dstep H. destruct a0 as [l bz']. destruct e; [discriminate H|]. destruct bz'; [|discriminate H]. inversion H; subst.
      destruct (array_packed_sim _ _ _ _ IA IB _ _ _ [] [] _ _ _ (rrs_nil _ _ _) E0) as (l2 & -> & R). cbn [dbind]. eexists. split; [reflexivity|].
      eapply rr_arr; eassumption.
    - dstep H. destruct a0 as [l bz']. destruct e; [discriminate H|].
      destruct (array_unpacked_sim _ _ _ _ IA IB _ _ _ [] [] _ _ _ (rrs_nil _ _ _) E0) as (l2 & -> & R). cbn [dbind].
      destruct bz' as [|x bz']; [inversion H; subst; eexists; split; [reflexivity|eapply rr_arr; eassumption]|].
      set (b1 := x :: bz') in *. clearbody b1. dstep H. cbn [dbind]. destruct e; [discriminate H|]. destruct (fst a0 <=? fo_num o); [discriminate H|].
      inversion H; subst. eexists. split; [reflexivity|]. eapply rr_arr; eassumption.
  Qed.
  Lemma slice_sim t ert bz v0 w0 o bare v n : resolve A t = RSlice ert ->
    decode_slice A cA recA bz ert v0 o bare = DRet v n None ->
    exists w, decode_slice B cB recB bz ert w0 o bare = DRet w n None /\ reread A B t v w.
  Proof.
    intros Er. unfold decode_slice. rewrite (same_uint8 A B K). destruct (is_uint8 B ert); [discriminate|]. intros H. dstep H.
    destruct (both_known _ _ E) as (infoB & -> & IA & IB & Et). cbn [eget]. eapply enter_sim; [exact H|]. clear H. cbv beta. intros b n0 H.
    rewrite Et, (same_typ3 A B K) in H. destruct (type_to_typ3 B _ o) as [ty| | |]; cbn [eget] in *; try discriminate H.
    assert (MK : forall l l2, rereads A B ert l l2 -> reread A B t (mk_slice l) (mk_slice l2)).
    { intros l l2 R. inversion R; subst; cbn [mk_slice]; [apply rr_atom; exact I|]. eapply rr_slice; eassumption. }
    dstep H. destruct e; [discriminate H|]. inversion H; subst. destruct (negb _).
    - destruct (slice_packed_sim _ _ _ _ IA IB _ _ _ [] [] _ _ (rrs_nil _ _ _) E0) as (l2 & -> & R). cbn [dbind]. eexists. split; [reflexivity|]. apply MK. exact R.
    - destruct (slice_unpacked_sim _ _ _ _ IA IB _ _ _ [] [] _ _ (rrs_nil _ _ _) E0) as (l2 & -> & R). cbn [dbind]. eexists. split; [reflexivity|]. apply MK. exact R.
  Qed.

  (** One field, with nothing but zeros in it before. *)
  Lemma field_sim f lA lB bz last n lA' bz' last' n' :
    nth (fi_index f) lA VInvalid = zero A (fi_type f) -> nth (fi_index f) lB VInvalid = zero B (fi_type f) ->
    decode_field A cA recA f lA bz last n = DRet (lA', bz', last') n' None ->
    exists x y, lA' = upd (fi_index f) x lA /\ decode_field B cB recB f lB bz last n = DRet (upd (fi_index f) y lB, bz', last') n' None /\ reread A B (fi_type f) x y.
  Proof.
    intros NA NB H. unfold decode_field in *. cbv zeta in *. rewrite NA in H. rewrite NB.
    dstep H. destruct (both_known _ _ E) as (infoB & -> & IA & IB & Et). cbn [eget].
    destruct bz as [|x bz]. { inversion H; subst. do 2 eexists. splits; [reflexivity|reflexivity|]. apply reread_default; assumption. }
    set (b0 := x :: bz) in *. clearbody b0. destruct (fi_unpacked f).
    - dstep H. dstep H. inversion H; subst. destruct (Hrec _ _ infoB _ _ (zero B (fi_type f)) _ _ _ _ IA IB (base_zero _ _) (base_zero _ _) E0) as (w & -> & Rw).
      cbn [dbind]. rewrite slide_le by assumption. do 2 eexists. splits; [reflexivity|reflexivity|exact Rw].
    - dstep H. cbn [dbind]. destruct a0 as [fnum typ]. destruct (fo_num (fi_opts f) <? fnum).
      { inversion H; subst. do 2 eexists. splits; [reflexivity|reflexivity|]. apply reread_default; assumption. }
      destruct (fnum <=? last); [discriminate H|]. dstep H. rewrite slide_le by assumption. destruct e; [discriminate H|].
      destruct (negb _); [discriminate H|]. rewrite Et, (same_typ3 A B K) in H. destruct (type_to_typ3 B _ _) as [tw| | |]; cbn [eget] in *; try discriminate H.
      destruct (negb _); [discriminate H|]. dstep H. dstep H. inversion H; subst.
      destruct (Hrec _ _ infoB _ _ (zero B (fi_type f)) _ _ _ _ IA IB (base_zero _ _) (base_zero _ _) E1) as (w & -> & Rw).
      cbn [dbind]. rewrite slide_le by assumption. do 2 eexists. splits; [reflexivity|reflexivity|exact Rw].
  Qed.

  Lemma fields_sim xa xb : forall fs i num infos dA dB dfs bz last n lA bz' last' n',
    parse_fields A fs i num = EOk infos -> length dA = i -> length dB = i -> reread_fields A B dfs dA dB ->
    decode_fields A cA recA infos ((dA ++ map (fun f => zero A (sf_type f)) fs) ++ xa) bz last n = DRet (lA, bz', last') n' None ->
    exists l m, lA = l ++ xa /\ decode_fields B cB recB infos ((dB ++ map (fun f => zero B (sf_type f)) fs) ++ xb) bz last n = DRet (m ++ xb, bz', last') n' None /\
      reread_fields A B (dfs ++ fs) l m.
  Proof.
    induction fs as [|f fs IH]; intros i num infos dA dB dfs bz last n lA bz' last' n' Hp LA LB R H.
    - cbn in Hp. apply EOk_inj in Hp. subst infos. cbn [decode_fields map] in *. rewrite !app_nil_r in *. inversion H; subst. exists dA, dB. auto.
    - apply parse_step in Hp. cbn [map] in *.
      assert (RA : forall x, ((dA ++ x :: map (fun f => zero A (sf_type f)) fs) ++ xa) = ((dA ++ [x]) ++ map (fun f => zero A (sf_type f)) fs) ++ xa) by (intros; rewrite <- !app_assoc; reflexivity).
      assert (RB : forall x, ((dB ++ x :: map (fun f => zero B (sf_type f)) fs) ++ xb) = ((dB ++ [x]) ++ map (fun f => zero B (sf_type f)) fs) ++ xb) by (intros; rewrite <- !app_assoc; reflexivity).
      assert (NEXT : forall x y infos num' bz last n, parse_fields A fs (S i) num' = EOk infos -> reread A B (sf_type f) x y ->
        decode_fields A cA recA infos (((dA ++ [x]) ++ map (fun f => zero A (sf_type f)) fs) ++ xa) bz last n = DRet (lA, bz', last') n' None ->
        exists l m, lA = l ++ xa /\ decode_fields B cB recB infos (((dB ++ [y]) ++ map (fun f => zero B (sf_type f)) fs) ++ xb) bz last n = DRet (m ++ xb, bz', last') n' None /\
          reread_fields A B (dfs ++ f :: fs) l m).
      { intros x y infos0 num0 bz0 last0 n0 Hp0 Rxy H0.
        destruct (IH (S i) num0 infos0 (dA ++ [x]) (dB ++ [y]) (dfs ++ [f]) bz0 last0 n0 lA bz' last' n' Hp0) as (l & m & E1 & E2 & E3); try assumption.
        - rewrite app_length. cbn. lia.
        - rewrite app_length. cbn. lia.
        - apply reread_fields_app; [exact R|]. constructor; [exact Rxy|constructor].
        - exists l, m. rewrite <- app_assoc in E3. auto. }
      destruct (field_opts _ f) as [o|].
      + destruct Hp as (fi & rest & -> & Hx & Hty & _ & _ & _ & Hp). cbn [decode_fields] in *. dstep H. destruct a as [[l1 b1] last1]. destruct e; [discriminate H|].
        assert (NA : nth (fi_index fi) ((dA ++ zero A (sf_type f) :: map (fun f => zero A (sf_type f)) fs) ++ xa) VInvalid = zero A (fi_type fi)) by (rewrite Hx, <- LA, Hty, <- app_assoc; apply nth_mid).
        assert (NB : nth (fi_index fi) ((dB ++ zero B (sf_type f) :: map (fun f => zero B (sf_type f)) fs) ++ xb) VInvalid = zero B (fi_type fi)) by (rewrite Hx, <- LB, Hty, <- app_assoc; apply nth_mid).
        destruct (field_sim fi _ _ _ _ _ _ _ _ _ NA NB E) as (x & y & -> & D & Rxy).
        rewrite D. cbn [dbind]. rewrite Hx, Hty in *.
        assert (UA : upd i x ((dA ++ zero A (sf_type f) :: map (fun f => zero A (sf_type f)) fs) ++ xa) = ((dA ++ [x]) ++ map (fun f => zero A (sf_type f)) fs) ++ xa).
        { rewrite <- LA, <- !app_assoc. cbn [app]. rewrite upd_mid, <- app_assoc. reflexivity. }
        assert (UB : upd i y ((dB ++ zero B (sf_type f) :: map (fun f => zero B (sf_type f)) fs) ++ xb) = ((dB ++ [y]) ++ map (fun f => zero B (sf_type f)) fs) ++ xb).
        { rewrite <- LB, <- !app_assoc. cbn [app]. rewrite upd_mid, <- app_assoc. reflexivity. }
        rewrite UA in H. rewrite UB. eapply NEXT; eassumption.
      + rewrite RA in H. rewrite RB. eapply NEXT; [exact Hp| |exact H]. apply reread_zero; assumption.
  Qed.

  (** The fields that are read later leave the first ones alone. *)
  Lemma upd_keep i (x : value) : forall a b, (length a <= i)%nat -> exists b', upd i x (a ++ b) = a ++ b' /\ length b' = length b.
  Proof.
    clear. revert i. intros i a. revert i. induction a as [|y a IH]; intros i b H; cbn [app].
    - exists (upd i x b). split; [reflexivity|]. revert b. clear H. induction i; intros [|z b]; cbn; try reflexivity. rewrite IHi. reflexivity.
    - cbn [length] in H. destruct i as [|i]; [lia|]. cbn [upd]. destruct (IH i b ltac:(lia)) as (b' & -> & L). exists b'. auto.
  Qed.
  Lemma fields_keep env c rec : forall infos a b bz last n r bz' last' n', Forall (fun f => (length a <= fi_index f)%nat) infos ->
    decode_fields env c rec infos (a ++ b) bz last n = DRet (r, bz', last') n' None -> exists b', r = a ++ b' /\ length b' = length b.
  Proof.
    clear. induction infos as [|f infos IH]; intros a b bz last n r bz' last' n' F; cbn [decode_fields]; intros H.
    - inversion H; subst. eauto.
    - apply Forall_cons_iff in F. destruct F as [Ff F]. dstep H. destruct a0 as [[l1 b1] last1]. destruct e; [discriminate H|].
      assert (X : exists b', l1 = a ++ b' /\ length b' = length b).
      { clear H IH. unfold decode_field in E. cbv zeta in E. dstep E. destruct bz as [|x bz]; [inversion E; subst; apply upd_keep; exact Ff|].
        set (bz0 := x :: bz) in *. clearbody bz0. destruct (fi_unpacked f).
        - dstep E. dstep E. inversion E; subst. apply upd_keep; exact Ff.
        - dstep E. destruct a1 as [fnum typ]. destruct (_ <? fnum); [inversion E; subst; apply upd_keep; exact Ff|]. destruct (_ <=? _); [discriminate E|].
          dstep E. destruct e; [discriminate E|]. destruct (negb _); [discriminate E|]. dstep E. destruct (negb _); [discriminate E|].
          dstep E. dstep E. inversion E; subst. apply upd_keep; exact Ff. }
      destruct X as (b2 & -> & L2). destruct (IH _ _ _ _ _ _ _ _ _ F H) as (b3 & -> & L3). exists b3. split; [reflexivity|congruence].
  Qed.

  Lemma struct_sim t ciA ciB bz bare v n : ci_type ciA = t -> ci_type ciB = t -> info_ok A ciA -> info_ok B ciB ->
    careful_struct A B cA recA bz ciA (zero A t) bare = DRet v n None ->
    exists w, decode_struct B cB recB bz ciB (zero B t) bare = DRet w n None /\ reread A B t v w.
  Proof.
    intros TA TB OA OB H. eapply enter_sim; [exact H|]. clear H bz. cbv beta. intros bz n0 H. rewrite TA in H. rewrite TB.
    destruct (resolve A t) as [p| |len e|e| | | | |i|fa|] eqn:Er; try discriminate H.
    - destruct (kin_resolve A B K t) as [E|(fs & ga & gb & E1 & E2 & _)]; [|congruence]. rewrite <- E, Er.
      dstep H. cbn [dbind]. dstep H. rewrite slide_le by assumption. destruct e; [discriminate H|]. inversion H; subst.
      eexists. split; [reflexivity|]. apply rr_atom. exact I.
    - rewrite (zero_struct _ _ _ WA Er) in H.
      destruct (kin_struct A B K t fa Er) as (fs & ga & gb & -> & Eb & Dab & Cm).
      destruct (info_ok_parts _ _ OA) as (_ & PA & _). rewrite TA in PA. unfold parse_struct_info in PA. rewrite Er in PA.
      destruct (parse_app _ _ _ _ _ _ PA) as (a & b & Ef & Fa & num' & Fb & Hnum). cbn [Nat.add] in Fb.
      rewrite <- TA in Cm. destruct (split_infos A B ciA fs ga a b Ef Cm Fa (ex_intro _ _ Fb)) as [Ea Eb']. rewrite Ea, Eb' in H.
      destruct (info_ok_parts _ _ OB) as (_ & PB & _). rewrite TB in PB. unfold parse_struct_info in PB. rewrite Eb in PB.
      destruct (parse_app _ _ _ _ _ _ PB) as (a2 & b2 & Ef2 & Fa2 & num2 & Fb2 & Hnum2). cbn [Nat.add] in Fb2.
      rewrite <- (same_parse A B K), Fa in Fa2. apply EOk_inj in Fa2. subst a2.
      rewrite Eb, (zero_struct _ _ _ WB Eb), Ef2, decode_fields_app. rewrite !map_app in *.
      destruct (decode_fields A cA recA a _ bz 0 n0) as [[[l bz'] last] n1 [e|]| |] eqn:E1; try discriminate H.
      destruct (fields_sim _ (map (fun g => zero B (sf_type g)) gb) fs 0%nat 0%nat a [] [] [] _ _ _ _ _ _ _ Fa eq_refl eq_refl (rrf_nil _ _) E1) as (l1 & m1 & -> & E2 & R).
      cbn [app] in E2, R. rewrite E2. cbn [dbind].
      destruct (decode_fields A cA recA b _ bz' last n1) as [[[l2 [|? ?]] last2] n2 [e|]| |] eqn:E3; try discriminate H.
      destruct (consume_rest (length bz') bz' last n1) as [u n3 [e|]| |] eqn:E4; try discriminate H.
      destruct (n2 =? n3)%nat eqn:E5; [|discriminate H]. apply Nat.eqb_eq in E5. subst n3. inversion H; subst v n2; clear H.
      assert (Lf : length l1 = length fs /\ length m1 = length fs).
      { clear -R. revert l1 m1 R. induction fs; intros l1 m1 R; inversion R; subst; cbn; [auto|]. destruct (IHfs _ _ H4). split; lia. }
      destruct Lf as [L1 L2].
      assert (Ib : Forall (fun f => (length l1 <= fi_index f)%nat) b).
      { rewrite L1. rewrite <- Eb'. unfold late. rewrite Cm. apply Forall_forall. intros f Hf. apply filter_In in Hf. destruct Hf as [_ Hf]. lia. }
      destruct (fields_keep _ _ _ _ _ _ _ _ _ _ _ _ _ Ib E3) as (xa & -> & Lx). rewrite map_length in Lx.
      assert (DB : exists xb, (xb = missing B gb \/ xb = map (fun g => zero B (sf_type g)) gb) /\
        decode_fields B cB recB b2 (m1 ++ map (fun g => zero B (sf_type g)) gb) bz' last n1 = DRet (m1 ++ xb, bz', last) n1 None).
      { destruct Dab as [->| ->].
        - cbn [parse_fields] in Fb. apply EOk_inj in Fb. subst b. cbn [decode_fields] in E3. inversion E3; subst.
          exists (missing B gb). split; [left; reflexivity|]. eapply decode_nothing; [exact Fb2|exact L2|].
          intros g Hg V. apply (Happ (ci_type ciA) g); [|exact V]. rewrite app_nil_r in Er. exists fs, gb. auto.
        - cbn [parse_fields] in Fb2. apply EOk_inj in Fb2. subst b2. exists []. split; [left; reflexivity|]. reflexivity. }
      destruct DB as (xb & Xb & ->). cbn [dbind]. rewrite E4. cbn [dbind]. eexists. split; [reflexivity|].
      eapply rr_struct; eassumption.
  Qed.

  Lemma switch_sim bz infoA infoB t o bare v n : minfo A cA infoA t -> minfo B cB infoB t -> deref_type t = t ->
    careful_switch A B cA recA bz infoA (zero A t) o bare = DRet v n None ->
    exists w, decode_switch B cB recB bz infoB (zero B t) o bare = DRet w n None /\ reread A B t v w.
  Proof.
    intros IA IB Hd H. unfold careful_switch in H. unfold decode_switch in *.
    pose proof (minfo_type _ _ _ _ IA) as TA. pose proof (minfo_type _ _ _ _ IB) as TB. rewrite Hd in TA, TB. rewrite TA in H. rewrite TB.
    assert (NS : (forall fs, resolve A t <> RStruct fs) -> resolve B t = resolve A t).
    { intros N. destruct (kin_resolve A B K t) as [E|(fs & ga & gb & E1 & _ & _)]; [congruence|]. exfalso. eapply N. exact E1. }
    destruct (resolve A t) as [p| |len e|e| | | | |i|fa|] eqn:Er; try discriminate H.
    - rewrite NS by discriminate. destruct (decode_prim_swap p _ (zero B t) _ _ _ _ H) as [D At]. exists v. split; [exact D|apply rr_atom; exact At].
    - rewrite NS by discriminate. destruct infoA as [ciA|]; [|discriminate H]. destruct infoB as [ciB|].
      + destruct IA as [IA OA], IB as [IB OB]. rewrite Hd in IA, IB. exact (struct_sim t ciA ciB bz bare v n IA IB OA OB H).
      + exfalso. destruct IB as [_ IB]. rewrite Hd in IB. subst t. discriminate Er.
    - rewrite NS by discriminate. rewrite (same_uint8 A B K) in H. destruct (is_uint8 B e) eqn:Eu.
      + unfold decode_byte_array in *. destruct (_ <? _)%nat; [discriminate H|]. dstep H. cbn [dbind]. dstep H. rewrite slide_le by assumption.
        destruct e0; [discriminate H|]. destruct (negb _); [discriminate H|]. destruct (gotype_eqb e _); [|discriminate H]. inversion H; subst.
        eexists. split; [reflexivity|]. eapply rr_arr; [exact Er|]. exact (rereads_bytes A B e a).
      + rewrite (zero_array _ _ _ _ WA Er) in H. rewrite (zero_array B t len e WB) by (rewrite NS by discriminate; reflexivity).
        eapply array_sim; eassumption.
    - rewrite NS by discriminate. rewrite (same_uint8 A B K) in H. destruct (is_uint8 B e) eqn:Eu.
      + unfold decode_byte_slice_val in *. destruct bz as [|x bz]; [inversion H; subst; eexists; split; [reflexivity|apply rr_atom; exact I]|].
        set (b0 := x :: bz) in *. clearbody b0. dstep H. cbn [dbind]. dstep H. rewrite slide_le by assumption.
        destruct e0; [discriminate H|]. destruct a as [|y a]; [inversion H; subst; eexists; split; [reflexivity|apply rr_atom; exact I]|].
        destruct (gotype_eqb e _); [|discriminate H]. inversion H; subst.
        eexists. split; [reflexivity|]. eapply rr_slice; [exact Er|]. exact (rereads_bytes A B e (y :: a)).
      + eapply slice_sim; eassumption.
    - rewrite NS by discriminate. destruct infoA as [|iiA]; [discriminate H|]. destruct infoB as [ciB|iiB].
      + exfalso. destruct IB as [IB OB]. destruct IA as [_ IA]. rewrite Hd in IA, IB. pose proof (conc_nonptr B ciB OB) as N. rewrite IB, IA in N. exact N.
      + destruct IA as [IA1 IA2], IB as [IB1 IB2]. rewrite Hd in IA2, IB2. subst t. cbn [zero] in *.
        eapply iface_sim; [exact IA1|exact IB1|congruence|exact H].
    - assert (Eb : exists fb, resolve B t = RStruct fb).
      { destruct (kin_struct A B K t fa Er) as (fs & ga & gb & _ & E & _). eauto. }
      destruct Eb as [fb ->]. destruct infoA as [ciA|]; [|discriminate H]. destruct infoB as [ciB|].
      + destruct IA as [IA OA], IB as [IB OB]. rewrite Hd in IA, IB. exact (struct_sim t ciA ciB bz bare v n IA IB OA OB H).
      + exfalso. destruct IB as [_ IB]. rewrite Hd in IB. subst t. discriminate Er.
  Qed.
  End Rec.

  Theorem careful_sim : forall fd, simulates (careful fd A B cA) (decode_reflect fd B cB).
  Proof.
    induction fd as [|fd IH]; intros bz infoA infoB t v0 w0 o bare v n IA IB BA BB H; [discriminate H|].
    cbn [careful] in H.
    set (dA := deref_type t) in *. assert (Hdd : deref_type dA = dA) by apply deref_idem.
    pose proof (minfo_deref _ _ _ _ IA) as IA'. pose proof (minfo_deref _ _ _ _ IB) as IB'. fold dA in IA', IB'.
    assert (G : forall v1 n1, match infoA with
             | TIConc {| ci_type := ct; ci_unmarshal := Some r |} =>
                 eget (get_type_info A cA r) (fun e => DRet (zero A dA) 0 (Some e)) (fun rinfo =>
                 dbind (careful fd A B cA bz rinfo r (zero A r) o bare) (fun rv n e =>
                 slide bz n (fun _ =>
                 match e with
                 | Some e => DRet (zero A dA) n (Some e)
                 | None => eget (from_repr A ct (zero A dA) rv) (fun e => DRet (zero A dA) n (Some e))
                                (fun r => DRet (fst r) n (snd r))
                 end)))
             | _ => careful_switch A B cA (careful fd A B cA) bz infoA (zero A dA) o bare
             end = DRet v1 n1 None ->
       exists w1, match infoB with
             | TIConc {| ci_type := ct; ci_unmarshal := Some r |} =>
                 eget (get_type_info B cB r) (fun e => DRet (zero B dA) 0 (Some e)) (fun rinfo =>
                 dbind (decode_reflect fd B cB bz rinfo r (zero B r) o bare) (fun rv n e =>
                 slide bz n (fun _ =>
                 match e with
                 | Some e => DRet (zero B dA) n (Some e)
                 | None => eget (from_repr B ct (zero B dA) rv) (fun e => DRet (zero B dA) n (Some e))
                                (fun r => DRet (fst r) n (snd r))
                 end)))
             | _ => decode_switch B cB (decode_reflect fd B cB) bz infoB (zero B dA) o bare
             end = DRet w1 n1 None /\ reread A B dA v1 w1).
    { clear H. intros v1 n1 H. pose proof (fun H => switch_sim _ _ IH bz infoA infoB dA o bare v1 n1 IA' IB' Hdd H) as SW.
      destruct infoA as [ciA|iiA].
      - destruct infoB as [ciB|iiB].
        + destruct IA' as [TA OA], IB' as [TB OB]. rewrite Hdd in TA, TB.
          pose proof (minfo_unmethod _ _ _ TA OA) as UA. pose proof (minfo_unmethod _ _ _ TB OB) as UB.
          destruct ciA as [ct cf cm cu cr], ciB as [ct' cf' cm' cu' cr']. cbn [ci_type ci_unmarshal] in *. subst ct ct'.
          destruct cu as [r|].
          * destruct UA as (id & g & Ed & Eu & Dr). pose proof (kin_unmarshal _ _ K id) as KU. rewrite Eu in KU.
            destruct (te_unmarshal B id) as [[|r' g']|] eqn:Eu'; try contradiction. destruct KU as [<- KU].
            destruct cu' as [r2|]; [|specialize (UB id Ed); congruence]. destruct UB as (id2 & g2 & Ed2 & Eu2 & _). rewrite Ed in Ed2. inversion Ed2; subst id2. rewrite Eu' in Eu2. inversion Eu2; subst r2 g2.
            dstep H. destruct (both_known _ _ E) as (rB & -> & MA & MB & _). cbn [eget]. dstep H. dstep H. destruct e; [discriminate H|].
            destruct (IH _ _ rB _ _ (zero B r) _ _ _ _ MA MB (base_zero _ _) (base_zero _ _) E0) as (y & -> & Rxy). cbn [dbind]. rewrite slide_le by assumption.
            rewrite Ed in *. cbn [from_repr] in *. rewrite Eu in H. rewrite Eu'.
            dstep H. destruct a1 as [v2 e2]. cbn [fst snd] in H. inversion H; subst.
            destruct (KU _ _ _ Rxy E1) as (w2 & -> & R2). cbn [eget fst snd]. exists w2. split; [reflexivity|exact R2].
          * destruct cu' as [r2|].
            { exfalso. destruct UB as (id & g & Ed & Eu & _). specialize (UA id Ed). pose proof (kin_unmarshal _ _ K id) as KU. rewrite UA, Eu in KU. exact KU. }
            apply SW. exact H.
        + exfalso. destruct IA' as [TA OA], IB' as [_ TB]. rewrite Hdd in *. pose proof (conc_nonptr A ciA OA) as N. rewrite TA, TB in N. exact N.
      - destruct infoB as [ciB|iiB].
        + exfalso. destruct IA' as [_ TA], IB' as [TB OB]. rewrite Hdd in *. pose proof (conc_nonptr B ciB OB) as N. rewrite TB, TA in N. exact N.
        + apply SW. exact H. }
    assert (ND : match infoA, t with TIFace _, TPtr _ => False | _, _ => True end).
    { destruct infoA as [ciA|iiA]; [exact I|]. destruct t; try exact I. discriminate H. }
    assert (H' : dmap (rebuild t) (match infoA with
             | TIConc {| ci_type := ct; ci_unmarshal := Some r |} =>
                 eget (get_type_info A cA r) (fun e => DRet (zero A dA) 0 (Some e)) (fun rinfo =>
                 dbind (careful fd A B cA bz rinfo r (zero A r) o bare) (fun rv n e =>
                 slide bz n (fun _ =>
                 match e with
                 | Some e => DRet (zero A dA) n (Some e)
                 | None => eget (from_repr A ct (zero A dA) rv) (fun e => DRet (zero A dA) n (Some e))
                                (fun r => DRet (fst r) n (snd r))
                 end)))
             | _ => careful_switch A B cA (careful fd A B cA) bz infoA (zero A dA) o bare
             end) = DRet v n None).
    { rewrite <- H. rewrite BA. destruct infoA as [ciA|iiA]; [reflexivity|]. destruct t; try reflexivity. contradiction. }
    clear H. unfold dmap in H'. dstep H'. inversion H'; subst. destruct (G _ _ eq_refl) as (w1 & GB & R). clear G.
    assert (NB : match infoB, t with TIFace _, TPtr _ => False | _, _ => True end).
    { destruct infoB as [ciB|iiB]; [exact I|]. destruct infoA as [ciA|iiA]; [|exact ND].
      exfalso. destruct IA' as [TA OA], IB' as [_ TB]. rewrite Hdd in *. pose proof (conc_nonptr A ciA OA) as N. rewrite TA, TB in N. exact N. }
    exists (rebuild t w1). split.
    - cbn [decode_reflect]. rewrite BB. cbv zeta.
      destruct infoB as [ciB|iiB]; [|destruct t; try contradiction]; unfold dmap; rewrite GB; reflexivity.
    - unfold rebuild. rewrite <- !ptrs_wrap. apply reread_ptrs. exact R.
  Qed.
End Sim.

(** ** Registration *)

Lemma emap_in {X Y} (f : X -> eres Y) : forall l m, emap f l = EOk m ->
  (forall x, In x l -> exists y, In y m /\ f x = EOk y) /\ (forall y, In y m -> exists x, In x l /\ f x = EOk y).
Proof.
  induction l as [|a l IH]; intros m; cbn [emap]; intros H.
  - apply EOk_inj in H. subst m. split; intros ? [].
  - unfold ebind in H. destruct (f a) as [b| | |] eqn:Ef; try discriminate. destruct (emap f l) as [m'| | |] eqn:Em; try discriminate. apply EOk_inj in H. subst m.
    destruct (IH m' eq_refl) as [I1 I2]. split.
    + intros x [<-|Hx]; [exists b; cbn; auto|]. destruct (I1 x Hx) as (y & Hy & E). exists y. cbn. auto.
    + intros y [<-|Hy]; [exists a; cbn; auto|]. destruct (I2 y Hy) as (x & Hx & E). exists x. cbn. auto.
Qed.
Lemma reg_call_inv env x ci : reg_call env x = EOk ci -> ci_type ci = conc_of (fst x) /\
  exists d p, name_to_disfix env (snd x) = EOk (d, p) /\ ci_reg ci = Some {| ri_ptr := is_ptr (fst x); ri_name := snd x; ri_disamb := d; ri_prefix := p |}.
Proof.
  unfold reg_call, new_registered_info, ebind. destruct (new_type_info env (conc_of (fst x))) as [c0| | |] eqn:E; try discriminate.
  destruct (name_to_disfix env (snd x)) as [[d p]| | |] eqn:E2; try discriminate. intros H. apply EOk_inj in H. subst ci. cbn.
  apply new_type_info_spec in E. destruct E as (_ & E & _). split; [exact E|]. exists d, p. auto.
Qed.
Lemma run_in env h : clean env new_codec h = true ->
  (forall x, In x (conc_calls h) -> exists ci, In ci (cd_concretes (run env new_codec h)) /\ reg_call env x = EOk ci) /\
  (forall ci, In ci (cd_concretes (run env new_codec h)) -> exists x, In x (conc_calls h) /\ reg_call env x = EOk ci).
Proof. intros H. destruct (run_registered env h new_codec H) as (cs & is & E & E2 & _). rewrite E2. cbn [cd_concretes new_codec app]. apply (emap_in _ _ _ E). Qed.

Section Names.
  Variables A B : tenv.
  Hypothesis K : kin A B.
  Variables ha hb : list op.
  Variable t : gotype.
  Hypothesis CA : clean A new_codec ha = true.
  Hypothesis CB : clean B new_codec hb = true.
  Hypothesis NK : names_kept A t ha hb.
  Let cA := run A new_codec ha.
  Let cB := run B new_codec hb.

  Lemma disfix_same n : name_to_disfix A n = name_to_disfix B n.
  Proof. clear - K. unfold name_to_disfix. rewrite (kin_hash _ _ K). reflexivity. Qed.
  Lemma calls_twin x a b : reg_call A x = EOk a -> reg_call B x = EOk b -> twin a b.
  Proof.
    clear - K. intros HA HB. destruct (reg_call_inv _ _ _ HA) as (TA & d & p & Na & Ra). destruct (reg_call_inv _ _ _ HB) as (TB & d' & p' & Nb & Rb).
    rewrite <- disfix_same, Na in Nb. apply EOk_inj in Nb. inversion Nb; subst. split; congruence.
  Qed.
  Lemma names_twin a : In a (cd_concretes cA) -> exists b, In b (cd_concretes cB) /\ twin a b.
  Proof.
    intros Ha. destruct (proj2 (run_in A ha CA) a Ha) as (x & Hx & Ea). apply (nk_kept _ _ _ _ NK) in Hx.
    destruct (proj1 (run_in B hb CB) x Hx) as (b & Hb & Eb). exists b. split; [exact Hb|]. eapply calls_twin; eassumption.
  Qed.
  Lemma names_back x b : In x (conc_calls ha) -> reg_call B x = EOk b -> exists a, In a (cd_concretes cA) /\ twin a b.
  Proof. intros Hx Eb. destruct (proj1 (run_in A ha CA) x Hx) as (a & Ha & Ea). exists a. split; [exact Ha|]. eapply calls_twin; eassumption. Qed.
  Lemma names_clash a b : In a (cd_concretes cA) -> In b (cd_concretes cB) -> ci_prefix a = ci_prefix b ->
    exists a', In a' (cd_concretes cA) /\ twin a' b.
  Proof.
    intros Ha Hb E. destruct (proj2 (run_in A ha CA) a Ha) as (x & Hx & Ea). destruct (proj2 (run_in B hb CB) b Hb) as (y & Hy & Eb).
    destruct (reg_call_inv _ _ _ Ea) as (_ & d & p & Na & Ra). destruct (reg_call_inv _ _ _ Eb) as (_ & d' & p' & Nb & Rb).
    unfold ci_prefix in E. rewrite Ra, Rb in E. cbn in E. subst p'. rewrite <- disfix_same in Nb.
    apply (names_back y); [|exact Eb]. eapply (nk_new _ _ _ _ NK x y d d' p Hx Hy); apply name_to_disfix_exact; assumption.
  Qed.
  Lemma names_prefix infoA infoB : get_type_info A cA t = EOk infoA -> get_type_info B cB t = EOk infoB -> prefix_of infoA = prefix_of infoB.
  Proof.
    intros HA HB. pose proof (wf_history A ha CA) as WcA. pose proof (wf_history B hb CB) as WcB.
    pose proof (gti_minfo _ _ _ _ (sane_run A ha) HA) as MA. pose proof (gti_minfo _ _ _ _ (sane_run B hb) HB) as MB.
    assert (FA : forall ci, In ci (cd_concretes cA) -> ci_type ci = deref_type t -> infoA = TIConc ci).
    { intros ci Hin Et. apply (wc_conc _ _ WcA) in Hin. destruct Hin as [Ha _]. pose proof (wc_types _ _ WcA _ _ Ha) as [_ Ok]. apply conc_nonptr in Ok. rewrite Et in Ha, Ok.
      unfold get_type_info in HA. cbv zeta in HA. fold cA in Ha. rewrite Ha in HA. destruct (deref_type t); try contradiction; apply EOk_inj in HA; congruence. }
    assert (FB : forall ci, In ci (cd_concretes cB) -> ci_type ci = deref_type t -> infoB = TIConc ci).
    { intros ci Hin Et. apply (wc_conc _ _ WcB) in Hin. destruct Hin as [Ha _]. pose proof (wc_types _ _ WcB _ _ Ha) as [_ Ok]. apply conc_nonptr in Ok. rewrite Et in Ha, Ok.
      unfold get_type_info in HB. cbv zeta in HB. fold cB in Ha. rewrite Ha in HB. destruct (deref_type t); try contradiction; apply EOk_inj in HB; congruence. }
    assert (RA : forall ci r, infoA = TIConc ci -> ci_reg ci = Some r -> prefix_of infoA = prefix_of infoB).
    { intros ci r -> Hr. pose proof (gti_registered A cA WcA _ _ _ HA Hr) as Hin. destruct (names_twin _ Hin) as (b & Hb & [T1 T2]).
      rewrite (FB b Hb) by (rewrite <- T1; exact (proj1 MA)). cbn [prefix_of]. rewrite T2. reflexivity. }
    destruct infoA as [ciA|iiA].
    - destruct (ci_reg ciA) as [r|] eqn:Er; [eapply RA; eauto|]. destruct infoB as [ciB|iiB]; [|cbn [prefix_of]; rewrite Er; reflexivity].
      cbn [prefix_of]. rewrite Er. destruct (ci_reg ciB) as [r|] eqn:Erb; [|reflexivity]. exfalso.
      pose proof (gti_registered B cB WcB _ _ _ HB Erb) as Hin. destruct (proj2 (run_in B hb CB) _ Hin) as (x & Hx & Ex).
      destruct (reg_call_inv _ _ _ Ex) as (Tx & _). destruct MB as [MB _].
      assert (Hx' : In x (conc_calls ha)) by (apply (nk_type _ _ _ _ NK x Hx); congruence).
      destruct (names_back x _ Hx' Ex) as (a & Ha & [T1 T2]). specialize (FA a Ha ltac:(congruence)). injection FA as ->. congruence.
    - destruct infoB as [ciB|iiB]; [|reflexivity]. exfalso. destruct MA as [_ MA], MB as [MB Ok]. apply conc_nonptr in Ok. rewrite MB, MA in Ok. exact Ok.
  Qed.
End Names.

(** ** Messages *)

Theorem kin_round_trip A B ha hb mem t : wf_env A -> wf_env B -> kin A B -> marshal_typed A ->
  clean A new_codec ha = true -> clean B new_codec hb = true -> names_kept A t ha hb ->
  let cA := run A new_codec ha in let cB := run B new_codec hb in
  (forall u, known A cA u = true -> known B cB u = true) ->
  (forall u g, appended A B u g -> visible g = true -> known B cB (sf_type g) = true) ->
  regular A cA mem ->
  (forall u g, dropped A B u g -> mem u = true /\ (visible g = true -> entries A (sf_type g) = false)) ->
  forall k fd v bz v' rt w0, (2 * k <= fd)%nat ->
  struct_like A (deref_type t) = true -> has_type A t v = true ->
  marshal_bare k A cA t v = EOk bz -> zlen bz < 2 ^ 63 ->
  match under v with Some w => norm k A cA (deref_type t) top_opts w | None => None end = Some v' ->
  deref_type rt = deref_type t -> base_of B rt w0 = zero B (deref_type t) ->
  exists w, unmarshal_bare fd B cB bz rt w0 = URet w None /\ reread A B rt (ptrs rt v') w.
Proof.
  intros WA WB K Hm CA CB NK cA cB Hknown Happ Hreg Hdrop k fd v bz v' rt w0 Hfd Hsl Ht H Hz Hn Hrt Hb.
  pose proof (wf_history A ha CA) as HcA. pose proof (wf_history B hb CB) as HcB. pose proof (sane_run A ha) as HsA. pose proof (sane_run B hb) as HsB.
  fold cA in HcA, HsA. fold cB in HcB, HsB.
  rewrite marshal_eq in H. destruct (under v) as [w|] eqn:Eu; [|discriminate].
  einv H. einv H. apply EOk_inj in H. subst bz. rename a into infoA, a0 into body.
  pose proof (gti_minfo _ _ _ _ HsA E) as Hi. rewrite (minfo_type _ _ _ _ Hi), Hsl in E0. cbn [negb] in E0.
  destruct (both_known A B cA cB HsA HsB Hknown t infoA E) as (infoB & EB & MA & MB & Et).
  assert (E' : get_type_info B cB rt = EOk infoB) by (rewrite <- gti_deref, Hrt, gti_deref; exact EB).
  rewrite (names_prefix A B K ha hb t CA CB NK infoA infoB E EB) in *.
  rewrite (unmarshal_prefixed _ _ _ _ _ _ _ HsB E'). unfold um_body.
  rewrite <- Et, (minfo_type _ _ _ _ Hi), <- (same_struct_like A B K), <- struct_like_eq, Hsl. cbn [negb andb].
  rewrite zlen_app in Hz. pose proof (zlen_nonneg (prefix_of infoB)).
  assert (D : careful fd A B cA (body ++ []) infoA rt (zero A rt) top_opts true = DRet (ptrs rt v') (length body) None).
  { eapply (encode_careful A B WA cA HcA HsA Hm K mem Hreg Hdrop k fd Hfd infoA (deref_type t) w); try eassumption.
    - apply minfo_deref. exact Hi.
    - apply deref_idem.
    - eapply under_typed; eassumption.
    - vm_compute. discriminate.
    - lia.
    - reflexivity.
    - destruct (struct_like_conc A cA _ _ Hsl Hi) as [ci ->]. destruct Hi as [Hi1 Hi2]. pose proof (conc_nonptr A ci Hi2) as N.
      rewrite <- Hi1. destruct (ci_type ci); try (apply andb_false_r); contradiction.
    - rewrite base_zero, Hrt. reflexivity. }
  rewrite app_nil_r in D.
  assert (MA' : minfo A cA infoA rt). { destruct infoA; cbn [minfo] in *; rewrite Hrt; exact MA. }
  assert (MB' : minfo B cB infoB rt). { destruct infoB; cbn [minfo] in *; rewrite Hrt; exact MB. }
  destruct (careful_sim A B K WA WB cA cB HcA HcB HsA HsB (names_twin A B K ha hb t CA CB NK) (names_clash A B K ha hb t CA CB NK) Hknown Happ fd
     body infoA infoB rt (zero A rt) w0 top_opts true _ _ MA' MB' (base_zero _ _) ltac:(rewrite Hrt; exact Hb) D) as (y & DB & R).
  rewrite DB. unfold um_finish. rewrite Nat.eqb_refl. exists y. split; [reflexivity|exact R].
Qed.
