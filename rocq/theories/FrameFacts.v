(** Facts behind length-prefixed framing and the prefix bytes of registered types. *)
From Coq Require Import ZArith String List Bool Lia.
From Coq Require Import ZifyBool ZifyNat.
From Verif Require Import Base Prims SpecWire PrimFacts PrimProps Types Codec BinEnc BinDec Amino FuelFacts DecFacts
  ValueInd Typing Registry SpecRegistry RegistryFacts RegistryProps Sane DecSafe SpecNorm EncFacts RoundTrip TopFacts.
Import ListNotations.
Local Open Scope Z_scope.
Local Open Scope amino_scope.

(** ** Length prefixes *)

(** [bz] is a length prefix (of at most 10 bytes) followed by as many bytes as it says. *)
Definition framed (bz pre body : bytes) : Prop :=
  bz = pre ++ body /\ leb128 pre (zlen body) /\ (length pre <= 10)%nat.

Lemma framed_uvarint bz pre body : framed bz pre body -> zlen bz < 2 ^ 63 ->
  uvarint bz = (zlen body, zlen pre).
Proof.
  intros (-> & (ds & last & -> & Hds & Hl & Hv) & Hlen) Hz. rewrite <- app_assoc. cbn [app].
  rewrite zlen_app in Hz. rewrite app_length, map_length in Hlen. cbn [length] in Hlen.
  change (map (fun d => d + 128) ds) with (map contb ds).
  rewrite uvarint_digits; try assumption; try lia.
  - rewrite <- Hv. f_equal. unfold zlen. rewrite app_length, map_length. cbn [length]. lia.
  - intros H9. rewrite val128_app in Hv. unfold zlen in Hv at 2. rewrite H9 in Hv. cbn [val128] in Hv.
    pose proof (val128_bound ds Hds). change (128 ^ Z.of_nat 9) with (2 ^ 63) in Hv.
    pose proof (zlen_nonneg (map (fun d => d + 128) ds ++ [last])). unfold digit128 in Hl. lia.
Qed.

Lemma uvarint_framed bz u n : bytes_ok bz -> uvarint bz = (u, n) -> 0 < n -> zlen bz - n = u ->
  framed bz (firstn (Z.to_nat n) bz) (skipn (Z.to_nat n) bz).
Proof.
  intros Hok H Hn Hu. pose proof H as H'. apply uvarint_count in H'. apply uvarint_inv in H; try assumption.
  destruct H as (ds & last & rest & -> & Hds & Hl & Hlen & _ & Hv & Hn').
  assert (L : Z.to_nat n = length (map contb ds ++ [last])) by (rewrite app_length, map_length; cbn [length]; lia).
  replace (map contb ds ++ last :: rest) with ((map contb ds ++ [last]) ++ rest) in * by (rewrite <- app_assoc; reflexivity).
  rewrite firstn_app_exact, skipn_app_exact by (symmetry; exact L).
  split; [reflexivity|]. split.
  - exists ds, last. splits; try assumption; try reflexivity. rewrite <- Hv. rewrite zlen_app in Hu. unfold zlen in *. lia.
  - lia.
Qed.

Lemma unmarshal_framed fd env c bz pre body t v0 : framed bz pre body -> zlen bz < 2 ^ 63 ->
  unmarshal_length_prefixed fd env c bz t v0 = unmarshal_bare fd env c body t v0.
Proof.
  intros F Hz. pose proof (framed_uvarint _ _ _ F Hz) as E. destruct F as (-> & Hleb & Hlen).
  assert (Hp : 0 < zlen pre).
  { destruct Hleb as (ds & last & -> & _). unfold zlen. rewrite app_length. cbn [length]. lia. }
  unfold unmarshal_length_prefixed. destruct (pre ++ body) as [|b0 q] eqn:Eq.
  { destruct pre; [unfold zlen in Hp; cbn in Hp; lia|discriminate]. }
  rewrite <- Eq in *. rewrite E. rewrite zlen_app in *. pose proof (zlen_nonneg body).
  replace (zlen pre + zlen body - zlen pre) with (zlen body) by lia. rewrite u64_small by lia.
  destruct (zlen pre <? 0) eqn:E1; [lia|]. rewrite Z.ltb_irrefl.
  rewrite skipn_app_exact by (unfold zlen; lia). reflexivity.
Qed.
Lemma unmarshal_unframed fd env c bz t v0 : bytes_ok bz -> zlen bz < 2 ^ 63 -> (forall pre body, ~ framed bz pre body) ->
  exists e, unmarshal_length_prefixed fd env c bz t v0 = URet v0 (Some e).
Proof.
  intros Hok Hz N. unfold unmarshal_length_prefixed. destruct bz as [|b0 q] eqn:Eq; [eauto|]. rewrite <- Eq in *.
  destruct (uvarint bz) as [u n] eqn:E. pose proof (uvarint_count _ _ _ E) as C. pose proof (zlen_nonneg bz).
  destruct (n <? 0) eqn:E1; [eauto|]. rewrite u64_small by lia.
  destruct (zlen bz - n <? u) eqn:E2; [eauto|]. destruct (u <? zlen bz - n) eqn:E3; [eauto|]. exfalso.
  assert (0 < n).
  { destruct C as [[-> ->]|[C|C]]; [|lia|lia]. assert (0 < zlen bz) by (subst bz; unfold zlen; cbn [length]; lia). lia. }
  exact (N _ _ (uvarint_framed bz u n Hok E ltac:(lia) ltac:(lia))).
Qed.

(** ** Prefix bytes *)

(** The codec with the registration of [t] taken out of the type table that Marshal and Unmarshal
    consult; interfaces still know their implementations. *)
Definition forget (t : gotype) (c : codec) : codec :=
  {| cd_sealed := cd_sealed c;
     cd_types := map (fun p => if gotype_eqb (fst p) t then (fst p, unreg (snd p)) else p) (cd_types c);
     cd_ifaces := cd_ifaces c; cd_concretes := cd_concretes c; cd_disfix := cd_disfix c; cd_names := cd_names c |}.

Lemma forget_assoc t c x : assoc gotype_eqb x (cd_types (forget t c)) =
  match assoc gotype_eqb x (cd_types c) with
  | Some ci => Some (if gotype_eqb x t then unreg ci else ci)
  | None => None
  end.
Proof.
  cbn [forget cd_types]. induction (cd_types c) as [|[y ci] l IH]; [reflexivity|]. cbn [map assoc fst snd].
  destruct (gotype_eqb y t) eqn:E; cbn [assoc];
    (destruct (gotype_eqb x y) eqn:E2; [apply gotype_eqb_eq in E2; subst y; rewrite E; reflexivity|exact IH]).
Qed.
Lemma forget_info env t c x : ursim (get_type_info env c x) (get_type_info env (forget t c) x).
Proof.
  unfold get_type_info. destruct (deref_type x) eqn:E; try (cbn; reflexivity);
    try (rewrite forget_assoc;
         match goal with |- ursim (match ?a with _ => _ end) _ => destruct a as [ci|]; [|apply rsim_ursim, rsim_refl] end;
         destruct (gotype_eqb _ t); cbn; auto; fail).
  cbn [forget cd_ifaces]. destruct (find_iface i (cd_ifaces c)); cbn; auto. apply isim_refl.
Qed.
Lemma forget_equiv env t c : dec_equiv env c (forget t c).
Proof. split; [apply forget_info|reflexivity]. Qed.

Section Prefix.
  Variable env : tenv.
  Variable h : list op.
  Hypothesis Hc : clean env new_codec h = true.
  Variables (t : gotype) (n d p : bytes).
  Hypothesis Hreg : In (t, n) (conc_calls h).
  Hypothesis Hdp : name_to_disfix env n = EOk (d, p).
  Let c := run env new_codec h.

  Lemma reg_info rt : deref_type rt = conc_of t -> exists ci r, get_type_info env c rt = EOk (TIConc ci) /\ ci_reg ci = Some r /\ ri_prefix r = p /\
    ci_type ci = conc_of t.
  Proof.
    intros Hd. destruct (unique_registrations env h Hc) as (_ & _ & R & _).
    destruct (R t n Hreg) as (ci & r & d' & p' & Hg & _ & Hty & Hr & _ & _ & _ & Hp & Hdp' & _).
    rewrite Hdp in Hdp'. apply EOk_inj in Hdp'. exists ci, r. splits; try assumption; [|congruence].
    pose proof (gti_minfo _ _ _ _ (sane_run env h) Hg) as [Hm _]. rewrite <- gti_deref, Hd, <- Hty, Hm, gti_deref. exact Hg.
  Qed.

  Lemma prefix_len : length p = 4%nat.
  Proof. destruct (disfix_parts _ _ _ _ Hdp) as (_ & Lp & _). exact Lp. Qed.

  Lemma marshal_has_prefix k rt v bz : deref_type rt = conc_of t -> marshal_bare k env c rt v = EOk bz -> exists body, bz = p ++ body.
  Proof.
    intros Hd H. destruct (reg_info rt Hd) as (ci & r & Hg & Hr & Hp & _). rewrite marshal_eq in H. destruct (under v); [|discriminate].
    rewrite Hg in H. cbn [ebind] in H. einv H. apply EOk_inj in H. subst bz. cbn [prefix_of]. rewrite Hr, Hp. eauto.
  Qed.

  Lemma unmarshal_other_prefix fd bz rt v0 : deref_type rt = conc_of t -> (forall body, bz <> p ++ body) ->
    exists e, unmarshal_bare fd env c bz rt v0 = URet v0 (Some e).
  Proof.
    intros Hd N. destruct (reg_info rt Hd) as (ci & r & Hg & Hr & Hp & _). rewrite unmarshal_eq, Hg. cbv zeta. rewrite Hr.
    destruct (length bz <? 4)%nat; [eauto|]. destruct (negb _) eqn:E; [eauto|]. apply negb_false_iff, beqb_eq in E. exfalso.
    apply (N (skipn 4 bz)). rewrite <- Hp, <- E. symmetry. apply firstn_skipn.
  Qed.

  Lemma unmarshal_after_prefix fd body rt v0 : deref_type rt = conc_of t ->
    unmarshal_bare fd env c (p ++ body) rt v0 = unmarshal_bare fd env (forget (conc_of t) c) body rt v0.
  Proof.
    intros Hd. destruct (reg_info rt Hd) as (ci & r & Hg & Hr & Hp & Hty).
    pose proof (unmarshal_prefixed fd env c body rt v0 (TIConc ci) (sane_run env h) Hg) as U. cbn [prefix_of] in U. rewrite Hr, Hp in U. rewrite U.
    assert (Hg' : get_type_info env (forget (conc_of t) c) rt = EOk (TIConc (unreg ci))).
    { pose proof (gti_minfo _ _ _ _ (sane_run env h) Hg) as [_ Hok]. pose proof (conc_nonptr env ci Hok) as Np. rewrite Hty in Np.
      unfold get_type_info in *. rewrite Hd in *.
      destruct (conc_of t) eqn:Et; try contradiction;
        (rewrite forget_assoc, gotype_eqb_refl; destruct (assoc gotype_eqb _ (cd_types c)); [inversion Hg; reflexivity|];
         exfalso; einv Hg; inversion Hg; subst a; apply new_type_info_spec in E; destruct E as (_ & _ & E); congruence). }
    rewrite unmarshal_eq, Hg'. cbv zeta. cbn [unreg ci_reg ti_type ci_type]. unfold um_body.
    assert (D : forall b bare, decode_reflect fd env c b (TIConc ci) rt v0 top_opts bare =
      decode_reflect fd env (forget (conc_of t) c) b (TIConc (unreg ci)) rt v0 top_opts bare).
    { intros. apply decode_usim; [apply forget_equiv|cbn; auto]. }
    rewrite <- D.
    destruct (if is_struct_or_repeated_struct env (ci_type ci) then EOk true else is_pointer_to_struct env v0 rt); try reflexivity.
    destruct (negb a && _); try reflexivity. destruct (decode_field_key body) as [[fnum typ] nk [e|]| |]; try reflexivity.
    destruct (negb (fnum =? 1)); try reflexivity. destruct (type_to_typ3 env (ci_type ci) no_opts); try reflexivity.
    destruct (negb (typ =? a0)); try reflexivity. rewrite D. reflexivity.
  Qed.
End Prefix.

(** ** Registration calls behind a registered type or interface *)

Lemma registered_call env h ci r : clean env new_codec h = true -> In ci (cd_concretes (run env new_codec h)) -> ci_reg ci = Some r ->
  exists t n, In (t, n) (conc_calls h) /\ ci_type ci = conc_of t /\ ri_ptr r = is_ptr t /\ ri_name r = n.
Proof.
  intros C Hci Hr. destruct (run_registered env h new_codec C) as (cs & is & R1 & R2 & _).
  cbn [new_codec cd_concretes app] in R2. rewrite R2 in Hci. destruct (emap_in _ _ _ R1) as [_ A1].
  destruct (A1 _ Hci) as ([t n] & Hin & Hcall). unfold reg_call in Hcall. cbn [fst snd] in Hcall.
  destruct (new_registered_spec _ _ _ _ _ Hcall) as (_ & Ht & _ & _ & r' & Hr' & Hn & Hp).
  exists t, n. rewrite Hr in Hr'. inversion Hr'; subst r'. auto.
Qed.
Lemma iface_call_in env h i o : clean env new_codec h = true -> In (i, o) (iface_calls h) ->
  exists ii, In ii (cd_ifaces (run env new_codec h)) /\ ii_id ii = i.
Proof.
  intros C Hin. destruct (run_registered env h new_codec C) as (cs & is & _ & _ & R3 & R4). cbn [new_codec cd_ifaces map app] in R4.
  destruct (emap_in _ _ _ R3) as [A _]. destruct (A _ Hin) as (ii & E & Hii). unfold iface_call in E. apply new_iface_spec in E. destruct E as [E _].
  assert (Hb : In (bare_iface ii) (map bare_iface (cd_ifaces (run env new_codec h)))) by (rewrite R4; apply in_map; assumption).
  apply in_map_iff in Hb. destruct Hb as (ii' & Hb & Hin'). exists ii'. split; [exact Hin'|].
  apply (f_equal ii_id) in Hb. cbn in Hb. rewrite Hb. exact E.
Qed.

Lemma nodup_key {A B} (f : A -> B) l x y : NoDup (map f l) -> In x l -> In y l -> f x = f y -> x = y.
Proof.
  induction l as [|a l IH]; cbn; [contradiction|]. intros N. inversion N as [|? ? N1 N2]; subst.
  intros [->|Hx] [->|Hy] E; auto; exfalso; apply N1; [rewrite E|rewrite <- E]; apply in_map; assumption.
Qed.
Theorem registered_into_iface env h k fd t v bz v' i oi t0 n d p : wf_env env -> marshal_typed env -> clean env new_codec h = true ->
  let c := run env new_codec h in
  (2 * k <= fd)%nat -> In (t0, n) (conc_calls h) -> name_to_disfix env n = EOk (d, p) -> In (i, oi) (iface_calls h) ->
  te_impl env t0 i = true ->
  (forall t' n' d', In (t', n') (conc_calls h) -> te_impl env (TPtr (conc_of t')) i = true -> name_to_disfix env n' = EOk (d', p) -> (t', n') = (t0, n)) ->
  deref_type t = conc_of t0 -> struct_like env (conc_of t0) = true -> has_type env t v = true ->
  marshal_bare k env c t v = EOk bz -> zlen bz < 2 ^ 63 ->
  match under v with Some w => norm k env c (conc_of t0) top_opts w | None => None end = Some v' ->
  unmarshal_bare (S fd) env c bz (TIface i) (VIface None) = URet (VIface (Some (t0, if is_ptr t0 then VPtr (Some v') else v'))) None.
Proof.
  intros We Hm C c Hfd Hin Hdp Hi Himp Huniq Hd Hsl Ht H Hz Hn.
  destruct (iface_call_in env h i oi C Hi) as (ii & Hii & Hid).
  destruct (reg_info env h C t0 n d p Hin Hdp t Hd) as (ci & r & Hg & Hr & Hp & Hty).
  destruct (unique_registrations env h C) as (_ & _ & R & Rd).
  destruct (R t0 n Hin) as (ci' & r' & d' & p' & Hg' & Hnm & Hty' & Hr' & Hrn & Hptr & _ & Hp' & Hdp' & _).
  assert (E : ci' = ci).
  { rewrite <- gti_deref in Hg'. pose proof (gti_minfo _ _ _ _ (sane_run env h) Hg) as [Hm1 _].
    assert (X : deref_type t0 = deref_type t).
    { rewrite gti_deref in Hg'. pose proof (gti_minfo _ _ _ _ (sane_run env h) Hg') as [Hm2 _]. rewrite <- Hm1, <- Hm2. congruence. }
    rewrite X, gti_deref in Hg'. unfold c in Hg. rewrite Hg in Hg'. inversion Hg'. reflexivity. }
  subst ci'. rewrite Hr in Hr'. inversion Hr'; subst r'. clear Hr'.
  assert (F : (if ri_ptr r then TPtr (deref_type t) else deref_type t) = t0).
  { rewrite Hptr, Hd. destruct t0; reflexivity. }
  rewrite (struct_into_iface env We c (wf_history env h C) (sane_run env h) Hm k fd t v bz v' i ii Hfd Hii Hid) with (ci := ci) (r := r); try assumption; try (rewrite Hd; assumption).
  - do 3 f_equal. rewrite Hptr, Hd. destruct t0; reflexivity.
  - rewrite F. exact Himp.
  - intros ci1 Hci1 Himp1 Hp1. destruct (concrete_reg _ _ _ (wf_history env h C) Hci1) as (r1 & Er1 & _).
    destruct (registered_call env h ci1 r1 C Hci1 Er1) as (t1 & n1 & Hin1 & Ht1 & _ & Hn1).
    destruct (R t1 n1 Hin1) as (ci2 & r2 & d2 & p2 & Hg2 & Hnm2 & Hty2 & Hr2 & Hrn2 & _ & _ & Hp2 & Hdp2 & _).
    assert (E12 : ci2 = ci1).
    { assert (In2 : In ci2 (cd_concretes c)).
      { revert Hnm2. unfold type_info_from_name. destruct (assoc beqb _ _) eqn:Ea; [|discriminate]. intros X; inversion X; subst.
        apply (wc_names _ _ (wf_history env h C)) in Ea. apply Ea. }
      apply (nodup_key ci_type (cd_concretes c)); [apply (wc_nodup _ _ (wf_history env h C))|assumption|assumption|congruence]. }
    subst ci2. rewrite Er1 in Hr2. inversion Hr2; subst r2. unfold ci_prefix in Hp1. rewrite Er1 in Hp1.
    assert (E3 : (t1, n1) = (t0, n)).
    { apply (Huniq t1 n1 d2 Hin1).
      - unfold implements in Himp1. rewrite Ht1, Hid in Himp1. exact Himp1.
      - congruence. }
    injection E3 as -> En3. assert (X : EOk ci = EOk ci1) by (rewrite <- Hnm, <- Hnm2, En3; reflexivity). inversion X. reflexivity.
Qed.
