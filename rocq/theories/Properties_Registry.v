(** Property theorems about the codec registry (C26-C30, C32, C33). *)
From Coq Require Import ZArith String List Bool Lia Permutation.
From Verif Require Import Base Prims PrimFacts Types Codec BinEnc BinDec Amino Registry SpecRegistry FuelFacts RegistryFacts RegistryProps Demo.
Import ListNotations.
Local Open Scope Z_scope.

(** ** C26 *)

(** [d] and [p] are what NameToDisfix returns exactly when they are the
    documented pieces of the hash; otherwise (a hash with too many zeros) it
    panics.  Seven non-zero bytes in the hash are enough. *)
Theorem C26_disfix_exact : forall env name,
  (forall d p, name_to_disfix env name = EOk (d, p) <-> disfix_of_hash (te_hash env name) d p) /\
  ((7 <= length (filter (fun x => negb (x =? 0)%Z) (te_hash env name)))%nat ->
   exists d p, name_to_disfix env name = EOk (d, p)).
Proof. intros env name. exact (conj (name_to_disfix_exact env name) (name_to_disfix_total env name)). Qed.
Theorem C26_disfix_decodes : forall env name d p rest, name_to_disfix env name = EOk (d, p) ->
  decode_disamb_prefix (p ++ rest) = DRet (None, p) 4 None /\
  decode_disamb_prefix (0 :: d ++ p ++ rest) = DRet (Some d, p) 8 None.
Proof.
  intros env name d p rest H. destruct (disfix_parts _ _ _ _ H) as (Ld & Lp & _ & Hp).
  exact (conj (decode_prefix_form p rest Lp Hp) (decode_disamb_form d p rest Ld Lp)).
Qed.
(** Conversely the two forms can never be confused. *)
Theorem C26_forms_disjoint : forall bz r n, decode_disamb_prefix bz = DRet r n None ->
  (exists p rest, bz = p ++ rest /\ length p = 4%nat /\ hd 0 p <> 0 /\ r = (None, p) /\ n = 4%nat) \/
  (exists d p rest, bz = 0 :: d ++ p ++ rest /\ length d = 3%nat /\ length p = 4%nat /\ r = (Some d, p) /\ n = 8%nat).
Proof. exact decode_disamb_prefix_inv. Qed.
Example C26_example :
  name_to_disfix demo (bs "bcMessage") = EOk ([206; 101; 147], [0x74; 0x06; 0x13; 0x65]) /\
  decode_disamb_prefix [0x74; 0x06; 0x13; 0x65; 1] = DRet (None, [0x74; 0x06; 0x13; 0x65]) 4 None /\
  decode_disamb_prefix [0; 206; 101; 147; 0x74; 0x06; 0x13; 0x65; 1]
    = DRet (Some [206; 101; 147], [0x74; 0x06; 0x13; 0x65]) 8 None.
Proof. vm_compute. auto. Qed.
Print Assumptions C26_disfix_exact.
Print Assumptions C26_disfix_decodes.
Print Assumptions C26_forms_disjoint.

(** ** C27 *)

Theorem C27_unique_registrations : forall env h, clean env new_codec h = true ->
  let c := run env new_codec h in
  NoDup (map (fun x => conc_of (fst x)) (conc_calls h)) /\ NoDup (map snd (conc_calls h)) /\
  (forall t name, In (t, name) (conc_calls h) -> exists ci r d p,
     get_type_info env c t = EOk (TIConc ci) /\
     type_info_from_name c name = EOk ci /\ ci_type ci = conc_of t /\ ci_reg ci = Some r /\ ri_name r = name /\
     ri_ptr r = is_ptr t /\ ri_disamb r = d /\ ri_prefix r = p /\ name_to_disfix env name = EOk (d, p) /\
     type_info_from_disfix c (d ++ p) = EOk ci) /\
  (forall t1 n1 t2 n2 d p, In (t1, n1) (conc_calls h) -> In (t2, n2) (conc_calls h) ->
     name_to_disfix env n1 = EOk (d, p) -> name_to_disfix env n2 = EOk (d, p) -> (t1, n1) = (t2, n2)).
Proof. exact unique_registrations. Qed.

(** A history with registrations of values and pointers around uses. *)
Definition hist_1 : list op :=
  [OIface i_1 None; OUse t_foo; OConc t_conc1 (bs "Concrete1"); OConc (TPtr t_conc2) (bs "Concrete2");
   OUse (TPtr t_conc1); OIface i_msg None; OConc t_typedef (bs "ConcreteTypeDef"); OSeal; OUse t_hasif].
Definition hist_2 : list op :=
  [OConc t_typedef (bs "ConcreteTypeDef"); OConc (TPtr t_conc2) (bs "Concrete2"); OUse (TIface i_1); OIface i_msg None;
   OConc t_conc1 (bs "Concrete1"); OIface i_1 None].
Example C27_example : clean demo new_codec hist_1 = true /\
  conc_calls hist_1 = [(t_conc1, bs "Concrete1"); (TPtr t_conc2, bs "Concrete2"); (t_typedef, bs "ConcreteTypeDef")].
Proof. vm_compute. auto. Qed.
(** Registering a name, a type or (here) a name and type twice is refused. *)
Example C27_example_refused :
  clean demo new_codec (hist_2 ++ [OConc t_conc1 (bs "other")]) = false /\
  clean demo new_codec (hist_2 ++ [OConc t_wrapped (bs "Concrete1")]) = false.
Proof. vm_compute. auto. Qed.
Print Assumptions C27_unique_registrations.

(** ** C28 *)

(** The implementers recorded under a prefix are the registered concrete types
    (in registration order) with that prefix whose pointer implements the
    interface. *)
Theorem C28_implementers_complete : forall env h i ii p, clean env new_codec h = true ->
  find_iface i (cd_ifaces (run env new_codec h)) = Some ii ->
  map ci_type (impls_of ii p) =
  map (fun x => conc_of (fst x))
    (filter (fun x => te_impl env (TPtr (conc_of (fst x))) i &&
                      match name_to_disfix env (snd x) with EOk (_, q) => beqb q p | _ => false end) (conc_calls h)).
Proof.
  intros env h i ii p C Hf. pose proof (wf_history _ _ C) as W. apply find_iface_some in Hf. destruct Hf as [Hin Hid].
  rewrite (wc_impls _ _ W) by assumption.
  destruct (run_registered _ _ _ C) as (cs & is & R1 & R2 & _ & _). rewrite R2. cbn [new_codec cd_concretes app].
  clear -R1 Hid. revert cs R1. induction (conc_calls h) as [|x l IH]; intros cs; cbn [emap].
  - intros H; inversion H. reflexivity.
  - unfold ebind. destruct (reg_call env x) as [ci| | |] eqn:E; try discriminate.
    destruct (emap (reg_call env) l); try discriminate. intros H; inversion H; subst cs.
    specialize (IH _ eq_refl). cbn [filter].
    destruct (new_registered_spec _ _ _ _ _ E) as (_ & Ht & [_ Hok] & _ & r & Hr & Hn & _).
    unfold reg_ok in Hok. rewrite Hr in Hok. rewrite Hn in Hok. rewrite Hok.
    unfold implements at 1, ci_prefix at 1. rewrite Ht, Hid, Hr.
    destruct (te_impl env (TPtr (conc_of (fst x))) i && beqb (ri_prefix r) p); cbn [map]; rewrite IH; [rewrite Ht|]; reflexivity.
Qed.
(** Whatever the order of the registrations, the codecs behave alike. *)
Theorem C28_order_independent : forall env h h', clean env new_codec h = true -> clean env new_codec h' = true ->
  Permutation (conc_calls h) (conc_calls h') -> Permutation (iface_calls h) (iface_calls h') ->
  let c := run env new_codec h in let c' := run env new_codec h' in
  forall fuel t v bz,
    marshal_bare fuel env c t v = marshal_bare fuel env c' t v /\
    unmarshal_bare fuel env c bz t v = unmarshal_bare fuel env c' bz t v.
Proof.
  intros env h h' C C' PC PI c c' fuel t v bz. pose proof (order_equiv env h h' C C' PC PI) as E.
  exact (conj (marshal_codec_equiv env _ _ fuel t v E) (unmarshal_codec_equiv env _ _ fuel bz t v E)).
Qed.
Example C28_example :
  clean demo new_codec hist_1 = true /\ clean demo new_codec hist_2 = true /\
  Permutation (conc_calls hist_1) (conc_calls hist_2) /\ Permutation (iface_calls hist_1) (iface_calls hist_2) /\
  map (fun ii => (ii_id ii, map (fun e => map ci_type (snd e)) (ii_impls ii))) (cd_ifaces (run demo new_codec hist_1))
  = [(i_1, [[t_conc1]; [t_conc2]; [t_typedef]]); (i_msg, [[t_conc1]; [t_conc2]; [t_typedef]])].
Proof.
  split; [vm_compute; reflexivity|]. split; [vm_compute; reflexivity|].
  split; [|split; [|vm_compute; reflexivity]].
  - unfold conc_calls. cbn [flat_map hist_1 hist_2 app].
    apply perm_trans with [(TPtr t_conc2, bs "Concrete2"); (t_conc1, bs "Concrete1"); (t_typedef, bs "ConcreteTypeDef")]; [apply perm_swap|].
    apply perm_trans with [(TPtr t_conc2, bs "Concrete2"); (t_typedef, bs "ConcreteTypeDef"); (t_conc1, bs "Concrete1")]; [apply perm_skip, perm_swap|].
    apply perm_swap.
  - apply perm_swap.
Qed.
Print Assumptions C28_implementers_complete.
Print Assumptions C28_order_independent.

(** ** C29 *)

(** Two different registered types [t1], [t2] that implement interface [i] and
    have the same prefix bytes: (1) both disfixes are among those of the names on
    the interface's priority list; (2) the encoder writes 0x00 and the
    disambiguation bytes; (3) decoding what it writes yields the encoded type in
    its registered form, if it yields anything. *)
Theorem C29_conflicts_disambiguated : forall env h i ii t1 n1 t2 n2 d1 d2 p,
  clean env new_codec h = true -> find_iface i (cd_ifaces (run env new_codec h)) = Some ii ->
  In (t1, n1) (conc_calls h) -> In (t2, n2) (conc_calls h) -> (t1, n1) <> (t2, n2) ->
  te_impl env (TPtr (conc_of t1)) i = true -> te_impl env (TPtr (conc_of t2)) i = true ->
  name_to_disfix env n1 = EOk (d1, p) -> name_to_disfix env n2 = EOk (d2, p) ->
  (exists o m a b, In (i, Some o) (iface_calls h) /\ In m (io_prio o) /\
                   name_to_disfix env m = EOk (a, b) /\ d1 ++ p = a ++ b) /\
  (forall fuel ct cv o bz, deref_type ct = conc_of t1 ->
     encode_reflect (S fuel) env (run env new_codec h) (TIFace ii) (VIface (Some (ct, cv))) o true = EOk bz ->
     (exists body, bz = 0 :: d1 ++ p ++ body) /\
     (exists ci, decode_disamb_prefix bz = DRet (Some d1, p) 8 None /\
        type_info_from_disfix (run env new_codec h) (to_disfix d1 p) = EOk ci /\ ci_type ci = conc_of t1) /\
     (forall fuel' o' v n,
        decode_reflect (S fuel') env (run env new_codec h) bz (TIFace ii) (TIface i) (VIface None) o' true = DRet v n None ->
        exists w, v = VIface (Some (if is_ptr t1 then TPtr (conc_of t1) else conc_of t1, w)))).
Proof.
  intros env h i ii t1 n1 t2 n2 d1 d2 p C Hf H1 H2 Hne I1 I2 D1 D2. pose proof (wf_history _ _ C) as W.
  destruct (unique_registrations env h C) as (_ & _ & L & U). cbv zeta in L, U.
  destruct (find_iface_some _ _ _ Hf) as [Hin Hid].
  destruct (L _ _ H1) as (c1 & r1 & a1 & b1 & G1 & N1 & T1 & R1 & M1 & P1 & A1 & B1 & E1 & F1).
  destruct (L _ _ H2) as (c2 & r2 & a2 & b2 & G2 & N2 & T2 & R2 & M2 & P2 & A2 & B2 & E2 & F2).
  assert (Y1 : a1 = d1 /\ b1 = p) by (rewrite D1 in E1; inversion E1; auto).
  assert (Y2 : a2 = d2 /\ b2 = p) by (rewrite D2 in E2; inversion E2; auto).
  destruct Y1 as [-> ->], Y2 as [-> ->]. clear E1 E2.
  assert (K : forall ci n, type_info_from_name (run env new_codec h) n = EOk ci -> In ci (cd_concretes (run env new_codec h))).
  { intros ci n. unfold type_info_from_name. destruct (assoc _ _ _) eqn:E; [|discriminate]. intros X; inversion X; subst.
    apply (wc_names _ _ W) in E. tauto. }
  assert (X1 : ci_prefix c1 = p) by (unfold ci_prefix; rewrite R1; assumption).
  assert (X2 : ci_prefix c2 = p) by (unfold ci_prefix; rewrite R2; assumption).
  assert (I1' : implements env c1 ii = true) by (unfold implements; rewrite T1, Hid; exact I1).
  assert (Hcne : c1 <> c2).
  { intros ->. rewrite R1 in R2. inversion R2; subst r2. apply Hne. f_equal; [|congruence].
    apply (f_equal fst (U t1 n1 t2 n2 (ri_disamb r1) (ri_prefix r1) H1 H2 ltac:(congruence) ltac:(congruence))). }
  assert (CP : In (ci_disfix c1) (ii_prio ii) /\ (1 < length (impls_of ii (ci_prefix c1)))%nat).
  { eapply (conflict_prio env _ ii c1 c2 W Hin); try (eapply K; eassumption); try assumption; try congruence.
    unfold implements. rewrite T2, Hid. exact I2. }
  destruct CP as [CP CL]. split.
  - destruct (iface_prio env h i ii C Hf) as (o & Ho & _ & Hp). apply Hp in CP.
    destruct CP as (m & a & b & Hm & Hd & He). destruct o as [o|]; [|destruct Hm].
    exists o, m, a, b. split; [assumption|]. split; [assumption|]. split; [assumption|].
    rewrite <- He. unfold ci_disfix. rewrite R1. unfold to_disfix. congruence.
  - intros fuel ct cv o bz Hct He. destruct (encode_interface_inv _ _ _ _ _ _ _ _ _ W He) as (ci & r & crv & body & E3 & E4 & E5 & E6 & E7 & ->).
    assert (ci = c1).
    { assert (Q : get_type_info env (run env new_codec h) (ci_type ci) = EOk (TIConc ci)).
      { destruct (concrete_reg _ _ _ W E4) as (? & _ & _ & _ & _ & _ & Q). exact Q. }
      assert (Q1 : get_type_info env (run env new_codec h) (ci_type c1) = EOk (TIConc c1)).
      { destruct (concrete_reg _ _ c1 W (K _ _ N1)) as (? & _ & _ & _ & _ & _ & Q1). exact Q1. }
      rewrite E3, Hct, <- T1 in Q. congruence. }
    subst ci. rewrite R1 in E5. inversion E5; subst r; clear E5. cbn [finish].
    assert (HB : iface_header ii r1 = 0 :: d1 ++ p).
    { unfold iface_header. rewrite X1 in CL. apply Nat.ltb_lt in CL. rewrite B1, CL, orb_true_r, A1. reflexivity. }
    splits.
    + exists body. rewrite HB. cbn [app]. rewrite <- app_assoc. reflexivity.
    + exists c1. split; [|split; [exact F1|exact T1]]. rewrite HB. cbn [app]. rewrite <- app_assoc.
      destruct (disfix_parts _ _ _ _ D1) as (Q1 & Q2 & _). apply decode_disamb_form; assumption.
    + intros fuel' o' v n Hd. rewrite <- Hid in Hd.
      destruct (decode_interface_type env _ fuel' ii c1 r1 body o' v n W Hin (K _ _ N1) I1' R1 Hd) as (w & ->).
      exists w. unfold ptr_of. rewrite P1, T1. reflexivity.
Qed.

(** An environment whose hash makes every prefix collide. *)
Definition demo_conf : tenv :=
  {| te_def := te_def demo; te_zero := te_zero demo; te_impl := te_impl demo; te_marshal := te_marshal demo;
     te_unmarshal := te_unmarshal demo;
     te_hash := fun n => [0; hd 7 n; 1; 1; 0; 9; 9; 9; 9] ++ repeat 5 23 |}.
Definition hist_conf : list op :=
  [OConc t_foo (bs "A"); OIface i_msg (Some {| io_prio := [bs "A"; bs "B"]; io_always := false |}); OConc (TPtr t_bcmsg) (bs "B")].
Example C29_example :
  clean demo_conf new_codec hist_conf = true /\
  (* without the priority list the second type is refused *)
  clean demo_conf new_codec [OConc t_foo (bs "A"); OIface i_msg None; OConc (TPtr t_bcmsg) (bs "B")] = false /\
  name_to_disfix demo_conf (bs "A") = EOk ([65; 1; 1], [9; 9; 9; 9]) /\
  name_to_disfix demo_conf (bs "B") = EOk ([66; 1; 1], [9; 9; 9; 9]) /\
  (let c := run demo_conf new_codec hist_conf in
   match find_iface i_msg (cd_ifaces c) with
   | Some ii =>
       encode_reflect 10 demo_conf c (TIFace ii) (VIface (Some (t_bcmsg, bc_abc))) no_opts true
       = EOk ([0; 66; 1; 1; 9; 9; 9; 9] ++ [0x0A; 0x03; 0x41; 0x42; 0x43; 0x10; 0x64]) /\
       decode_reflect 10 demo_conf c ([0; 66; 1; 1; 9; 9; 9; 9] ++ [0x0A; 0x03; 0x41; 0x42; 0x43; 0x10; 0x64])
         (TIFace ii) (TIface i_msg) (VIface None) no_opts true
       = DRet (VIface (Some (TPtr t_bcmsg, VPtr (Some bc_abc)))) 15 None
   | None => False
   end).
Proof. vm_compute. repeat split. Qed.
Print Assumptions C29_conflicts_disambiguated.

(** ** C30 *)

(** From any sealed codec, along every continuation [h1 ++ x :: h2]: a Register
    call panics and changes nothing; the registration tables are those at the
    time of Seal; Marshal and Unmarshal give the same results. *)
Theorem C30_sealed_forever : forall env c h, cd_sealed c = true ->
  let c' := run env c h in
  cd_sealed c' = true /\ cd_ifaces c' = cd_ifaces c /\ cd_concretes c' = cd_concretes c /\
  cd_disfix c' = cd_disfix c /\ cd_names c' = cd_names c /\
  (forall i o, exists p, step env c' (OIface i o) = (c', Some p)) /\
  (forall t name, exists p, step env c' (OConc t name) = (c', Some p)) /\
  (forall fuel t v bz, marshal_bare fuel env c' t v = marshal_bare fuel env c t v /\
                       unmarshal_bare fuel env c' bz t v = unmarshal_bare fuel env c bz t v).
Proof.
  intros env c h Hs c'. destruct (sealed_forever env h c Hs) as (S1 & S2 & S3 & S4 & S5 & S6). fold c' in S1, S2, S3, S4, S5, S6.
  splits; try assumption.
  - intros i o. destruct (sealed_step env c' (OIface i o) S1) as (_ & _ & _ & _ & _ & _ & H & E).
    destruct (step env c' (OIface i o)) as [c2 [p|]]; cbn [fst snd] in *; [exists p; subst; reflexivity|congruence].
  - intros t name. destruct (sealed_step env c' (OConc t name) S1) as (_ & _ & _ & _ & _ & _ & H & E).
    destruct (step env c' (OConc t name)) as [c2 [p|]]; cbn [fst snd] in *; [exists p; subst; reflexivity|congruence].
  - intros fuel t v bz. split; symmetry; [apply marshal_codec_equiv|apply unmarshal_codec_equiv]; assumption.
Qed.
(** Seal does seal, and changes nothing else. *)
Theorem C30_seal : forall env c, step env c OSeal =
  ({| cd_sealed := true; cd_types := cd_types c; cd_ifaces := cd_ifaces c; cd_concretes := cd_concretes c;
      cd_disfix := cd_disfix c; cd_names := cd_names c |}, None).
Proof. reflexivity. Qed.
Example C30_example :
  cd_sealed (run demo new_codec hist_1) = true /\
  snd (step demo (run demo new_codec hist_1) (OConc t_foo (bs "Foo"))) = Some "codec sealed"%string /\
  marshal_bare 10 demo (run demo new_codec hist_1) t_hasif (VStruct [VIface (Some (t_conc1, VStruct []))])
  = EOk [10; 4; 0xe3; 0xda; 0xb8; 0x33].
Proof. vm_compute. auto. Qed.
Print Assumptions C30_sealed_forever.
Print Assumptions C30_seal.

(** ** C32 *)

(** The statement is false: a RegisterConcrete that panics with "TypeInfo already
    exists" (codec.go:340-347) has already been entered in the interfaces'
    implementer tables. *)
Definition c32_before : codec := run demo new_codec [OIface i_1 None; OUse t_conc1].
Theorem C32_rejected_registration_refuted : exists env c t name fuel bz rt v,
  snd (step env c (OConc t name)) <> None /\
  unmarshal_bare fuel env (fst (step env c (OConc t name))) bz rt v <> unmarshal_bare fuel env c bz rt v.
Proof.
  exists demo, c32_before, t_conc1, (bs "Concrete1"), 10%nat, [0xe3; 0xda; 0xb8; 0x33], (TIface i_1), (VIface None).
  vm_compute. split; discriminate.
Qed.
Theorem C32_interface_atomic_partial : forall env c i o c' p,
  step env c (OIface i o) = (c', Some p) -> c' = c.
Proof. exact register_interface_atomic. Qed.
(** A rejected RegisterConcrete leaves the codec unchanged if no registered
    interface is implemented by the type's pointer, and the type is already known
    or both name and disfix are new. *)
Theorem C32_concrete_atomic_partial : forall env c t name c' p, step env c (OConc t name) = (c', Some p) ->
  (forall ii, In ii (cd_ifaces c) -> te_impl env (TPtr (conc_of t)) (ii_id ii) = false) ->
  (forall d q, name_to_disfix env name = EOk (d, q) ->
     assoc gotype_eqb (conc_of t) (cd_types c) <> None \/
     assoc beqb (d ++ q) (cd_disfix c) = None /\ assoc beqb name (cd_names c) = None) -> c' = c.
Proof. exact register_concrete_atomic. Qed.
Example C32_example :
  let c := run demo new_codec [OIface i_1 None; OConc t_foo (bs "Foo")] in
  step demo c (OConc (TPtr t_foo) (bs "other")) = (c, Some "TypeInfo already exists"%string) /\
  (forall ii, In ii (cd_ifaces c) -> te_impl demo (TPtr (conc_of (TPtr t_foo))) (ii_id ii) = false) /\
  assoc gotype_eqb (conc_of (TPtr t_foo)) (cd_types c) <> None /\
  snd (step demo c (OIface i_1 None)) <> None.
Proof.
  cbv zeta. split; [vm_compute; reflexivity|]. split; [|vm_compute; split; discriminate].
  intros ii H. vm_compute in H. destruct H as [<-|[]]. reflexivity.
Qed.
Print Assumptions C32_rejected_registration_refuted.
Print Assumptions C32_interface_atomic_partial.
Print Assumptions C32_concrete_atomic_partial.

(** ** C33 *)

(** A call of Marshal or Unmarshal performs some sequence of type lookups on the
    codec; no such sequence changes a result. *)
Theorem C33_use_transparent : forall env c uses,
  let c' := run env c (map OUse uses) in
  forall fuel t v bz,
    marshal_bare fuel env c' t v = marshal_bare fuel env c t v /\
    marshal_length_prefixed fuel env c' t v = marshal_length_prefixed fuel env c t v /\
    unmarshal_bare fuel env c' bz t v = unmarshal_bare fuel env c bz t v /\
    unmarshal_length_prefixed fuel env c' bz t v = unmarshal_length_prefixed fuel env c bz t v.
Proof.
  intros env c uses c' fuel t v bz.
  assert (E : codec_equiv env c c').
  { unfold c'. clear. revert c. induction uses as [|t l IH]; intros c; cbn [map run step fst]; [apply codec_equiv_refl|].
    eapply codec_equiv_trans; [apply get_type_info_st_equiv|apply IH]. }
  splits; symmetry.
  - apply marshal_codec_equiv; assumption.
  - apply marshal_length_codec_equiv; assumption.
  - apply unmarshal_codec_equiv; assumption.
  - apply unmarshal_length_codec_equiv; assumption.
Qed.
(** Nor does it matter how uses are interleaved with registrations. *)
Theorem C33_interleaved_uses : forall env h h', clean env new_codec h = true -> clean env new_codec h' = true ->
  filter (fun x => match x with OUse _ => false | _ => true end) h =
  filter (fun x => match x with OUse _ => false | _ => true end) h' ->
  forall fuel t v bz,
    marshal_bare fuel env (run env new_codec h) t v = marshal_bare fuel env (run env new_codec h') t v /\
    unmarshal_bare fuel env (run env new_codec h) bz t v = unmarshal_bare fuel env (run env new_codec h') bz t v.
Proof.
  intros env h h' C C' F.
  assert (A : forall h, conc_calls (filter (fun x => match x with OUse _ => false | _ => true end) h) = conc_calls h /\
                        iface_calls (filter (fun x => match x with OUse _ => false | _ => true end) h) = iface_calls h).
  { clear. unfold conc_calls, iface_calls. intros h. induction h as [|x h IH]; [auto|].
    destruct IH as [I1 I2], x; cbn [filter flat_map]; rewrite I1, I2; auto. }
  destruct (A h) as [A1 A2], (A h') as [B1 B2].
  apply (C28_order_independent env h h' C C'); [rewrite <- A1, <- B1, F|rewrite <- A2, <- B2, F]; apply Permutation_refl.
Qed.
Example C33_example :
  let c := run demo new_codec [OIface i_1 None; OConc t_conc1 (bs "Concrete1")] in
  let c' := run demo c (map OUse [t_hasif; TPtr t_all; TIface i_1; TIface i_msg; TOther]) in
  length (cd_types c) = 1%nat /\ length (cd_types c') = 4%nat /\
  unmarshal_bare 10 demo c' [10; 4; 0xe3; 0xda; 0xb8; 0x33] t_hasif (zero demo t_hasif)
  = URet (VStruct [VIface (Some (t_conc1, VStruct []))]) None.
Proof. vm_compute. auto. Qed.
Print Assumptions C33_use_transparent.
Print Assumptions C33_interleaved_uses.
