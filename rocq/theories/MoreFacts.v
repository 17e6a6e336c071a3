(** With more types registered, what was written and read before is written and read alike. *)
From Coq Require Import ZArith String List Bool Lia Permutation.
From Verif Require Import Base Prims Types Codec BinEnc BinDec Amino JsonText Json JsonIndent Registry SpecRegistry FuelFacts RegistryFacts RegistryProps
  SpecAdmit SpecMore AdmitFacts.
Import ListNotations.
Local Open Scope Z_scope.

(** ** Type information *)

(** The same description; a registration is kept. *)
Record csim (a b : cinfo) : Prop := {
  cs_type : ci_type a = ci_type b;
  cs_fields : ci_fields a = ci_fields b;
  cs_marshal : ci_marshal a = ci_marshal b;
  cs_unmarshal : ci_unmarshal a = ci_unmarshal b;
  cs_reg : forall r, ci_reg a = Some r -> ci_reg b = Some r
}.
Lemma csim_refl a : csim a a.
Proof. split; auto. Qed.
Lemma csim_eq a b r : csim a b -> ci_reg a = Some r -> a = b.
Proof. intros [H1 H2 H3 H4 H5] Hr. pose proof (H5 _ Hr). destruct a, b; cbn in *. congruence. Qed.

(** What JSON looks at. *)
Definition jsim (i i' : tinfo) : Prop :=
  match i, i' with
  | TIConc a, TIConc b => csim a b
  | TIFace a, TIFace b => ii_id a = ii_id b
  | _, _ => False
  end.
(** What the binary form looks at; [P] are the prefixes of the types that were registered. *)
Record fsim (P : bytes -> Prop) (ii ii' : iinfo) : Prop := {
  fs_id : ii_id ii = ii_id ii';
  fs_always : ii_always ii = ii_always ii';
  fs_len : forall p, P p -> length (impls_of ii p) = length (impls_of ii' p);
  fs_prefix : forall p ci, type_info_from_prefix ii p = EOk ci -> type_info_from_prefix ii' p = EOk ci
}.
Definition bsim (P : bytes -> Prop) (i i' : tinfo) : Prop :=
  match i, i' with
  | TIConc a, TIConc b => csim a b
  | TIFace a, TIFace b => fsim P a b
  | _, _ => False
  end.
Lemma bsim_type P i i' : bsim P i i' -> ti_type i = ti_type i'.
Proof. destruct i, i'; cbn; try contradiction; [intros []; assumption|intros []; congruence]. Qed.
Lemma jsim_type i i' : jsim i i' -> ti_type i = ti_type i'.
Proof. destruct i, i'; cbn; try contradiction; [intros []; assumption|congruence]. Qed.

Record jmore (env : tenv) (c c' : codec) : Prop := {
  jm_info : forall t i, get_type_info env c t = EOk i -> exists i', get_type_info env c' t = EOk i' /\ jsim i i';
  jm_name : forall n ci, type_info_from_name c n = EOk ci -> type_info_from_name c' n = EOk ci
}.
Record bmore (env : tenv) (P : bytes -> Prop) (c c' : codec) : Prop := {
  bm_info : forall t i, get_type_info env c t = EOk i -> exists i', get_type_info env c' t = EOk i' /\ bsim P i i';
  bm_disfix : forall d ci, type_info_from_disfix c d = EOk ci -> type_info_from_disfix c' d = EOk ci;
  bm_reg : forall t ci r, get_type_info env c t = EOk (TIConc ci) -> ci_reg ci = Some r -> P (ri_prefix r)
}.

(** ** The binary encoder *)

Definition esuc {A} (r r' : eres A) : Prop := forall x, r = EOk x -> r' = EOk x.
Lemma esuc_refl {A} (r : eres A) : esuc r r.
Proof. intros x H; exact H. Qed.
Lemma esuc_bind {A B} (r r' : eres A) (k k' : A -> eres B) :
  esuc r r' -> (forall a, esuc (k a) (k' a)) -> esuc (ebind r k) (ebind r' k').
Proof. intros Hr H x. destruct r as [a| | |]; cbn [ebind]; try discriminate. rewrite (Hr a eq_refl). apply H. Qed.
Lemma esuc_info {B} (S : tinfo -> tinfo -> Prop) r r' (k k' : tinfo -> eres B) :
  (forall i, r = EOk i -> exists i', r' = EOk i' /\ S i i') ->
  (forall i i', r = EOk i -> S i i' -> esuc (k i) (k' i')) -> esuc (ebind r k) (ebind r' k').
Proof.
  intros Hr H x. destruct r as [i| | |]; cbn [ebind]; try discriminate.
  destruct (Hr i eq_refl) as (i' & -> & Hs). cbn [ebind]. apply H; [reflexivity|assumption].
Qed.

Section Enc.
  Variable env : tenv.
  Variable P : bytes -> Prop.
  Variables c c' : codec.
  Hypothesis Hc : bmore env P c c'.
  Variables rec rec' : erec.
  Hypothesis Hrec : forall i i' v o b, bsim P i i' -> esuc (rec i v o b) (rec' i' v o b).

  Lemma esuc_interface ii ii' v o bare : fsim P ii ii' ->
    esuc (encode_interface env c rec ii v o bare) (encode_interface env c' rec' ii' v o bare).
  Proof.
    intros Hs. unfold encode_interface. destruct v; try apply esuc_refl. destruct o0 as [[ct cv]|]; [|apply esuc_refl].
    destruct (deref_pointers cv) as [crv [|]]; [apply esuc_refl|].
    destruct crv; try apply esuc_refl;
      (apply (esuc_info (bsim P)); [apply (bm_info _ _ _ _ Hc)|]; intros [ci|] [ci'|] Hg Hi; cbn in Hi; try contradiction; [|apply esuc_refl];
       destruct (ci_reg ci) as [r|] eqn:Hr; [|intros ? X; discriminate X]; pose proof (csim_eq _ _ _ Hi Hr); subst ci'; rewrite Hr; cbv zeta;
       apply esuc_bind; [apply Hrec; exact (csim_refl _)|intros];
       pose proof (fs_len _ _ _ Hs _ (bm_reg _ _ _ _ Hc _ _ _ Hg Hr)) as L; unfold impls_of in L;
       rewrite (fs_always _ _ _ Hs), L; apply esuc_refl).
  Qed.

  Lemma esuc_packed ert einfo einfo' o : bsim P einfo einfo' -> forall l,
    esuc (encode_packed env rec ert einfo l o) (encode_packed env rec' ert einfo' l o).
  Proof.
    intros Hs. induction l as [|v l IH]; cbn [encode_packed]; [apply esuc_refl|].
    apply esuc_bind; [apply Hrec, Hs|]. intros b. apply esuc_bind; [apply IH|]. intros; apply esuc_refl.
  Qed.
  Lemma esuc_unpacked ert einfo einfo' o : bsim P einfo einfo' -> forall l,
    esuc (encode_unpacked env rec ert einfo l o) (encode_unpacked env rec' ert einfo' l o).
  Proof.
    intros Hs. induction l as [|v l IH]; cbn [encode_unpacked]; [apply esuc_refl|].
    apply esuc_bind; [apply esuc_refl|]. intros key. destruct (is_default_value v) as [erv isdef].
    apply esuc_bind; [destruct isdef; [rewrite (bsim_type _ _ _ Hs); apply esuc_refl|apply Hrec, Hs]|].
    intros b. apply esuc_bind; [apply IH|]. intros; apply esuc_refl.
  Qed.
  Lemma esuc_list info info' v o bare : bsim P info info' ->
    esuc (encode_list env c rec info v o bare) (encode_list env c' rec' info' v o bare).
  Proof.
    intros Hs. unfold encode_list. rewrite (bsim_type _ _ _ Hs). destruct (resolve env (ti_type info')); try apply esuc_refl;
    (destruct (is_uint8 env _); [apply esuc_refl|]; apply (esuc_info (bsim P)); [apply (bm_info _ _ _ _ Hc)|]; intros einfo einfo' _ He;
     rewrite (bsim_type _ _ _ He); apply esuc_bind; [apply esuc_refl|]; intros typ3; destruct (list_elems v); [|apply esuc_refl];
     apply esuc_bind; [destruct (negb _); [apply esuc_packed|apply esuc_unpacked]; exact He|]; intros; apply esuc_refl).
  Qed.
  Lemma esuc_write_field num info info' o v we bare : bsim P info info' ->
    esuc (write_field env rec num info o v we bare) (write_field env rec' num info' o v we bare).
  Proof.
    intros Hs. unfold write_field. rewrite (bsim_type _ _ _ Hs). apply esuc_bind; [apply esuc_refl|]. intros t3. apply esuc_bind; [apply esuc_refl|].
    intros key. apply esuc_bind; [apply Hrec, Hs|]. intros; apply esuc_refl.
  Qed.
  Lemma esuc_field f v : esuc (encode_field env c rec f v) (encode_field env c' rec' f v).
  Proof.
    unfold encode_field. apply (esuc_info (bsim P)); [apply (bm_info _ _ _ _ Hc)|]. intros info info' _ Hi.
    destruct (is_default_value v) as [dv isdef]. destruct (isdef && _); [apply esuc_refl|].
    destruct (fi_unpacked f); [apply esuc_list | apply esuc_write_field]; exact Hi.
  Qed.
  Lemma esuc_fields l : forall fs, esuc (encode_fields env c rec fs l) (encode_fields env c' rec' fs l).
  Proof.
    induction fs as [|f fs IH]; cbn [encode_fields]; [apply esuc_refl|].
    apply esuc_bind; [apply esuc_field|]. intros b. apply esuc_bind; [apply IH|]. intros; apply esuc_refl.
  Qed.
  Lemma esuc_struct ci ci' v bare : csim ci ci' -> esuc (encode_struct env c rec ci v bare) (encode_struct env c' rec' ci' v bare).
  Proof.
    intros Hs. unfold encode_struct. rewrite (cs_type _ _ Hs), (cs_fields _ _ Hs). destruct (resolve env (ci_type ci')); try apply esuc_refl.
    destruct v; try apply esuc_refl. apply esuc_bind; [apply esuc_fields|intros; apply esuc_refl].
  Qed.
  Lemma esuc_switch f info info' v o bare : bsim P info info' ->
    esuc (encode_switch env c rec f info v o bare) (encode_switch env c' rec' f info' v o bare).
  Proof.
    intros Hs. unfold encode_switch. rewrite (bsim_type _ _ _ Hs).
    destruct (resolve env (ti_type info')); try apply esuc_refl.
    - destruct info, info'; cbn in Hs; try contradiction; [apply esuc_struct, Hs|apply esuc_refl].
    - destruct (is_uint8 env e); [apply esuc_refl|]. destruct (is_list_kind env e); [|apply esuc_list, Hs].
      destruct (multidim_bytes f env e); apply esuc_refl.
    - destruct (is_uint8 env e); [apply esuc_refl|]. destruct (is_list_kind env e); [|apply esuc_list, Hs].
      destruct (multidim_bytes f env e); apply esuc_refl.
    - destruct info, info'; cbn in Hs; try contradiction; [apply esuc_refl|apply esuc_interface, Hs].
    - destruct info, info'; cbn in Hs; try contradiction; [apply esuc_struct, Hs|apply esuc_refl].
  Qed.
End Enc.

Theorem encode_more env P c c' : bmore env P c c' -> forall f info info' v o bare, bsim P info info' ->
  esuc (encode_reflect f env c info v o bare) (encode_reflect f env c' info' v o bare).
Proof.
  intros Hc. induction f as [|f IH]; intros info info' v o bare Hs; [apply esuc_refl|]. cbn [encode_reflect].
  assert (SW : esuc (encode_switch env c (encode_reflect f env c) (S f) info v o bare)
                  (encode_switch env c' (encode_reflect f env c') (S f) info' v o bare)).
  { eapply esuc_switch; eassumption. }
  assert (G : esuc (match info with
          | TIConc {| ci_type := t; ci_marshal := Some r |} =>
              ebind (to_repr env t v) (fun rv => ebind (get_type_info env c r) (fun rinfo =>
              encode_reflect f env c rinfo rv o bare))
          | _ => encode_switch env c (encode_reflect f env c) (S f) info v o bare
          end)
          (match info' with
          | TIConc {| ci_type := t; ci_marshal := Some r |} =>
              ebind (to_repr env t v) (fun rv => ebind (get_type_info env c' r) (fun rinfo =>
              encode_reflect f env c' rinfo rv o bare))
          | _ => encode_switch env c' (encode_reflect f env c') (S f) info' v o bare
          end)).
  { destruct info as [ci|ii], info' as [ci'|ii']; cbn in Hs; try contradiction; try exact SW.
    destruct ci as [ct fs m u rg], ci' as [ct' fs' m' u' rg']; destruct Hs as [E1 E2 E3 E4 E5]; cbn in E1, E2, E3, E4, E5; subst ct' fs' m' u'.
    destruct m as [r|]; [|exact SW].
    apply esuc_bind; [apply esuc_refl|]. intros rv. apply (esuc_info (bsim P)); [apply (bm_info _ _ _ _ Hc)|]. intros rinfo rinfo' _ Hr.
    apply IH, Hr. }
  destruct v; try exact G; apply esuc_refl.
Qed.

Definition top_kept (env : tenv) (c c' : codec) (t : gotype) : Prop :=
  forall ci ci', get_type_info env c t = EOk (TIConc ci) -> get_type_info env c' t = EOk (TIConc ci') -> ci_reg ci = ci_reg ci'.

Lemma marshal_more env P c c' f t v : bmore env P c c' -> top_kept env c c' t -> esuc (marshal_bare f env c t v) (marshal_bare f env c' t v).
Proof.
  intros Hc Ht. unfold marshal_bare. destruct (deref_pointers v) as [rv [|]]; [apply esuc_refl|].
  intros x Hx. destruct (get_type_info env c (deref_type t)) as [i| | |] eqn:E; try discriminate Hx. cbn [ebind] in Hx.
  destruct (bm_info _ _ _ _ Hc _ _ E) as (i' & E' & Hi). rewrite E'. cbn [ebind]. revert x Hx.
  refine (_ : esuc _ _). rewrite (bsim_type _ _ _ Hi).
  assert (R : match i, i' with TIConc a, TIConc b => ci_reg a = ci_reg b | _, _ => True end).
  { rewrite get_type_info_deref in E, E'. destruct i, i'; try exact I. exact (Ht _ _ E E'). }
  apply esuc_bind.
  - destruct (negb _).
    + apply esuc_bind; [apply esuc_refl|]. intros t3. eapply esuc_write_field; [|exact Hi]. intros; eapply encode_more; eassumption.
    + eapply encode_more; eassumption.
  - intros b. destruct i as [ci|ii], i' as [ci'|ii']; cbn in Hi; try contradiction; [|apply esuc_refl].
    destruct ci as [ct fs m u rg], ci' as [ct' fs' m' u' rg']; cbn in R; subst rg'. apply esuc_refl.
Qed.
Lemma marshal_length_more env P c c' f t v : bmore env P c c' -> top_kept env c c' t ->
  esuc (marshal_length_prefixed f env c t v) (marshal_length_prefixed f env c' t v).
Proof. intros Hc Ht. unfold marshal_length_prefixed. apply esuc_bind; [eapply marshal_more; eassumption|intros; apply esuc_refl]. Qed.

(** ** The binary decoder *)

Definition dsuc {A} (r r' : dres A) : Prop := forall x n, r = DRet x n None -> r' = DRet x n None.
Definition bad {A} (r : dres A) : Prop := forall x n, r <> DRet x n None.
Lemma dsuc_refl {A} (r : dres A) : dsuc r r.
Proof. intros x n H; exact H. Qed.
Lemma dsuc_bad {A} (r r' : dres A) : bad r -> dsuc r r'.
Proof. intros H x n E. destruct (H _ _ E). Qed.
Lemma bad_ret {A} (a : A) n e : bad (DRet a n (Some e)).
Proof. intros x m. discriminate. Qed.
Lemma bad_panic {A} p : bad (@DPanic A p).
Proof. intros x m. discriminate. Qed.
Lemma bad_slide {A} bz n (k : bytes -> dres A) : (forall b, bad (k b)) -> bad (slide bz n k).
Proof. intros H. unfold slide. destruct (_ <? _)%nat; [apply bad_panic|apply H]. Qed.
Lemma dsuc_bind {A B} (r r' : dres A) (k k' : A -> nat -> option error -> dres B) :
  dsuc r r' -> (forall a n, dsuc (k a n None) (k' a n None)) -> (forall a n e, bad (k a n (Some e))) -> dsuc (dbind r k) (dbind r' k').
Proof.
  intros Hr H Hb x n. destruct r as [a m [e|]| |]; cbn [dbind]; try discriminate; [intros E; destruct (Hb _ _ _ _ _ E)|].
  rewrite (Hr _ _ eq_refl). apply H.
Qed.
Lemma dsuc_same {A B} (r : dres A) (k k' : A -> nat -> option error -> dres B) :
  (forall a n e, dsuc (k a n e) (k' a n e)) -> dsuc (dbind r k) (dbind r k').
Proof. intros H. destruct r; cbn [dbind]; [apply H|apply dsuc_refl|apply dsuc_refl]. Qed.
Lemma dsuc_slide {A} bz n (k k' : bytes -> dres A) : (forall b, dsuc (k b) (k' b)) -> dsuc (slide bz n k) (slide bz n k').
Proof. intros H. unfold slide. destruct (_ <? _)%nat; [apply dsuc_refl|apply H]. Qed.
Lemma dsuc_eget {A B} (r : eres A) kerr (k k' : A -> dres B) : (forall a, dsuc (k a) (k' a)) -> dsuc (eget r kerr k) (eget r kerr k').
Proof. intros H. destruct r; cbn; try apply dsuc_refl. apply H. Qed.
Lemma dsuc_eget_more {A B} (r r' : eres A) kerr (k k' : A -> dres B) :
  esuc r r' -> (forall e, bad (kerr e)) -> (forall a, dsuc (k a) (k' a)) -> dsuc (eget r kerr k) (eget r' kerr k').
Proof. intros Hr Hb H. destruct r as [a| | |]; cbn [eget]; try (apply dsuc_bad; first [apply Hb|intros ? ?; discriminate]). rewrite (Hr _ eq_refl). apply H. Qed.
Lemma dsuc_info {B} (S : tinfo -> tinfo -> Prop) r r' kerr (k k' : tinfo -> dres B) :
  (forall i, r = EOk i -> exists i', r' = EOk i' /\ S i i') -> (forall e, bad (kerr e)) ->
  (forall i i', S i i' -> dsuc (k i) (k' i')) -> dsuc (eget r kerr k) (eget r' kerr k').
Proof.
  intros Hr Hb H. destruct r as [i| | |]; cbn [eget]; try (apply dsuc_bad; first [apply Hb|intros ? ?; discriminate]).
  destruct (Hr _ eq_refl) as (i' & -> & Hs). apply H, Hs.
Qed.
Lemma dsuc_enter {A} (v0 : A) bare bz k k' : (forall b n, dsuc (k b n) (k' b n)) -> dsuc (enter v0 bare bz k) (enter v0 bare bz k').
Proof.
  intros H. unfold enter. destruct bare; [apply H|]. apply dsuc_same. intros b n e.
  apply dsuc_slide. intros b'. destruct e; [apply dsuc_refl|apply H].
Qed.
Ltac bads := repeat first [ progress intros | apply bad_slide | apply bad_ret | apply bad_panic
  | match goal with |- bad (match ?x with _ => _ end) => destruct x end ].

Section Dec.
  Variable env : tenv.
  Variable P : bytes -> Prop.
  Variables c c' : codec.
  Hypothesis Hc : bmore env P c c'.
  Variables rec rec' : bytes -> tinfo -> gotype -> value -> fopts -> bool -> dres value.
  Hypothesis Hrec : forall bz i i' t v o b, bsim P i i' -> dsuc (rec bz i t v o b) (rec' bz i' t v o b).

  Lemma set_iface_eq ii ii' ci v k : fsim P ii ii' -> set_iface env ii ci v k = set_iface env ii' ci v k.
  Proof. intros Hs. unfold set_iface. rewrite (fs_id _ _ _ Hs). reflexivity. Qed.
  Lemma bad_set_iface ii ci v n e : bad (set_iface env ii ci v (fun r => DRet r n (Some e))).
  Proof. unfold set_iface. destruct (if match ci_reg ci with Some r => ri_ptr r | None => false end then _ else _). bads. Qed.

  Lemma dsuc_interface bz ii ii' v0 o bare : fsim P ii ii' ->
    dsuc (decode_interface env c rec bz ii v0 o bare) (decode_interface env c' rec' bz ii' v0 o bare).
  Proof.
    intros Hs. unfold decode_interface. destruct v0; try apply dsuc_refl. destruct o0; [apply dsuc_refl|].
    apply dsuc_enter. intros b n0. apply dsuc_same. intros dp n1 e.
    apply dsuc_slide. intros b1. destruct e; [apply dsuc_refl|]. cbv zeta. apply dsuc_eget_more; [|bads|intros ci].
    { destruct (fst dp); [intros x; apply (bm_disfix _ _ _ _ Hc)|intros x; apply (fs_prefix _ _ _ Hs)]. }
    assert (K : forall bz2 n2, dsuc
      (dbind (rec bz2 (TIConc ci) (ci_type ci) (zero env (ci_type ci)) o true) (fun v n3 e =>
        slide bz2 n3 (fun bz3 =>
        match e with
        | Some e => set_iface env ii ci v (fun r => DRet r (n2 + n3)%nat (Some e))
        | None => match bz3 with
                  | _ :: _ => DRet (VIface None) (n2 + n3)%nat (Some "bytes left over after reading interface contents"%string)
                  | [] => set_iface env ii ci v (fun r => DRet r (n2 + n3)%nat None)
                  end
        end)))
      (dbind (rec' bz2 (TIConc ci) (ci_type ci) (zero env (ci_type ci)) o true) (fun v n3 e =>
        slide bz2 n3 (fun bz3 =>
        match e with
        | Some e => set_iface env ii' ci v (fun r => DRet r (n2 + n3)%nat (Some e))
        | None => match bz3 with
                  | _ :: _ => DRet (VIface None) (n2 + n3)%nat (Some "bytes left over after reading interface contents"%string)
                  | [] => set_iface env ii' ci v (fun r => DRet r (n2 + n3)%nat None)
                  end
        end)))).
    { intros. apply dsuc_bind; [apply Hrec; exact (csim_refl _)| |intros; apply bad_slide; intros; apply bad_set_iface].
      intros a n. apply dsuc_slide. intros b3. destruct b3; [rewrite (set_iface_eq ii ii' ci a _ Hs)|]; apply dsuc_refl. }
    destruct (wants_key env ci b1 o); [|apply K].
    apply dsuc_same. intros kt nk e. destruct e; [apply dsuc_refl|].
    destruct (negb _); [apply dsuc_refl|]. apply dsuc_eget. intros tw. destruct (negb _); [apply dsuc_refl|].
    apply dsuc_slide. intros b2. apply K.
  Qed.

  Lemma dsuc_array_packed einfo einfo' ert o : bsim P einfo einfo' -> forall todo bz n done,
    dsuc (decode_array_packed env rec bz n einfo ert o done todo) (decode_array_packed env rec' bz n einfo' ert o done todo).
  Proof.
    intros Hs. induction todo as [|w todo IH]; intros; cbn [decode_array_packed]; [apply dsuc_refl|].
    apply dsuc_bind; [apply Hrec, Hs| |unfold wrap_err; bads]. intros w' k. apply dsuc_slide. intros b. apply IH.
  Qed.
  Lemma skip_same einfo einfo' ert o b : bsim P einfo einfo' -> skip_empty env einfo ert o b = skip_empty env einfo' ert o b.
  Proof. intros Hs. unfold skip_empty. rewrite (bsim_type _ _ _ Hs). reflexivity. Qed.
  Lemma dsuc_array_unpacked einfo einfo' ert o : bsim P einfo einfo' -> forall todo bz n done,
    dsuc (decode_array_unpacked env rec bz n einfo ert o done todo) (decode_array_unpacked env rec' bz n einfo' ert o done todo).
  Proof.
    intros Hs. induction todo as [|w todo IH]; intros; cbn [decode_array_unpacked]; [apply dsuc_refl|].
    apply dsuc_same. intros kt k e. destruct (negb _); [apply dsuc_refl|].
    destruct (negb _); [apply dsuc_refl|]. apply dsuc_slide. intros b. cbv zeta. destruct e; [apply dsuc_refl|].
    rewrite (skip_same _ _ ert o b Hs). destruct (skip_empty _ _ _ _ _); [apply IH|]. apply dsuc_bind; [apply Hrec, Hs| |unfold wrap_err; bads].
    intros w' k2. apply dsuc_slide. intros b2. apply IH.
  Qed.
  Lemma dsuc_array bz ert v0 o bare : dsuc (decode_array env c rec bz ert v0 o bare) (decode_array env c' rec' bz ert v0 o bare).
  Proof.
    unfold decode_array. destruct (is_uint8 env ert); [apply dsuc_refl|]. destruct v0; try apply dsuc_refl.
    apply (dsuc_info (bsim P)); [apply (bm_info _ _ _ _ Hc)|bads|]. intros einfo einfo' Hi. rewrite (bsim_type _ _ _ Hi). apply dsuc_enter. intros b n0. apply dsuc_eget. intros t3.
    destruct (negb _); (apply dsuc_bind; [first [apply dsuc_array_packed, Hi|apply dsuc_array_unpacked, Hi]|intros; apply dsuc_refl|bads]).
  Qed.
  Lemma dsuc_slice_packed einfo einfo' ert o : bsim P einfo einfo' -> forall k bz n done,
    dsuc (decode_slice_packed env rec k bz n einfo ert o done) (decode_slice_packed env rec' k bz n einfo' ert o done).
  Proof.
    intros Hs. induction k as [|k IH]; intros bz n done; destruct bz; cbn [decode_slice_packed]; try apply dsuc_refl.
    apply dsuc_bind; [apply Hrec, Hs| |unfold wrap_err; bads]. intros w m. apply dsuc_slide. intros b. apply IH.
  Qed.
  Lemma dsuc_slice_unpacked einfo einfo' ert o : bsim P einfo einfo' -> forall k bz n done,
    dsuc (decode_slice_unpacked env rec k bz n einfo ert o done) (decode_slice_unpacked env rec' k bz n einfo' ert o done).
  Proof.
    intros Hs. induction k as [|k IH]; intros bz n done; destruct bz; cbn [decode_slice_unpacked]; try apply dsuc_refl.
    apply dsuc_same. intros kt m e. destruct (_ <? _); [apply dsuc_refl|].
    destruct (_ <? _); [apply dsuc_refl|]. destruct (negb _); [apply dsuc_refl|]. apply dsuc_slide. intros b1. cbv zeta.
    destruct e; [apply dsuc_refl|]. rewrite (skip_same _ _ ert o b1 Hs). destruct (skip_empty _ _ _ _ _); [apply IH|].
    apply dsuc_bind; [apply Hrec, Hs| |unfold wrap_err; bads]. intros w m2. apply dsuc_slide. intros b2. apply IH.
  Qed.
  Lemma dsuc_slice bz ert v0 o bare : dsuc (decode_slice env c rec bz ert v0 o bare) (decode_slice env c' rec' bz ert v0 o bare).
  Proof.
    unfold decode_slice. destruct (is_uint8 env ert); [apply dsuc_refl|]. apply (dsuc_info (bsim P)); [apply (bm_info _ _ _ _ Hc)|bads|].
    intros einfo einfo' Hi. rewrite (bsim_type _ _ _ Hi).
    apply dsuc_enter. intros b n0. apply dsuc_eget. intros t3. apply dsuc_bind; [|intros; apply dsuc_refl|bads].
    destruct (negb _); [apply dsuc_slice_packed|apply dsuc_slice_unpacked]; exact Hi.
  Qed.
  Lemma dsuc_field f l bz last n : dsuc (decode_field env c rec f l bz last n) (decode_field env c' rec' f l bz last n).
  Proof.
    unfold decode_field. cbv zeta. apply (dsuc_info (bsim P)); [apply (bm_info _ _ _ _ Hc)|bads|]. intros info info' Hi. destruct bz as [|b0 bz]; [apply dsuc_refl|].
    destruct (fi_unpacked f).
    - apply dsuc_bind; [apply Hrec, Hi|intros; apply dsuc_refl|bads].
    - apply dsuc_same. intros [fnum typ] m e. destruct (_ <? _); [apply dsuc_refl|].
      destruct (_ <=? _); [apply dsuc_refl|]. apply dsuc_slide. intros b1. cbv zeta. destruct e; [apply dsuc_refl|].
      destruct (negb _); [apply dsuc_refl|]. rewrite (bsim_type _ _ _ Hi). apply dsuc_eget. intros tw. destruct (negb _); [apply dsuc_refl|].
      apply dsuc_bind; [apply Hrec, Hi|intros; apply dsuc_refl|bads].
  Qed.
  Lemma dsuc_fields : forall fs l bz last n, dsuc (decode_fields env c rec fs l bz last n) (decode_fields env c' rec' fs l bz last n).
  Proof.
    induction fs as [|f fs IH]; intros; cbn [decode_fields]; [apply dsuc_refl|].
    apply dsuc_bind; [apply dsuc_field| |bads]. intros [[l' b'] last'] n'. apply IH.
  Qed.
  Lemma dsuc_struct bz ci ci' v0 bare : csim ci ci' ->
    dsuc (decode_struct env c rec bz ci v0 bare) (decode_struct env c' rec' bz ci' v0 bare).
  Proof.
    intros Hs. unfold decode_struct. rewrite (cs_type _ _ Hs), (cs_fields _ _ Hs). apply dsuc_enter. intros b n0. destruct (resolve env (ci_type ci')); try apply dsuc_refl.
    destruct v0; try apply dsuc_refl. apply dsuc_bind; [apply dsuc_fields|intros; apply dsuc_refl|bads].
  Qed.
  Lemma dsuc_switch bz info info' v0 o bare : bsim P info info' ->
    dsuc (decode_switch env c rec bz info v0 o bare) (decode_switch env c' rec' bz info' v0 o bare).
  Proof.
    intros Hs. unfold decode_switch. rewrite (bsim_type _ _ _ Hs). destruct (resolve env (ti_type info')); try apply dsuc_refl.
    - destruct info, info'; cbn in Hs; try contradiction; [apply dsuc_struct, Hs|apply dsuc_refl].
    - destruct (is_uint8 env e); [apply dsuc_refl|apply dsuc_array].
    - destruct (is_uint8 env e); [apply dsuc_refl|apply dsuc_slice].
    - destruct info, info'; cbn in Hs; try contradiction; [apply dsuc_refl|apply dsuc_interface, Hs].
    - destruct info, info'; cbn in Hs; try contradiction; [apply dsuc_struct, Hs|apply dsuc_refl].
  Qed.
End Dec.

Theorem decode_more env P c c' : bmore env P c c' -> forall f bz info info' t v0 o bare, bsim P info info' ->
  dsuc (decode_reflect f env c bz info t v0 o bare) (decode_reflect f env c' bz info' t v0 o bare).
Proof.
  intros Hc. induction f as [|f IH]; intros bz info info' t v0 o bare Hs; [apply dsuc_refl|]. cbn [decode_reflect].
  assert (G : forall w0, dsuc
            (match info with
             | TIConc {| ci_type := ct; ci_unmarshal := Some r |} =>
                 eget (get_type_info env c r) (fun e => DRet w0 0 (Some e)) (fun rinfo =>
                 dbind (decode_reflect f env c bz rinfo r (zero env r) o bare) (fun rv n e =>
                 slide bz n (fun _ =>
                 match e with
                 | Some e => DRet w0 n (Some e)
                 | None => eget (from_repr env ct w0 rv) (fun e => DRet w0 n (Some e))
                                (fun r => DRet (fst r) n (snd r))
                 end)))
             | _ => decode_switch env c (decode_reflect f env c) bz info w0 o bare
             end)
            (match info' with
             | TIConc {| ci_type := ct; ci_unmarshal := Some r |} =>
                 eget (get_type_info env c' r) (fun e => DRet w0 0 (Some e)) (fun rinfo =>
                 dbind (decode_reflect f env c' bz rinfo r (zero env r) o bare) (fun rv n e =>
                 slide bz n (fun _ =>
                 match e with
                 | Some e => DRet w0 n (Some e)
                 | None => eget (from_repr env ct w0 rv) (fun e => DRet w0 n (Some e))
                                (fun r => DRet (fst r) n (snd r))
                 end)))
             | _ => decode_switch env c' (decode_reflect f env c') bz info' w0 o bare
             end)).
  { intros w0.
    assert (SW : dsuc (decode_switch env c (decode_reflect f env c) bz info w0 o bare)
                    (decode_switch env c' (decode_reflect f env c') bz info' w0 o bare)).
    { eapply dsuc_switch; eassumption. }
    destruct info as [ci|ii], info' as [ci'|ii']; cbn in Hs; try contradiction; try exact SW.
    destruct ci as [ct fs m u rg], ci' as [ct' fs' m' u' rg']; destruct Hs as [E1 E2 E3 E4 E5]; cbn in E1, E2, E3, E4, E5; subst ct' fs' m' u'.
    destruct u as [r|]; [|exact SW].
    apply (dsuc_info (bsim P)); [apply (bm_info _ _ _ _ Hc)|bads|]. intros rinfo rinfo' Hr. apply dsuc_bind; [apply IH; assumption|intros; apply dsuc_refl|bads]. }
  unfold dmap. cbv zeta. specialize (G (base_of env t v0)).
  destruct info as [ci|ii], info' as [ci'|ii']; try contradiction; [apply dsuc_bind; [exact G|intros; apply dsuc_refl|bads]|].
  destruct t; first [apply dsuc_bind; [exact G|intros; apply dsuc_refl|bads] | rewrite (fs_id _ _ _ Hs); apply dsuc_refl | apply dsuc_refl].
Qed.

Definition usuc (r r' : ures) : Prop := forall x, r = URet x None -> r' = URet x None.
Lemma um_finish_suc b r r' : dsuc r r' -> usuc (um_finish b r) (um_finish b r').
Proof. intros H x. destruct r as [v n [e|]| |]; cbn [um_finish]; try discriminate. rewrite (H _ _ eq_refl). exact (fun E => E). Qed.
Lemma um_body_suc env dec dec' ty t v b : (forall b bare, dsuc (dec b bare) (dec' b bare)) -> usuc (um_body env dec ty t v b) (um_body env dec' ty t v b).
Proof.
  intros D. unfold um_body.
  destruct (if is_struct_or_repeated_struct env ty then EOk true else is_pointer_to_struct env v t); try (intros x E; exact E).
  destruct (negb a && _).
  - destruct (decode_field_key b) as [[fn typ] nk [e|]| |]; try (intros x E; exact E). destruct (negb _); [intros x E; exact E|].
    destruct (type_to_typ3 env ty no_opts); try (intros x E; exact E). destruct (negb (typ =? a0)); [intros x E; exact E|].
    destruct (length b <? nk)%nat; [intros x E; exact E|]. apply um_finish_suc, D.
  - apply um_finish_suc, D.
Qed.
Lemma unmarshal_more env P c c' f bz t v : bmore env P c c' -> top_kept env c c' t -> usuc (unmarshal_bare f env c bz t v) (unmarshal_bare f env c' bz t v).
Proof.
  intros Hc Ht. rewrite !unmarshal_bare_eq. destruct (get_type_info env c t) as [i| | |] eqn:E; try (intros x X; discriminate X).
  destruct (bm_info _ _ _ _ Hc _ _ E) as (i' & E' & Hi). rewrite E'. cbv zeta. rewrite (bsim_type _ _ _ Hi).
  assert (R : match i, i' with TIConc a, TIConc b => ci_reg a = ci_reg b | _, _ => True end).
  { destruct i, i'; try exact I. exact (Ht _ _ E E'). }
  assert (D : forall b bare, dsuc (decode_reflect f env c b i t v (set_num 1 no_opts) bare)
                                  (decode_reflect f env c' b i' t v (set_num 1 no_opts) bare)) by (intros; eapply decode_more; eassumption).
  pose proof (fun b => um_body_suc env _ _ (ti_type i') t v b D) as B. clear D E E'.
  destruct i as [ci|ii], i' as [ci'|ii']; cbn in Hi; try contradiction; [|apply B].
  destruct ci as [ct fs m u rg], ci' as [ct' fs' m' u' rg']; cbn in R; subst rg'. destruct rg as [r|]; [|apply B].
  destruct (length bz <? 4)%nat; [intros x X; exact X|].
  destruct (negb (beqb (firstn 4 bz) (ri_prefix r))); [intros x X; exact X|apply B].
Qed.
Lemma unmarshal_length_more env P c c' f bz t v : bmore env P c c' -> top_kept env c c' t ->
  usuc (unmarshal_length_prefixed f env c bz t v) (unmarshal_length_prefixed f env c' bz t v).
Proof.
  intros Hc Ht. unfold unmarshal_length_prefixed. destruct bz; [intros x X; exact X|]. destruct (uvarint _).
  destruct (_ <? 0); [intros x X; exact X|]. destruct (_ <? _); [intros x X; exact X|]. destruct (_ <? _); [intros x X; exact X|].
  eapply unmarshal_more; eassumption.
Qed.

(** ** JSON *)

Section JEnc.
  Variable env : tenv.
  Variable je : jenv.
  Variables c c' : codec.
  Hypothesis Hc : jmore env c c'.
  Variables rec rec' : tinfo -> value -> bool -> fopts -> eres bytes.
  Hypothesis Hrec : forall i i' v ad o, jsim i i' -> esuc (rec i v ad o) (rec' i' v ad o).

  Lemma jsuc_interface v o : esuc (json_interface env c rec v o) (json_interface env c' rec' v o).
  Proof.
    unfold json_interface. destruct v; try apply esuc_refl. destruct o0 as [[ct cv]|]; [|apply esuc_refl].
    destruct (deref_pointers cv) as [crv [|]]; [apply esuc_refl|].
    destruct crv; try apply esuc_refl;
      (apply (esuc_info jsim); [apply (jm_info _ _ _ Hc)|]; intros [ci|] [ci'|] _ Hi; cbn in Hi; try contradiction; [|apply esuc_refl];
       destruct (ci_reg ci) as [r|] eqn:Hr; [|intros ? X; discriminate X]; pose proof (csim_eq _ _ _ Hi Hr); subst ci'; rewrite Hr;
       apply esuc_bind; [apply Hrec; exact (csim_refl _)|intros; apply esuc_refl]).
  Qed.
  Lemma jsuc_elems einfo einfo' ad o : jsim einfo einfo' -> forall l,
    esuc (json_elems rec einfo l ad o) (json_elems rec' einfo' l ad o).
  Proof.
    intros Hs. induction l as [|v l IH]; cbn [json_elems]; [apply esuc_refl|].
    apply esuc_bind; [apply Hrec, Hs|]. intros b. apply esuc_bind; [apply IH|intros; apply esuc_refl].
  Qed.
  Lemma jsuc_list ert v ad o : esuc (json_list env c rec ert v ad o) (json_list env c' rec' ert v ad o).
  Proof.
    unfold json_list. destruct v as [| | | | | | l | [l|] | | | | | | |]; try apply esuc_refl;
    (destruct (is_uint8 env ert); [apply esuc_refl|]; apply (esuc_info jsim); [apply (jm_info _ _ _ Hc)|]; intros i i' _ Hi;
     apply esuc_bind; [apply jsuc_elems, Hi|intros; apply esuc_refl]).
  Qed.
  Lemma jsuc_fields l ad : forall fs, esuc (json_fields env c rec fs l ad) (json_fields env c' rec' fs l ad).
  Proof.
    induction fs as [|f fs IH]; cbn [json_fields]; [apply esuc_refl|].
    apply (esuc_info jsim); [apply (jm_info _ _ _ Hc)|]. intros i i' _ Hi.
    destruct (_ && _); [exact IH|]. apply esuc_bind; [apply Hrec, Hi|]. intros b. apply esuc_bind; [apply IH|intros; apply esuc_refl].
  Qed.
  Lemma jsuc_struct ci ci' v ad : csim ci ci' -> esuc (json_struct env c rec ci v ad) (json_struct env c' rec' ci' v ad).
  Proof. intros Hs. unfold json_struct. rewrite (cs_fields _ _ Hs). destruct v; try apply esuc_refl. apply esuc_bind; [apply jsuc_fields|intros; apply esuc_refl]. Qed.
  Lemma jsuc_members vt o : forall l, esuc (json_members env c rec vt l o) (json_members env c' rec' vt l o).
  Proof.
    induction l as [|[k v] l IH]; cbn [json_members]; [apply esuc_refl|]. destruct k; try apply esuc_refl.
    apply esuc_bind; [|intros; apply esuc_bind; [apply IH|intros; apply esuc_refl]]. destruct (deref_pointers v) as [w [|]]; [apply esuc_refl|].
    apply (esuc_info jsim); [apply (jm_info _ _ _ Hc)|]. intros i i' _ Hi. apply Hrec, Hi.
  Qed.
  Lemma jsuc_map kt vt v o : esuc (json_map env c rec kt vt v o) (json_map env c' rec' kt vt v o).
  Proof.
    unfold json_map. destruct (resolve env kt) as [[]| | | | | | | | | |]; try apply esuc_refl.
    destruct v as [| | | | | | | | | | | [l|] | | |]; try apply esuc_refl. apply esuc_bind; [apply jsuc_members|intros; apply esuc_refl].
  Qed.
  Lemma jsuc_switch info info' v ad o : jsim info info' ->
    esuc (json_switch env je c rec info v ad o) (json_switch env je c' rec' info' v ad o).
  Proof.
    intros Hs. unfold json_switch. rewrite (jsim_type _ _ Hs).
    destruct (resolve env (ti_type info')); try apply esuc_refl; try apply jsuc_list; try apply jsuc_map; try apply jsuc_interface;
    (destruct info, info'; cbn in Hs; try contradiction; [apply jsuc_struct, Hs|apply esuc_refl]).
  Qed.
End JEnc.

Theorem encode_json_more env je c c' : jmore env c c' -> forall k info info' v ad o, jsim info info' ->
  esuc (encode_json k env je c info v ad o) (encode_json k env je c' info' v ad o).
Proof.
  intros Hc. induction k as [|k IH]; intros info info' v ad o Hs; [apply esuc_refl|]. cbn [encode_json].
  destruct v; try apply esuc_refl;
  (destruct (deref_pointers _) as [w [|]]; [apply esuc_refl|]; cbv zeta; rewrite (jsim_type _ _ Hs);
   destruct (marshal_override _ _ _ _); [apply esuc_refl|];
   pose proof (jsuc_switch env je c c' Hc (encode_json k env je c) (encode_json k env je c')
                 (fun i i' v ad o H => IH i i' v ad o H) info info') as SW;
   destruct info as [ci|ii], info' as [ci'|ii']; cbn in Hs; try contradiction; [|apply SW; exact Hs];
   pose proof (SW w) as SW'; clear SW;
   destruct ci as [ct fs m u rg], ci' as [ct' fs' m' u' rg']; pose proof Hs as [E1 E2 E3 E4 E5]; cbn in E1, E2, E3, E4, E5; subst ct' fs' m' u';
   destruct m as [r|]; [|apply SW'; exact Hs];
   apply esuc_bind; [apply esuc_refl|]; intros rv; apply (esuc_info jsim); [apply (jm_info _ _ _ Hc)|]; intros i i' _ Hi; apply IH, Hi).
Qed.

Theorem marshal_json_more env je c c' k t v : jmore env c c' -> top_kept env c c' t ->
  esuc (marshal_json k env je c t v) (marshal_json k env je c' t v).
Proof.
  intros Hc Ht. unfold marshal_json. intros x Hx. destruct (get_type_info env c t) as [i| | |] eqn:E; try discriminate Hx. cbn [ebind] in Hx.
  destruct (jm_info _ _ _ Hc _ _ E) as (i' & E' & Hi). rewrite E'. cbn [ebind]. revert x Hx. refine (_ : esuc _ _).
  assert (R : match i, i' with TIConc a, TIConc b => ci_reg a = ci_reg b | _, _ => True end).
  { destruct i, i'; try exact I. exact (Ht _ _ E E'). }
  apply esuc_bind; [apply encode_json_more; assumption|]. intros b. destruct i as [ci|ii], i' as [ci'|ii']; cbn in Hi; try contradiction; [|apply esuc_refl].
  destruct ci as [ct fs m u rg], ci' as [ct' fs' m' u' rg']; cbn in R; subst rg'. apply esuc_refl.
Qed.
Theorem marshal_json_indent_more env je c c' k t v p q : jmore env c c' -> top_kept env c c' t ->
  esuc (marshal_json_indent k env je c t v p q) (marshal_json_indent k env je c' t v p q).
Proof.
  intros Hc Ht. unfold marshal_json_indent. pose proof (marshal_json_more env je c c' k t v Hc Ht) as H.
  first [apply esuc_bind; [exact H|intros; apply esuc_refl] | intros x; destruct (marshal_json k env je c t v) eqn:E; try discriminate; rewrite (H _ E); exact (fun X => X)].
Qed.

Section JDec.
  Variable env : tenv.
  Variable je : jenv.
  Variables c c' : codec.
  Hypothesis Hc : jmore env c c'.
  Variables rec rec' : bytes -> tinfo -> gotype -> value -> fopts -> eres value.
  Hypothesis Hrec : forall b i i' t v o, jsim i i' -> esuc (rec b i t v o) (rec' b i' t v o).

  Lemma usuc_interface ii ii' bz o : ii_id ii = ii_id ii' -> esuc (unjson_interface env c rec ii bz o) (unjson_interface env c' rec' ii' bz o).
  Proof.
    intros Hs. unfold unjson_interface. apply esuc_bind; [apply esuc_refl|]. intros nd.
    apply esuc_bind; [intros x; apply (jm_name _ _ _ Hc)|]. intros ci. cbv zeta.
    intros x. pose proof (Hrec (snd nd) (TIConc ci) (TIConc ci) (ci_type ci) (zero env (ci_type ci)) o (csim_refl _)) as R. revert R.
    destruct (rec (snd nd) _ _ _ _) as [w| | |]; intros R; try discriminate; [rewrite (R _ eq_refl), Hs; exact (fun E => E)|].
    destruct (te_impl _ _ _); discriminate.
  Qed.
  Lemma usuc_elems einfo einfo' ert o : jsim einfo einfo' -> forall raws l,
    esuc (unjson_elems rec einfo ert raws l o) (unjson_elems rec' einfo' ert raws l o).
  Proof.
    intros Hs. induction raws as [|b raws IH]; intros [|v l]; cbn [unjson_elems]; try apply esuc_refl.
    apply esuc_bind; [apply Hrec, Hs|]. intros w. apply esuc_bind; [apply IH|intros; apply esuc_refl].
  Qed.
  Lemma usuc_array n ert bz v0 o : esuc (unjson_array env c rec n ert bz v0 o) (unjson_array env c' rec' n ert bz v0 o).
  Proof.
    unfold unjson_array. destruct (is_uint8 env ert); [apply esuc_refl|]. apply (esuc_info jsim); [apply (jm_info _ _ _ Hc)|]. intros i i' _ Hi.
    apply esuc_bind; [apply esuc_refl|]. intros raws. destruct (negb _); [apply esuc_refl|]. destruct v0; try apply esuc_refl.
    apply esuc_bind; [apply usuc_elems, Hi|intros; apply esuc_refl].
  Qed.
  Lemma usuc_slice ert bz v0 o : esuc (unjson_slice env c rec ert bz v0 o) (unjson_slice env c' rec' ert bz v0 o).
  Proof.
    unfold unjson_slice. destruct (is_uint8 env ert); [apply esuc_refl|]. apply (esuc_info jsim); [apply (jm_info _ _ _ Hc)|]. intros i i' _ Hi.
    apply esuc_bind; [apply esuc_refl|]. intros raws.
    first [apply esuc_bind; [apply usuc_elems, Hi|intros; apply esuc_refl]
          | destruct raws; [apply esuc_refl|apply esuc_bind; [apply usuc_elems, Hi|intros; apply esuc_refl]]].
  Qed.
  Lemma usuc_fields m o : forall fs l, esuc (unjson_fields env c rec fs m l o) (unjson_fields env c' rec' fs m l o).
  Proof.
    induction fs as [|f fs IH]; intros l; cbn [unjson_fields]; [apply esuc_refl|].
    apply (esuc_info jsim); [apply (jm_info _ _ _ Hc)|]. intros i i' _ Hi.
    destruct (assoc beqb _ m) as [[|b r]|]; [apply IH| |apply IH].
    apply esuc_bind; [apply Hrec, Hi|]. intros w. apply IH.
  Qed.
  Lemma usuc_struct ci ci' bz v0 o : csim ci ci' -> esuc (unjson_struct env c rec ci bz v0 o) (unjson_struct env c' rec' ci' bz v0 o).
  Proof.
    intros Hs. unfold unjson_struct. apply esuc_bind; [apply esuc_refl|]. intros m. destruct v0; try apply esuc_refl.
    rewrite (cs_fields _ _ Hs). apply esuc_bind; [apply usuc_fields|intros; apply esuc_refl].
  Qed.
  Lemma usuc_members kt vt i i' o : jsim i i' -> forall m, esuc (unjson_members env rec kt vt i m o) (unjson_members env rec' kt vt i' m o).
  Proof.
    intros Hi. induction m as [|[k b] m IH]; cbn [unjson_members]; [apply esuc_refl|].
    apply esuc_bind; [apply Hrec, Hi|]. intros w. destruct (negb _); [apply esuc_refl|]. apply esuc_bind; [apply IH|intros; apply esuc_refl].
  Qed.
  Lemma usuc_map kt vt bz o : esuc (unjson_map env c rec kt vt bz o) (unjson_map env c' rec' kt vt bz o).
  Proof.
    unfold unjson_map. apply esuc_bind; [apply esuc_refl|]. intros m.
    destruct (resolve env kt) as [[]| | | | | | | | | |]; try apply esuc_refl.
    apply (esuc_info jsim); [apply (jm_info _ _ _ Hc)|]. intros i i' _ Hi. apply esuc_bind; [apply usuc_members, Hi|intros; apply esuc_refl].
  Qed.
  Lemma usuc_switch info info' bz v0 o : jsim info info' ->
    esuc (unjson_switch env je c rec info bz v0 o) (unjson_switch env je c' rec' info' bz v0 o).
  Proof.
    intros Hs. unfold unjson_switch. rewrite (jsim_type _ _ Hs).
    destruct (resolve env (ti_type info')); try apply esuc_refl; try apply usuc_array; try apply usuc_slice; try apply usuc_map;
    (destruct info, info'; cbn in Hs; try contradiction; try apply esuc_refl; [apply usuc_struct, Hs|apply usuc_interface, Hs]) ||
    (destruct info, info'; cbn in Hs; try contradiction; try apply esuc_refl; apply usuc_struct, Hs) ||
    (destruct info, info'; cbn in Hs; try contradiction; try apply esuc_refl; apply usuc_interface, Hs).
  Qed.
End JDec.

Theorem decode_json_more env je c c' : jmore env c c' -> forall k bz info info' t v0 o, jsim info info' ->
  esuc (decode_json k env je c bz info t v0 o) (decode_json k env je c' bz info' t v0 o).
Proof.
  intros Hc. induction k as [|k IH]; intros bz info info' t v0 o Hs; [apply esuc_refl|]. cbn [decode_json]. cbv zeta.
  assert (B : forall w, esuc (if beqb bz null then EOk (zero env t) else
     ebind (match deref_type t with
            | TTime => w
            | _ => match (match deref_type t with TNamed id => je_unmarshal je id | _ => None end) with
                   | Some g => g bz (base_of env t v0)
                   | None => match info with
                      | TIConc {| ci_type := ct; ci_unmarshal := Some r |} =>
                          ebind (get_type_info env c r) (fun rinfo =>
                          ebind (decode_json k env je c bz rinfo r (zero env r) o) (fun rv =>
                          ebind (from_repr env ct (base_of env t v0) rv) (fun ve =>
                          match snd ve with Some e => EErr e | None => EOk (fst ve) end)))
                      | _ => unjson_switch env je c (decode_json k env je c) info bz (base_of env t v0) o
                      end
                   end
            end) (fun w => EOk (rebuild t w)))
     (if beqb bz null then EOk (zero env t) else
     ebind (match deref_type t with
            | TTime => w
            | _ => match (match deref_type t with TNamed id => je_unmarshal je id | _ => None end) with
                   | Some g => g bz (base_of env t v0)
                   | None => match info' with
                      | TIConc {| ci_type := ct; ci_unmarshal := Some r |} =>
                          ebind (get_type_info env c' r) (fun rinfo =>
                          ebind (decode_json k env je c' bz rinfo r (zero env r) o) (fun rv =>
                          ebind (from_repr env ct (base_of env t v0) rv) (fun ve =>
                          match snd ve with Some e => EErr e | None => EOk (fst ve) end)))
                      | _ => unjson_switch env je c' (decode_json k env je c') info' bz (base_of env t v0) o
                      end
                   end
            end) (fun w => EOk (rebuild t w)))).
  { intros w. destruct (beqb bz null); [apply esuc_refl|]. apply esuc_bind; [|intros; apply esuc_refl].
    pose proof (usuc_switch env je c c' Hc (decode_json k env je c) (decode_json k env je c')
                 (fun b i i' t v o H => IH b i i' t v o H) info info' bz (base_of env t v0) o Hs) as SW.
    assert (G : esuc (match info with
                      | TIConc {| ci_type := ct; ci_unmarshal := Some r |} =>
                          ebind (get_type_info env c r) (fun rinfo =>
                          ebind (decode_json k env je c bz rinfo r (zero env r) o) (fun rv =>
                          ebind (from_repr env ct (base_of env t v0) rv) (fun ve =>
                          match snd ve with Some e => EErr e | None => EOk (fst ve) end)))
                      | _ => unjson_switch env je c (decode_json k env je c) info bz (base_of env t v0) o
                      end)
                (match info' with
                      | TIConc {| ci_type := ct; ci_unmarshal := Some r |} =>
                          ebind (get_type_info env c' r) (fun rinfo =>
                          ebind (decode_json k env je c' bz rinfo r (zero env r) o) (fun rv =>
                          ebind (from_repr env ct (base_of env t v0) rv) (fun ve =>
                          match snd ve with Some e => EErr e | None => EOk (fst ve) end)))
                      | _ => unjson_switch env je c' (decode_json k env je c') info' bz (base_of env t v0) o
                      end)).
    { destruct info as [ci|ii], info' as [ci'|ii']; cbn in Hs; try contradiction; try exact SW.
      destruct ci as [ct fs m u rg], ci' as [ct' fs' m' u' rg']; destruct Hs as [E1 E2 E3 E4 E5]; cbn in E1, E2, E3, E4, E5; subst ct' fs' m' u'.
      destruct u as [r|]; [|exact SW].
      apply (esuc_info jsim); [apply (jm_info _ _ _ Hc)|]. intros i i' _ Hi. apply esuc_bind; [apply IH, Hi|intros; apply esuc_refl]. }
    destruct (deref_type t); try exact G; try apply esuc_refl. destruct (je_unmarshal je id); [apply esuc_refl|exact G]. }
  destruct info as [ci|ii], info' as [ci'|ii']; cbn in Hs; try contradiction; [apply B|].
  destruct t; first [apply B | rewrite Hs; apply esuc_refl | apply esuc_refl].
Qed.

Theorem unmarshal_json_more env je c c' k bz t v0 : jmore env c c' -> top_kept env c c' t ->
  esuc (unmarshal_json k env je c bz t v0) (unmarshal_json k env je c' bz t v0).
Proof.
  intros Hc Ht. unfold unmarshal_json. destruct bz as [|b r]; [apply esuc_refl|].
  intros x Hx. destruct (get_type_info env c t) as [i| | |] eqn:E; try discriminate Hx. cbn [ebind] in Hx.
  destruct (jm_info _ _ _ Hc _ _ E) as (i' & E' & Hi). rewrite E'. cbn [ebind]. revert x Hx. refine (_ : esuc _ _).
  assert (R : match i, i' with TIConc a, TIConc b => ci_reg a = ci_reg b | _, _ => True end).
  { destruct i, i'; try exact I. exact (Ht _ _ E E'). }
  pose proof (fun bz => decode_json_more env je c c' Hc k bz i i' t v0 no_opts Hi) as D. clear E E'.
  destruct i as [ci|ii], i' as [ci'|ii']; cbn in Hi; try contradiction; [|apply D].
  destruct ci as [ct fs m u rg], ci' as [ct' fs' m' u' rg']; cbn in R; subst rg'. destruct rg as [rg|]; [|apply D].
  apply esuc_bind; [apply esuc_refl|]. intros nd. destruct (negb _); [apply esuc_refl|]. apply D.
Qed.

(** ** Histories *)

Section Histories.
  Variable env : tenv.
  Variables h h' : list op.
  Hypothesis C : clean env new_codec h = true.
  Hypothesis C' : clean env new_codec h' = true.
  Hypothesis M : more h h'.
  Let c := run env new_codec h.
  Let c' := run env new_codec h'.
  Let W : wf_codec env c := wf_history _ _ C.
  Let W' : wf_codec env c' := wf_history _ _ C'.

  Lemma conc_more ci : In ci (cd_concretes c) -> In ci (cd_concretes c').
  Proof. intros H. apply (conc_in env h C) in H. destruct H as (x & Hx & E). apply (conc_in env h' C'). exists x. split; [apply (mo_conc _ _ M), Hx|exact E]. Qed.
  Lemma name_more n ci : type_info_from_name c n = EOk ci -> type_info_from_name c' n = EOk ci.
  Proof.
    unfold type_info_from_name. destruct (assoc beqb n (cd_names c)) as [a|] eqn:E; [|discriminate]. intros H. injection H as ->.
    apply (wc_names _ _ W) in E. destruct E as [E1 E2]. assert (E : assoc beqb n (cd_names c') = Some ci) by (apply (wc_names _ _ W'); split; [apply conc_more; assumption|assumption]).
    rewrite E. reflexivity.
  Qed.
  Lemma disfix_more d ci : type_info_from_disfix c d = EOk ci -> type_info_from_disfix c' d = EOk ci.
  Proof.
    unfold type_info_from_disfix. destruct (assoc beqb d (cd_disfix c)) as [a|] eqn:E; [|discriminate]. intros H. injection H as ->.
    apply (wc_disfix _ _ W) in E. destruct E as [E1 E2]. assert (E : assoc beqb d (cd_disfix c') = Some ci) by (apply (wc_disfix _ _ W'); split; [apply conc_more; assumption|assumption]).
    rewrite E. reflexivity.
  Qed.
  Lemma unreg_csim ci ci' : info_ok env ci -> info_ok env ci' -> ci_type ci = ci_type ci' -> ci_reg ci = None -> csim ci ci'.
  Proof.
    intros [H1 _] [H2 _] Et Hr. rewrite Et in H1. assert (E : unreg ci = unreg ci') by congruence. rewrite (unreg_unreg ci Hr) in E. rewrite E.
    destruct ci'. cbn. split; try reflexivity. cbn. discriminate.
  Qed.
  Lemma conc_info t ci : get_type_info env c t = EOk (TIConc ci) -> conc_type (deref_type t) = true -> exists ci', get_type_info env c' t = EOk (TIConc ci') /\ csim ci ci'.
  Proof.
    intros H Ht. rewrite <- get_type_info_deref in H |- *. generalize dependent (deref_type t). clear t. intros t H Ht.
    rewrite get_type_info_conc in H by assumption. rewrite get_type_info_conc by assumption.
    assert (G : forall c0 ci0, wf_codec env c0 -> match assoc gotype_eqb t (cd_types c0) with Some ci => EOk (TIConc ci) | None => ebind (new_type_info env t) (fun ci => EOk (TIConc ci)) end = EOk (TIConc ci0) ->
      ci_type ci0 = t /\ info_ok env ci0 /\ (ci_reg ci0 <> None -> assoc gotype_eqb t (cd_types c0) = Some ci0)).
    { intros c0 ci0 W0. destruct (assoc gotype_eqb t (cd_types c0)) as [a|] eqn:E.
      - intros X. injection X as ->. destruct (wc_types _ _ W0 _ _ E) as [E1 E2]. auto.
      - destruct (new_type_info env t) as [a| | |] eqn:En; try discriminate. cbn [ebind]. intros X. injection X as ->.
        destruct (new_type_info_spec _ _ _ En) as (_ & E1 & E2). split; [exact E1|]. split; [|intros X; destruct (X E2)].
        unfold info_ok. rewrite E1, unreg_unreg by assumption. split; [exact En|]. unfold reg_ok. rewrite E2. exact I. }
    destruct (G c ci W H) as (E1 & E2 & E3).
    destruct (ci_reg ci) as [r|] eqn:Er.
    - assert (In ci (cd_concretes c)) as Hin by (apply (wc_conc _ _ W); rewrite E1; split; [apply E3; discriminate|congruence]).
      apply conc_more, (wc_conc _ _ W') in Hin. rewrite E1 in Hin. destruct Hin as [-> _]. exists ci. split; [reflexivity|apply csim_refl].
    - assert (X : exists ci', match assoc gotype_eqb t (cd_types c') with Some ci => EOk (TIConc ci) | None => ebind (new_type_info env t) (fun ci => EOk (TIConc ci)) end = EOk (TIConc ci')).
      { destruct (assoc gotype_eqb t (cd_types c')); [eexists; reflexivity|]. destruct E2 as [E2 _]. rewrite E1 in E2. rewrite E2. eexists; reflexivity. }
      destruct X as (ci' & X). exists ci'. split; [exact X|]. destruct (G c' ci' W' X) as (F1 & F2 & _). apply unreg_csim; congruence || assumption.
  Qed.
  Lemma face_more i ii : find_iface i (cd_ifaces c) = Some ii -> exists ii' o, find_iface i (cd_ifaces c') = Some ii' /\
    In ii (cd_ifaces c) /\ In ii' (cd_ifaces c') /\ ii_id ii = i /\ ii_id ii' = i /\ ii_always ii = ii_always ii' /\ In (i, o) (iface_calls h).
  Proof.
    intros Hf. destruct (find_iface_some _ _ _ Hf) as [Hin Hid]. destruct (iface_prio env h i ii C Hf) as (o & Ho & Ha & _).
    destruct (mo_iface _ _ M _ _ Ho) as (o' & Ho' & Hoo). destruct (iface_after env h' C' i o' Ho') as (ii' & _ & Hin' & Hid' & _ & _).
    assert (Hf' : find_iface i (cd_ifaces c') = Some ii') by (rewrite <- Hid'; apply find_iface_in; [apply W'|assumption]).
    destruct (iface_prio env h' i ii' C' Hf') as (o2 & Ho2 & Ha2 & _).
    assert (o2 = o').
    { pose proof (wc_ifids _ _ W') as N. subst c'. rewrite (iface_ids env h' C') in N. clear -N Ho2 Ho'. revert N Ho2 Ho'. induction (iface_calls h') as [|[j q] l IH]; intros N H1 H2; [destruct H1|].
      cbn in N. inversion N as [|? ? N1 N2]; subst. destruct H1 as [H1|H1], H2 as [H2|H2]; try congruence; try (apply IH; assumption).
      - injection H1 as -> ->. destruct N1. apply in_map_iff. exists (i, o'). auto.
      - injection H2 as -> ->. destruct N1. apply in_map_iff. exists (i, o2). auto. }
    subst o2. exists ii', o. repeat (split; [assumption|]). split; [|exact Ho]. unfold always in Hoo. congruence.
  Qed.
  Lemma history_jmore : jmore env c c'.
  Proof.
    split; [|exact name_more]. intros t i H. destruct (conc_type (deref_type t)) eqn:Et.
    - destruct i as [ci|ii].
      + destruct (conc_info t ci H Et) as (ci' & E & Hs). exists (TIConc ci'). split; assumption.
      + rewrite <- get_type_info_deref in H. rewrite get_type_info_conc in H by assumption. destruct (assoc _ _ _); [discriminate|]. destruct (new_type_info _ _); discriminate.
    - rewrite <- get_type_info_deref in H |- *. pose proof (deref_type_not_ptr t) as Hnp. generalize dependent (deref_type t). clear t. intros t H Et Hnp.
      destruct t as [| | | | | | | |j|]; try discriminate; [exfalso; eapply Hnp; reflexivity|].
      rewrite get_type_info_iface in H |- *. destruct (find_iface j (cd_ifaces c)) as [ii|] eqn:E; [|discriminate]. injection H as <-.
      destruct (face_more j ii E) as (ii' & o & -> & _ & _ & Hi & Hi' & _). exists (TIFace ii'). split; [reflexivity|]. cbn. congruence.
  Qed.

  Hypothesis F : fresh_prefixes env h h'.
  Definition regd (p : bytes) : Prop := exists ci, In ci (cd_concretes c) /\ ci_prefix ci = p.
  Lemma impls_same i ii ii' o p : In (i, o) (iface_calls h) -> In ii (cd_ifaces c) -> In ii' (cd_ifaces c') -> ii_id ii = i -> ii_id ii' = i ->
    regd p -> Permutation (impls_of ii p) (impls_of ii' p).
  Proof.
    intros Ho Hin Hin' Hi Hi' (ci & Hci & Hp).
    assert (N : forall c0, wf_codec env c0 -> NoDup (cd_concretes c0)) by (intros c0 W0; exact (NoDup_map_inv _ _ (wc_nodup _ _ W0))).
    rewrite (wc_impls _ _ W), (wc_impls _ _ W') by assumption.
    apply NoDup_Permutation; [apply NoDup_filter, N, W|apply NoDup_filter, N, W'|].
    intros a. rewrite !filter_In. unfold implements. rewrite Hi, Hi'. split; intros [Ha Hb]; (split; [|exact Hb]).
    - apply conc_more, Ha.
    - apply andb_true_iff in Hb. destruct Hb as [Hb1 Hb2]. apply beqb_eq in Hb2.
      apply (conc_in env h' C') in Ha. destruct Ha as (y & Hy & Ey). apply (conc_in env h C) in Hci. destruct Hci as (x & Hx & Ex).
      destruct (reg_call_parts env _ _ Ey) as (Y1 & _ & d' & p' & Y2 & _ & Y3). destruct (reg_call_parts env _ _ Ex) as (_ & _ & d & p'' & X2 & _ & X3).
      apply (conc_in env h C). exists y. split; [|exact Ey].
      apply (F i o x y d d' p Ho Hx Hy).
      + unfold implementer. rewrite <- Y1. exact Hb1.
      + replace p with p'' by congruence. exact X2.
      + replace p with p' by congruence. exact Y2.
  Qed.
  Lemma history_bmore : bmore env regd c c'.
  Proof.
    split; [|exact disfix_more|].
    - intros t i H. destruct (conc_type (deref_type t)) eqn:Et.
      + destruct i as [ci|ii].
        * destruct (conc_info t ci H Et) as (ci' & E & Hs). exists (TIConc ci'). split; assumption.
        * rewrite <- get_type_info_deref in H. rewrite get_type_info_conc in H by assumption. destruct (assoc _ _ _); [discriminate|]. destruct (new_type_info _ _); discriminate.
      + rewrite <- get_type_info_deref in H |- *. pose proof (deref_type_not_ptr t) as Hnp. generalize dependent (deref_type t). clear t. intros t H Et Hnp.
        destruct t as [| | | | | | | |j|]; try discriminate; [exfalso; eapply Hnp; reflexivity|].
        rewrite get_type_info_iface in H |- *. destruct (find_iface j (cd_ifaces c)) as [ii|] eqn:E; [|discriminate]. injection H as <-.
        destruct (face_more j ii E) as (ii' & o & -> & Hin & Hin' & Hi & Hi' & Ha & Ho). exists (TIFace ii'). split; [reflexivity|]. cbn [bsim].
        split; [congruence|exact Ha| |].
        * intros p Hp. apply Permutation_length. eapply impls_same; eassumption.
        * intros p ci Hp. rewrite <- Hp. symmetry. eapply impls_perm_prefix; [exact W|exact W'|assumption|assumption|]. eapply impls_same; try eassumption.
          exists ci. unfold type_info_from_prefix in Hp. destruct (assoc beqb p (ii_impls ii)) as [[|a [|]]|] eqn:Ea; try discriminate. injection Hp as ->.
          assert (X : In ci (impls_of ii p)) by (unfold impls_of; rewrite Ea; left; reflexivity). rewrite (wc_impls _ _ W) in X by assumption.
          apply filter_In in X. destruct X as [X1 X2]. split; [exact X1|]. apply andb_true_iff in X2. destruct X2 as [_ X2]. apply beqb_eq in X2. exact X2.
    - intros t ci r H Hr. exists ci. split; [|unfold ci_prefix; rewrite Hr; reflexivity].
      rewrite <- get_type_info_deref in H. destruct (conc_type (deref_type t)) eqn:Et.
      + rewrite get_type_info_conc in H by assumption. destruct (assoc _ _ _) as [a|] eqn:E.
        * injection H as ->. apply (wc_conc _ _ W). destruct (wc_types _ _ W _ _ E) as [-> _]. split; [exact E|congruence].
        * destruct (new_type_info _ _) as [a| | |] eqn:En; try discriminate. injection H as ->. destruct (new_type_info_spec _ _ _ En) as (_ & _ & X). congruence.
      + pose proof (deref_type_not_ptr t) as Hnp. destruct (deref_type t) as [| | | | | | | |j|]; try discriminate; [exfalso; eapply Hnp; reflexivity|].
        rewrite get_type_info_iface in H. destruct (find_iface _ _); discriminate.
  Qed.
End Histories.

Lemma history_top env h h' t : clean env new_codec h = true -> clean env new_codec h' = true -> more h h' -> not_added t h h' ->
  top_kept env (run env new_codec h) (run env new_codec h') t.
Proof.
  intros C C' M N ci ci' H H'. pose proof (wf_history _ _ C) as W. pose proof (wf_history _ _ C') as W'.
  destruct (conc_type (deref_type t)) eqn:Et.
  - destruct (conc_info env h h' C C' M t ci H Et) as (b & E & Hs). rewrite H' in E. injection E as <-.
    destruct (ci_reg ci) as [r|] eqn:Er; [symmetry; apply (cs_reg _ _ Hs), Er|]. destruct (ci_reg ci') as [r'|] eqn:Er'; [|reflexivity]. exfalso.
    assert (X : ci_type ci' = deref_type t /\ In ci' (cd_concretes (run env new_codec h'))).
    { rewrite <- get_type_info_deref in H'. rewrite get_type_info_conc in H' by assumption. destruct (assoc _ _ _) as [a|] eqn:E.
      - injection H' as ->. destruct (wc_types _ _ W' _ _ E) as [E1 _]. split; [exact E1|]. apply (wc_conc _ _ W'). rewrite E1. split; [exact E|congruence].
      - destruct (new_type_info _ _) as [a| | |] eqn:En; try discriminate. injection H' as ->. destruct (new_type_info_spec _ _ _ En) as (_ & _ & X). congruence. }
    destruct X as [X1 X2]. apply (conc_in env h' C') in X2. destruct X2 as (x & Hx & Ex). destruct (reg_call_parts env _ _ Ex) as (Y & _).
    assert (Hxh : In x (conc_calls h)) by (apply N; [exact Hx|congruence]).
    assert (Hc : In ci' (cd_concretes (run env new_codec h))) by (apply (conc_in env h C); exists x; auto).
    apply (wc_conc _ _ W) in Hc. destruct Hc as [Hc _]. rewrite X1 in Hc.
    rewrite <- get_type_info_deref in H. rewrite get_type_info_conc in H by assumption. rewrite Hc in H. injection H as ->. congruence.
  - rewrite <- get_type_info_deref in H. pose proof (deref_type_not_ptr t) as Hnp. destruct (deref_type t) as [| | | | | | | |j|]; try discriminate; [exfalso; eapply Hnp; reflexivity|].
    rewrite get_type_info_iface in H. destruct (find_iface _ _); discriminate.
Qed.

Lemma more_app h k : more h (h ++ k).
Proof.
  split.
  - intros x H. rewrite conc_app. apply in_or_app. left. exact H.
  - intros i o H. exists o. split; [|reflexivity]. rewrite iface_app. apply in_or_app. left. exact H.
Qed.
