(** Facts behind the Marshal/Unmarshal properties: supported types, pointers,
    values that are neither structs nor lists of structs. *)
From Coq Require Import ZArith String List Bool Lia.
From Coq Require Import ZifyBool ZifyNat.
From Verif Require Import Base Prims SpecWire PrimFacts PrimProps Types Codec BinEnc BinDec Amino FuelFacts DecFacts
  ValueInd Typing Registry SpecRegistry RegistryFacts Sane DecSafe SpecNorm EncFacts RoundTrip TopFacts SpecSupported SupportedFacts.
Import ListNotations.
Local Open Scope Z_scope.
Local Open Scope amino_scope.

Lemma supported_top env c mem k t v bz : wf_env env -> wf_codec env c -> sane_codec env c -> marshal_typed env -> supported env c mem ->
  mem (deref_type t) = true -> struct_like env (deref_type t) = true -> has_type env t v = true -> marshal_bare k env c t v = EOk bz ->
  exists w v', under v = Some w /\ norm k env c (deref_type t) top_opts w = Some v'.
Proof.
  intros We Hc Hs Hm Hsup Hmem Hsl Ht H. rewrite marshal_eq in H. destruct (under v) as [w|] eqn:Eu; [|discriminate].
  einv H. einv H. pose proof (gti_minfo _ _ _ _ Hs E) as Hi. rewrite (minfo_type _ _ _ _ Hi), Hsl in E0. cbn [negb] in E0.
  assert (N : norm k env c (deref_type t) top_opts w <> None).
  { eapply (supported_norm env We c Hc Hs Hm mem Hsup k a (deref_type t) w); try eassumption.
    - apply minfo_deref. exact Hi.
    - apply deref_idem.
    - eapply under_typed; eassumption.
    - intros ->. pose proof (under_typed _ We _ _ _ Ht Eu) as Hw. cbn [has_type] in Hw. unfold struct_like in Hsl.
      destruct (resolve env (deref_type t)) as [p| | | | | | | | | |]; try discriminate. }
  destruct (norm k env c (deref_type t) top_opts w) as [v'|] eqn:En; [|congruence].
  exists w, v'. auto.
Qed.

(** ** Pointers *)

Lemma under_idem v w : under v = Some w -> under w = Some w.
Proof. intros H. apply under_not_ptr in H. destruct w; try reflexivity. discriminate. Qed.

Lemma marshal_pointer k env c t v w : under v = Some w -> marshal_bare k env c t v = marshal_bare k env c (deref_type t) w.
Proof. intros H. rewrite !marshal_eq, H, (under_idem _ _ H), gti_deref. reflexivity. Qed.
Lemma marshal_nil k env c t v : under v = None -> exists p, marshal_bare k env c t v = EPanic p.
Proof. intros H. rewrite marshal_eq, H. eauto. Qed.

Lemma base_nonptr env t v : deref_type t = t -> base_of env t v = v.
Proof. intros H. pose proof (deref_is_ptr t) as P. rewrite H in P. destruct t; try reflexivity. discriminate. Qed.

Lemma decode_pointer k env c bz info t v0 o bare : is_iface (deref_type t) = false -> minfo env c info t ->
  decode_reflect k env c bz info t v0 o bare =
  dmap (ptrs t) (decode_reflect k env c bz info (deref_type t) (base_of env t v0) o bare).
Proof.
  intros Hif Hi. destruct k as [|k]; [reflexivity|]. cbn [decode_reflect].
  assert (C : exists ci, info = TIConc ci).
  { destruct info; [eauto|]. destruct Hi as [_ Hi]. rewrite Hi in Hif. discriminate. }
  destruct C as [ci ->]. rewrite (base_nonptr env (deref_type t)) by apply deref_idem.
  set (X := match ci with {| ci_unmarshal := Some _ |} => _ | _ => _ end). 
  assert (E : forall r, dmap (ptrs t) (dmap (rebuild (deref_type t)) r) = dmap (rebuild t) r).
  { intros [a n e| |]; cbn; try reflexivity. unfold rebuild. change wrap_ptrs with ptrs. rewrite (ptrs_nonptr (deref_type t)) by apply deref_idem. reflexivity. }
  rewrite E. reflexivity.
Qed.

(** What an Unmarshal into a pointer variable does, given what it does to the base. *)
Definition through (env : tenv) (t : gotype) (v0 : value) (r r' : ures) : Prop :=
  match r, r' with
  | URet v None, URet v' None => v' = ptrs t v
  | URet v (Some e), URet v' (Some e') => e' = e /\ (v' = ptrs t v \/ v' = v0 /\ v = base_of env t v0)
  | UPanic p, UPanic p' => p' = p
  | UFuel, UFuel => True
  | _, _ => False
  end.

Lemma unmarshal_pointer k env c bz t v0 : sane_codec env c -> is_iface (deref_type t) = false ->
  (is_ptr t = true -> is_list env (deref_type t) = true -> struct_like env (deref_type t) = true \/ under v0 = None) ->
  through env t v0 (unmarshal_bare k env c bz (deref_type t) (base_of env t v0)) (unmarshal_bare k env c bz t v0).
Proof.
  intros Hs Hif Hl. rewrite !unmarshal_eq, gti_deref.
  destruct (get_type_info env c t) as [info| | |] eqn:E; cbn [through]; auto.
  pose proof (gti_minfo _ _ _ _ Hs E) as Hi. cbv zeta.
  assert (B : forall b, through env t v0
    (um_body env (fun b bare => decode_reflect k env c b info (deref_type t) (base_of env t v0) top_opts bare) (ti_type info) (deref_type t) (base_of env t v0) b)
    (um_body env (fun b bare => decode_reflect k env c b info t v0 top_opts bare) (ti_type info) t v0 b)).
  { intros b. unfold um_body. rewrite (minfo_type _ _ _ _ Hi).
    assert (F : forall b r, through env t v0 (um_finish b r) (um_finish b (dmap (ptrs t) r))).
    { intros b' [v n [e|]| |]; cbn; auto. destruct (negb _); cbn; auto. }
    assert (K : forall x : bool, match t with TIface _ => false | _ => x end = match deref_type t with TIface _ => false | _ => x end).
    { intros x. destruct (deref_type t) eqn:Ed; try discriminate Hif; destruct t; try discriminate Ed; reflexivity. }
    assert (P : struct_like env (deref_type t) = true \/ is_pointer_to_struct env v0 t = is_pointer_to_struct env (base_of env t v0) (deref_type t) /\ is_pointer_to_struct env v0 t = EOk false).
    { destruct (struct_like env (deref_type t)) eqn:Esl; [auto|right].
      assert (Es : is_struct env (deref_type t) = false) by (unfold struct_like in Esl; unfold is_struct; destruct (resolve env (deref_type t)); try discriminate; reflexivity).
      unfold is_pointer_to_struct. rewrite deref_idem, Es, deref_is_ptr.
      destruct (is_ptr t) eqn:Ep; [|rewrite deref_nonptr in Es by assumption; rewrite Es; auto].
      assert (Es' : is_struct env t = false) by (destruct t; try discriminate Ep; reflexivity). rewrite Es', deref_pointers_under.
      destruct (under v0) eqn:Eu; cbn [negb].
      - change (is_list_kind env (deref_type t)) with (is_list env (deref_type t)). destruct (is_list env (deref_type t)); [|auto].
        destruct (Hl eq_refl eq_refl); congruence.
      - rewrite <- struct_like_eq, Esl. auto. }
    rewrite <- !struct_like_eq.
    assert (G : forall x : bool, through env t v0
      (if negb x && ((0 <? length b)%nat && match deref_type t with TIface _ => false | _ => true end && match resolve env (deref_type t) with RMap _ _ | RFunc => false | _ => true end) then
              match decode_field_key b with
              | DRet _ _ (Some e) => URet (base_of env t v0) (Some "could not decode field number and type"%string)
              | DRet (fnum, typ) nk None =>
                  if negb (fnum =? 1) then URet (base_of env t v0) (Some "expected field number: 1"%string)
                  else match type_to_typ3 env (deref_type t) no_opts with
                       | EOk tw =>
                           if negb (typ =? tw) then URet (base_of env t v0) (Some "expected field type"%string)
                           else if (length b <? nk)%nat then UPanic "impossible slide"%string
                           else um_finish (skipn nk b) (decode_reflect k env c (skipn nk b) info (deref_type t) (base_of env t v0) top_opts (negb (tw =? Typ3ByteLength)))
                       | EErr e => URet (base_of env t v0) (Some e)
                       | EPanic p => UPanic p
                       | EFuel => UFuel
                       end
              | DPanic p => UPanic p
              | DFuel => UFuel
              end
            else um_finish b (decode_reflect k env c b info (deref_type t) (base_of env t v0) top_opts true))
      (if negb x && ((0 <? length b)%nat && match t with TIface _ => false | _ => true end && match resolve env (deref_type t) with RMap _ _ | RFunc => false | _ => true end) then
              match decode_field_key b with
              | DRet _ _ (Some e) => URet v0 (Some "could not decode field number and type"%string)
              | DRet (fnum, typ) nk None =>
                  if negb (fnum =? 1) then URet v0 (Some "expected field number: 1"%string)
                  else match type_to_typ3 env (deref_type t) no_opts with
                       | EOk tw =>
                           if negb (typ =? tw) then URet v0 (Some "expected field type"%string)
                           else if (length b <? nk)%nat then UPanic "impossible slide"%string
                           else um_finish (skipn nk b) (decode_reflect k env c (skipn nk b) info t v0 top_opts (negb (tw =? Typ3ByteLength)))
                       | EErr e => URet v0 (Some e)
                       | EPanic p => UPanic p
                       | EFuel => UFuel
                       end
              | DPanic p => UPanic p
              | DFuel => UFuel
              end
            else um_finish b (decode_reflect k env c b info t v0 top_opts true))).
    { intros x. rewrite (K true). rewrite (decode_pointer _ _ _ b info t v0 _ _ Hif Hi).
      destruct (negb x && _); [|apply F].
      assert (R : forall e, through env t v0 (URet (base_of env t v0) (Some e)) (URet v0 (Some e))) by (intros e; cbn; auto).
      destruct (decode_field_key b) as [[fnum typ] nk [e|]| |]; [apply R| |reflexivity|exact I].
      destruct (negb (fnum =? 1)); [apply R|]. destruct (type_to_typ3 env (deref_type t) no_opts) as [tw| | |]; [|apply R|reflexivity|exact I].
      destruct (negb (typ =? tw)); [apply R|]. destruct (length b <? nk)%nat; [reflexivity|].
      rewrite (decode_pointer _ _ _ _ info t v0 _ _ Hif Hi). apply F. }
    destruct P as [P|[P1 P2]].
    - rewrite P. apply (G true).
    - rewrite <- P1, P2. destruct (struct_like env (deref_type t)); [apply (G true)|apply (G false)]. }
  destruct info as [ci|ii]; [|apply B]. destruct (ci_reg ci); [|apply B].
  destruct (length bz <? 4)%nat; cbn; auto. destruct (negb _); cbn; auto.
Qed.

