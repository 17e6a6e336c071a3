(** The decoder finishes: recursion depth (fuel) linear in the input. *)
From Coq Require Import ZArith String List Bool Lia.
From Verif Require Import Base Prims SpecWire PrimFacts PrimProps Types Codec BinEnc BinDec Amino DecFacts FuelFacts DecProps Registry RegistryFacts Sane.
Import ListNotations.
Local Open Scope Z_scope.

(** How far the decoder can go down without consuming a byte: through
    representation types, and from a struct into its list fields.  [chain env k t]
    says it ends within [k] steps.  It does not end if, say, a struct has a field
    of a list type whose representation type is that struct. *)
Fixpoint chain (env : tenv) (k : nat) (t : gotype) : Prop :=
  match k with
  | O => False
  | S k' =>
      match unmarshal_repr env t with
      | EOk (Some r) => chain env k' r
      | _ => match resolve env t with
             | RStruct fs => forall f, In f fs -> is_list_kind env (sf_type f) = true -> chain env k' (sf_type f)
             | _ => True
             end
      end
  end.

Lemma chain_mono env : forall k k' t, (k <= k')%nat -> chain env k t -> chain env k' t.
Proof.
  induction k as [|k IH]; intros k' t Hk; cbn [chain]; [contradiction|]. destruct k' as [|k']; [lia|].
  cbn [chain]. destruct (unmarshal_repr env t) as [[r|]| | |]; try (apply IH; lia);
    (destruct (resolve env t); auto; intros H f Hf Hl; apply (IH k'); [lia|apply H; assumption]).
Qed.

(** The same, as a test. *)
Fixpoint chainb (env : tenv) (k : nat) (t : gotype) : bool :=
  match k with
  | O => false
  | S k' =>
      match unmarshal_repr env t with
      | EOk (Some r) => chainb env k' r
      | _ => match resolve env t with
             | RStruct fs => forallb (fun f => negb (is_list_kind env (sf_type f)) || chainb env k' (sf_type f)) fs
             | _ => true
             end
      end
  end.
Lemma chainb_ok env : forall k t, chainb env k t = true -> chain env k t.
Proof.
  induction k as [|k IH]; intros t; cbn [chain chainb]; [discriminate|].
  destruct (unmarshal_repr env t) as [[r|]| | |]; try apply IH;
    (destruct (resolve env t); auto; rewrite forallb_forall; intros H f Hf Hl; specialize (H f Hf);
     rewrite Hl in H; apply IH; exact H).
Qed.

(** User code returns (or panics). *)
Definition env_returns (env : tenv) : Prop :=
  forall id r g v w, te_unmarshal env id = Some (UOk r g) -> g v w <> EFuel.

Definition live {A} (r : dres A) : Prop := r <> DFuel.

Lemma live_bind {A B} (r : dres A) (k : A -> nat -> option error -> dres B) :
  live r -> (forall a n e, r = DRet a n e -> live (k a n e)) -> live (dbind r k).
Proof. unfold live. destruct r; cbn; intros H1 H2; [apply H2; reflexivity|discriminate|congruence]. Qed.
Lemma live_slide {A} bz n (k : bytes -> dres A) : ((n <= length bz)%nat -> live (k (skipn n bz))) -> live (slide bz n k).
Proof. unfold slide, live. destruct (Nat.ltb_spec (length bz) n); [discriminate|auto]. Qed.
Lemma live_eget {A B} (r : eres A) kerr (k : A -> dres B) : r <> EFuel -> (forall e, live (kerr e)) ->
  (forall a, r = EOk a -> live (k a)) -> live (eget r kerr k).
Proof. unfold live. destruct r; cbn; intros H1 H2 H3; auto; try discriminate; congruence. Qed.
Lemma live_dmap {A B} (f : A -> B) r : live r -> live (dmap f r).
Proof. intros. apply live_bind; [assumption|]. discriminate. Qed.

Lemma typ3_nofuel env t o : type_to_typ3 env t o <> EFuel.
Proof.
  unfold type_to_typ3. destruct (resolve env t) as [[]| | | | | | | | | |]; try discriminate;
  try (destruct (fo_fixed64 o); discriminate); destruct (fo_fixed32 o); discriminate.
Qed.

Lemma live_prim p v0 bz o : live (decode_prim p v0 bz o).
Proof.
  unfold live. assert (S : forall A (r : dres A) f, (exists a n e, r = DRet a n e) -> (forall a, f a <> DFuel) -> set_scalar v0 bz r f <> DFuel).
  { intros A r f (a & n & e & ->) Hf. unfold set_scalar. cbn [dbind]. apply live_slide. intros _. destruct e; [discriminate|].
    apply live_bind; [apply Hf|discriminate]. }
  assert (U : forall A (d : bytes -> dres A), well_behaved d -> exists a n e, d bz = DRet a n e).
  { intros A d (H & _). destruct (H bz) as (a & n & e & E & _). eauto. }
  unfold decode_prim.
  destruct p; try destruct (fo_fixed64 o); try destruct (fo_fixed32 o);
      try (destruct (negb (fo_unsafe o)); [discriminate|]);
      (apply S;
       [apply U; first [apply wb_uvarint|apply wb_int8|apply wb_int16|apply wb_uint8|apply wb_uint16
            |apply wb_int32|apply wb_int64|apply wb_uint32|apply wb_uint64|apply wb_bool
            |apply wb_float32|apply wb_float64|apply wb_string]
       |intros a; try (destruct (_ || _)); discriminate]).
Qed.

Lemma parse_fields_in env : forall fs i num l f, parse_fields env fs i num = EOk l -> In f l ->
  exists sf, In sf fs /\ fi_type f = sf_type sf /\ fi_name f = sf_name sf /\
    (exists o, parse_field_options sf = Some o /\ unpacked_list env (sf_type sf) o = EOk (fi_unpacked f)).
Proof.
  induction fs as [|sf fs IH]; intros i num l f; cbn [parse_fields].
  - intros H. inversion H. contradiction.
  - assert (R : forall i num l, parse_fields env fs i num = EOk l -> In f l ->
       exists sf', In sf' (sf :: fs) /\ fi_type f = sf_type sf' /\ fi_name f = sf_name sf' /\
       (exists o, parse_field_options sf' = Some o /\ unpacked_list env (sf_type sf') o = EOk (fi_unpacked f))).
    { intros i' n' l' H1 H2. destruct (IH _ _ _ _ H1 H2) as (sf' & H3 & H4). exists sf'. split; [right; assumption|assumption]. }
    destruct (negb (sf_exported sf)); [apply R|]. destruct (parse_field_options sf) as [o|] eqn:Eo; [|apply R].
    unfold ebind. destruct (unpacked_list env (sf_type sf) o) as [up| | |] eqn:Eu; try discriminate.
    destruct (check_unsafe _ _ _); try discriminate.
    destruct (parse_fields env fs (S i) (S num)) as [rest| | |] eqn:Er; try discriminate.
    intros H; inversion H; subst; clear H. intros [<-|Hin].
    + exists sf. cbn. splits; try reflexivity; [left; reflexivity|]. exists o. split; assumption.
    + eapply R; eassumption.
Qed.

Lemma unpacked_is_list env t o : unpacked_list env t o = EOk true -> is_list_kind env t = true.
Proof. unfold unpacked_list, is_list_kind. destruct (resolve env t); try discriminate; reflexivity. Qed.

Section Term.
  Variable env : tenv.
  Variable c : codec.
  Variable R : nat.
  Hypothesis Hsane : sane_codec env c.
  Hypothesis Hmsg : env_msgs env.
  Hypothesis Hret : env_returns env.
  Hypothesis HR : forall t, chain env R t.

  Definition info_known (info : tinfo) : Prop :=
    match info with TIConc ci => info_ok env ci | TIFace ii => In ii (cd_ifaces c) end.

  Lemma known_get t info : get_type_info env c t = EOk info -> info_known info.
  Proof.
    destruct info as [ci|ii]; intros H; cbn [info_known].
    - eapply get_type_info_sane; eassumption.
    - eapply get_type_info_iface_sane; eassumption.
  Qed.

  Definition weight (len : nat) (bare : bool) (k : nat) : nat :=
    (len * (2 * R + 3) + (if bare then R + 1 else 0) + k)%nat.

  Variable fuel : nat.
  Variable rec : bytes -> tinfo -> gotype -> value -> fopts -> bool -> dres value.
  Hypothesis Hgood : forall bz info t v0 o bare, bytes_ok bz -> good bare bz (rec bz info t v0 o bare).
  Hypothesis Hlive : forall bz info t v0 o bare k, bytes_ok bz -> info_known info -> chain env k (ti_type info) ->
    (weight (length bz) bare k <= fuel)%nat -> live (rec bz info t v0 o bare).

  Lemma good_ret {bz info t v0 o bare v n e} : bytes_ok bz -> rec bz info t v0 o bare = DRet v n e ->
    (n <= length bz)%nat /\ (e = None -> bare = false -> bz <> [] -> (1 <= n)%nat).
  Proof. intros Hok E. pose proof (Hgood bz info t v0 o bare Hok) as G. rewrite E in G. exact G. Qed.

  (** Calls on at most [len] bytes with [bare = false], or on fewer, are live. *)
  Definition room (len : nat) : Prop := (weight len false R <= fuel)%nat.
  Lemma live_at bz info t v0 o : bytes_ok bz -> info_known info -> room (length bz) -> live (rec bz info t v0 o false).
  Proof. intros H1 H2 H3. apply (Hlive _ _ _ _ _ _ R); auto. Qed.
  Lemma live_below bz info t v0 o bare len : bytes_ok bz -> info_known info -> room len -> (length bz < len)%nat ->
    live (rec bz info t v0 o bare).
  Proof.
    intros H1 H2 H3 H4. apply (Hlive _ _ _ _ _ _ R); auto. unfold room, weight in *.
    assert ((length bz + 1) * (2 * R + 3) <= len * (2 * R + 3))%nat by (apply Nat.mul_le_mono_r; lia).
    destruct bare; lia.
  Qed.
  Lemma room_le a b : (a <= b)%nat -> room b -> room a.
  Proof. unfold room, weight. intros H. assert (a * (2 * R + 3) <= b * (2 * R + 3))%nat by (apply Nat.mul_le_mono_r; lia). lia. Qed.

  Lemma live_enter {A} (v0 : A) bare bz k : bytes_ok bz ->
    (forall b n0, bytes_ok b -> (bare = true -> b = bz) -> (bare = false -> (length b < length bz)%nat) -> live (k b n0)) ->
    live (enter v0 bare bz k).
  Proof.
    intros Hok Hk. unfold enter. destruct bare; [apply Hk; auto; discriminate|].
    destruct (decode_byte_slice_ret bz) as (b & n & e & E & Hn). rewrite E. cbn [dbind].
    apply live_slide. intros _. destruct e; [discriminate|]. apply byte_slice_frame in E; [|assumption].
    apply Hk; try tauto; discriminate.
  Qed.

  Lemma live_set_iface ii ci v k : (forall w, live (k w)) -> live (set_iface env ii ci v k).
  Proof.
    intros Hk. unfold set_iface. destruct (match ci_reg ci with Some r => ri_ptr r | None => false end);
    destruct (te_impl env _ _); try apply Hk; discriminate.
  Qed.

  Ltac fin := solve [discriminate | unfold live; discriminate].

  (** Room inside the frame (or the whole input when bare). *)
  Definition froom (bare : bool) (bz : bytes) : Prop :=
    if bare then room (length bz) else (weight (length bz) false 0 <= fuel)%nat.
  Lemma froom_in bare bz b : froom bare bz -> (bare = true -> b = bz) -> (bare = false -> (length b < length bz)%nat) ->
    room (length b).
  Proof.
    unfold froom. destruct bare; intros H H1 H2; [rewrite H1 by reflexivity; assumption|]. specialize (H2 eq_refl).
    unfold room, weight in *. assert ((length b + 1) * (2 * R + 3) <= length bz * (2 * R + 3))%nat by (apply Nat.mul_le_mono_r; lia). lia.
  Qed.

  Lemma live_interface bz ii v0 o bare : bytes_ok bz -> In ii (cd_ifaces c) -> froom bare bz ->
    live (decode_interface env c rec bz ii v0 o bare).
  Proof.
    intros Hok Hii Hr. unfold decode_interface. destruct v0 as [| | | | | | | | | |[v|]| | | |]; try fin.
    apply live_enter; [assumption|]. intros b n0 Hb H1 H2.
    pose proof (froom_in _ _ _ Hr H1 H2) as Hrb.
    destruct (disamb_ret b) as (dp & n1 & e & E & Hn1 & Hn4). rewrite E. cbn [dbind].
    apply live_slide. intros _. destruct e as [e|]; [fin|]. specialize (Hn4 eq_refl).
    apply live_eget; [|intros; fin|].
    { destruct (fst dp); [unfold type_info_from_disfix; destruct (assoc _ _ _); fin|].
      unfold type_info_from_prefix. destruct (assoc _ _ _) as [[|? []]|]; fin. }
    intros ci Hci. cbv zeta.
    assert (Hk : info_ok env ci).
    { destruct (fst dp).
      - unfold type_info_from_disfix in Hci. destruct (assoc _ _ _) eqn:Ea; [|discriminate].
        inversion Hci; subst. apply (sa_disfix _ _ Hsane) in Ea. apply Ea.
      - unfold type_info_from_prefix in Hci. destruct (assoc beqb (snd dp) (ii_impls ii)) as [l|] eqn:Ea; [|discriminate].
        apply assoc_map_in in Ea. destruct l as [|x [|]]; try discriminate. inversion Hci; subst.
        apply (sa_impls _ _ Hsane ii Hii _ _ _ Ea (or_introl eq_refl)). }
    assert (Hgo : forall bz2 n2, bytes_ok bz2 -> (length bz2 < length b)%nat -> live
       (dbind (rec bz2 (TIConc ci) (ci_type ci) (zero env (ci_type ci)) o true) (fun v n3 e =>
              slide bz2 n3 (fun bz3 =>
              let n3 := (n2 + n3)%nat in
              match e with
              | Some e => set_iface env ii ci v (fun r => DRet r n3 (Some e))
              | None =>
                  match bz3 with
                  | _ :: _ => DRet (VIface None) n3 (Some "bytes left over after reading interface contents"%string)
                  | [] => set_iface env ii ci v (fun r => DRet r n3 None)
                  end
              end)))).
    { intros bz2 n2 Hok2 Hl2. apply live_bind; [apply (live_below _ _ _ _ _ _ (length b)); assumption|].
      intros v n e _. apply live_slide. intros _. cbv zeta.
      destruct e as [e|]; [apply live_set_iface; intros; fin|].
      destruct (skipn n bz2); [apply live_set_iface; intros; fin | fin]. }
    destruct (wants_key env ci (skipn n1 b) o).
    - destruct (key_ret (skipn n1 b)) as (kt & nk & e & Ek & Hnk & _). rewrite Ek. cbn [dbind]. rewrite length_skipn in Hnk.
      destruct e as [e|]; [fin|]. destruct (negb _); [fin|].
      apply live_eget; [apply typ3_nofuel|intros; fin|]. intros tw _.
      destruct (negb _); [fin|]. apply live_slide. intros _. apply Hgo.
      + do 2 apply bytes_ok_skipn. assumption.
      + rewrite !length_skipn. lia.
    - apply Hgo; [apply bytes_ok_skipn; assumption | rewrite length_skipn; lia].
  Qed.

  Lemma live_byte_array bz len ert v0 : live (decode_byte_array bz len ert v0).
  Proof.
    unfold decode_byte_array. destruct (_ <? _)%nat; [fin|].
    destruct (decode_byte_slice_ret bz) as (b & n & e & E & Hn). rewrite E. cbn [dbind]. apply live_slide. intros _.
    destruct e; [fin|]. destruct (negb _); [fin|]. destruct (gotype_eqb _ _); fin.
  Qed.

  Lemma live_byte_slice_val bz ert v0 : live (decode_byte_slice_val bz ert v0).
  Proof.
    unfold decode_byte_slice_val. destruct bz as [|b0 bz]; [fin|].
    destruct (decode_byte_slice_ret (b0 :: bz)) as (b & n & e & E & Hn). rewrite E. cbn [dbind]. apply live_slide. intros _.
    destruct e; [fin|]. destruct b; [fin|]. destruct (gotype_eqb _ _); fin.
  Qed.

  Lemma live_array_packed einfo ert o : info_known einfo -> forall todo bz n done, bytes_ok bz -> room (length bz) ->
    live (decode_array_packed env rec bz n einfo ert o done todo).
  Proof.
    intros He. induction todo as [|w0 todo IH]; intros bz n done Hok Hr; cbn [decode_array_packed]; [fin|].
    apply live_bind; [apply live_at; assumption|]. intros w k e _. apply live_slide. intros Hk.
    destruct e as [e|]; [fin|]. apply IH; [apply bytes_ok_skipn; assumption|].
    apply (room_le _ (length bz)); [rewrite length_skipn; lia|assumption].
  Qed.

  Lemma live_array_unpacked einfo ert o : info_known einfo -> forall todo bz n done, bytes_ok bz -> room (length bz) ->
    live (decode_array_unpacked env rec bz n einfo ert o done todo).
  Proof.
    intros He. induction todo as [|w0 todo IH]; intros bz n done Hok Hr; cbn [decode_array_unpacked]; [fin|].
    destruct (key_ret bz) as (kt & k & e & E & Hk & _). rewrite E. cbn [dbind].
    destruct (negb _); [fin|]. destruct (negb _); [fin|]. apply live_slide. intros _. cbv zeta.
    destruct e as [e|]; [fin|]. assert (Hok1 := bytes_ok_skipn k bz Hok).
    assert (Hr1 : room (length (skipn k bz))) by (apply (room_le _ (length bz)); [rewrite length_skipn; lia|assumption]).
    destruct (skip_empty _ _ _ _ _).
    - apply IH; [apply bytes_ok_skipn; assumption|].
      apply (room_le _ (length (skipn k bz))); [rewrite length_skipn; lia|assumption].
    - apply live_bind; [apply live_at; assumption|]. intros w k2 e _. apply live_slide. intros _.
      destruct e as [e|]; [fin|]. apply IH; [apply bytes_ok_skipn; assumption|].
      apply (room_le _ (length (skipn k bz))); [rewrite (length_skipn k2); lia|assumption].
  Qed.

  Lemma live_array bz ert v0 o bare : bytes_ok bz -> froom bare bz -> live (decode_array env c rec bz ert v0 o bare).
  Proof.
    intros Hok Hr. unfold decode_array. destruct (is_uint8 env ert); [fin|]. destruct v0; try fin.
    apply live_eget; [apply get_type_info_nofuel|intros; fin|]. intros einfo Hi. apply known_get in Hi.
    apply live_enter; [assumption|]. intros b n0 Hb H1 H2. pose proof (froom_in _ _ _ Hr H1 H2) as Hrb.
    apply live_eget; [apply typ3_nofuel|intros; fin|]. intros typ3 _. destruct (negb _).
    - apply live_bind; [apply live_array_packed; assumption|]. intros [l' bz'] n e _. destruct e; [fin|]. destruct bz'; fin.
    - apply live_bind; [apply live_array_unpacked; assumption|]. intros [l' bz'] n e _. destruct e; [fin|].
      destruct bz' as [|x bz']; [fin|].
      destruct (key_ret (x :: bz')) as (kt & k & e & E & Hk & _). rewrite E. cbn [dbind].
      destruct e; [fin|]. destruct (_ <=? _); fin.
  Qed.

  Lemma live_slice_packed einfo ert o : info_known einfo -> forall k bz n done, bytes_ok bz -> (length bz <= k)%nat ->
    room (length bz) -> live (decode_slice_packed env rec k bz n einfo ert o done).
  Proof.
    intros He. induction k as [|k IH]; intros bz n done Hok Hk Hr; destruct bz as [|b0 bz']; cbn [decode_slice_packed];
      try fin; [cbn in Hk; lia|]. set (bz := b0 :: bz') in *.
    apply live_bind; [apply live_at; assumption|]. intros w m e E. apply (good_ret Hok) in E. destruct E as [Em Ep].
    apply live_slide. intros _. destruct e as [e|]; [fin|].
    assert (1 <= m)%nat by (apply Ep; [reflexivity|reflexivity|discriminate]).
    apply IH; [apply bytes_ok_skipn; assumption|rewrite length_skipn; lia|].
    apply (room_le _ (length bz)); [rewrite length_skipn; lia|assumption].
  Qed.

  Lemma live_slice_unpacked einfo ert o : info_known einfo -> forall k bz n done, bytes_ok bz -> (length bz <= k)%nat ->
    room (length bz) -> live (decode_slice_unpacked env rec k bz n einfo ert o done).
  Proof.
    intros He. induction k as [|k IH]; intros bz n done Hok Hk Hr; destruct bz as [|b0 bz']; cbn [decode_slice_unpacked];
      try fin; [cbn in Hk; lia|]. set (bz := b0 :: bz') in *.
    destruct (key_ret bz) as (kt & m & e & E & Hm & Hp). rewrite E. cbn [dbind].
    destruct (_ <? _); [fin|]. destruct (_ <? _); [fin|]. destruct (negb _); [fin|].
    apply live_slide. intros _. cbv zeta. destruct e as [e|]; [fin|]. specialize (Hp eq_refl).
    assert (Hok1 := bytes_ok_skipn m bz Hok). assert (Hl1 := length_skipn m bz).
    assert (Hr1 : room (length (skipn m bz))) by (apply (room_le _ (length bz)); [rewrite length_skipn; lia|assumption]).
    destruct (skip_empty _ _ _ _ _).
    - apply IH; [apply bytes_ok_skipn; assumption|rewrite length_skipn; lia|].
      apply (room_le _ (length (skipn m bz))); [rewrite length_skipn; lia|assumption].
    - apply live_bind; [apply live_at; assumption|]. intros w k2 e _. apply live_slide. intros _.
      destruct e as [e|]; [fin|]. apply IH; [apply bytes_ok_skipn; assumption|rewrite (length_skipn k2); lia|].
      apply (room_le _ (length (skipn m bz))); [rewrite (length_skipn k2); lia|assumption].
  Qed.

  Lemma live_slice bz ert v0 o bare : bytes_ok bz -> froom bare bz -> live (decode_slice env c rec bz ert v0 o bare).
  Proof.
    intros Hok Hr. unfold decode_slice. destruct (is_uint8 env ert); [fin|].
    apply live_eget; [apply get_type_info_nofuel|intros; fin|]. intros einfo Hi. apply known_get in Hi.
    apply live_enter; [assumption|]. intros b n0 Hb H1 H2. pose proof (froom_in _ _ _ Hr H1 H2) as Hrb.
    apply live_eget; [apply typ3_nofuel|intros; fin|]. intros typ3 _.
    apply live_bind; [destruct (negb _); [apply live_slice_packed|apply live_slice_unpacked]; auto|].
    intros l n e _. destruct e; fin.
  Qed.

  (** A field of a struct decoded from at most [len] bytes; unpacked list fields
      get all of them. *)
  Lemma live_field f l bz last n k : bytes_ok bz -> room (length bz) ->
    (fi_unpacked f = true -> chain env k (fi_type f) /\ deref_type (fi_type f) = fi_type f /\ (weight (length bz) true k <= fuel)%nat) ->
    live (decode_field env c rec f l bz last n).
  Proof.
    intros Hok Hr Hu. unfold decode_field. cbv zeta.
    apply live_eget; [apply get_type_info_nofuel|intros; fin|]. intros info Hi. pose proof (known_get _ _ Hi) as Hk.
    destruct bz as [|b0 bz']; [fin|]. set (bz := b0 :: bz') in *.
    destruct (fi_unpacked f).
    - destruct (Hu eq_refl) as (Hc & Hd & Hw). apply live_bind; [|intros; apply live_slide; intros; fin].
      apply (Hlive _ _ _ _ _ _ k); try assumption.
      destruct info as [ci|ii]; cbn [ti_type].
      + destruct (get_type_info_sane _ _ _ _ Hsane Hi) as [-> _]. rewrite Hd. assumption.
      + destruct (get_type_info_iface_sane _ _ _ _ Hi) as [_ E]. rewrite <- E, Hd. assumption.
    - destruct (key_ret bz) as ([fnum typ] & m & e & E & Hm & Hp). rewrite E. cbn [dbind].
      destruct (_ <? _); [fin|]. destruct (_ <=? _); [fin|]. apply live_slide. intros _. cbv zeta.
      destruct e as [e|]; [fin|]. destruct (negb _); [fin|].
      apply live_eget; [apply typ3_nofuel|intros; fin|]. intros tw _. destruct (negb _); [fin|].
      apply live_bind; [|intros; apply live_slide; intros; fin].
      apply live_at; [apply bytes_ok_skipn; assumption|assumption|].
      apply (room_le _ (length bz)); [rewrite length_skipn; lia|assumption].
  Qed.

  Lemma live_fields k : forall fs l bz last n, bytes_ok bz -> room (length bz) ->
    (forall f, In f fs -> fi_unpacked f = true -> chain env k (fi_type f) /\ deref_type (fi_type f) = fi_type f) ->
    ((exists f, In f fs /\ fi_unpacked f = true) -> (weight (length bz) true k <= fuel)%nat) ->
    live (decode_fields env c rec fs l bz last n).
  Proof.
    induction fs as [|f fs IH]; intros l bz last n Hok Hr Hf Hw; cbn [decode_fields]; [fin|].
    apply live_bind.
    - apply (live_field _ _ _ _ _ k); try assumption. intros Hu. destruct (Hf f (or_introl eq_refl) Hu). splits; try assumption.
      apply Hw. exists f. split; [left; reflexivity|assumption].
    - intros [[l' bz'] last'] n' e E. destruct e as [e|]; [fin|].
      pose proof (good_field env Hmsg c rec Hgood f l bz last n Hok) as G. rewrite E in G. cbn in G. destruct G as (G1 & G2 & G3).
      apply IH; try assumption.
      + apply (room_le _ (length bz)); [lia|assumption].
      + intros f' Hin. apply Hf. right; assumption.
      + intros (f' & Hin & Hu). assert (weight (length bz) true k <= fuel)%nat by (apply Hw; exists f'; split; [right; assumption|assumption]).
        unfold weight in *. assert (length bz' * (2 * R + 3) <= length bz * (2 * R + 3))%nat by (apply Nat.mul_le_mono_r; lia). lia.
  Qed.

  Lemma live_consume_rest : forall k bz last n, bytes_ok bz -> (length bz <= k)%nat -> live (consume_rest k bz last n).
  Proof.
    induction k as [|k IH]; intros bz last n Hok Hk; destruct bz as [|b0 bz']; cbn [consume_rest]; try fin; [cbn in Hk; lia|].
    set (bz := b0 :: bz') in *.
    destruct (key_ret bz) as ([fnum typ] & m & e & E & Hm & Hp). rewrite E. cbn [dbind fst snd].
    apply live_slide. intros _. cbv zeta. destruct e as [e|]; [fin|]. specialize (Hp eq_refl). destruct (_ <=? _); [fin|].
    destruct (consume_any_ret typ (skipn m bz)) as (m2 & e & E2 & Hm2 & _). rewrite E2. cbn [dbind].
    apply live_slide. intros _. destruct e as [e|]; [fin|].
    apply IH; [do 2 apply bytes_ok_skipn; assumption|rewrite !length_skipn; lia].
  Qed.

  Lemma live_struct bz ci v0 bare k : bytes_ok bz -> froom bare bz -> info_ok env ci ->
    ci_unmarshal ci = None -> chain env (S k) (ci_type ci) -> (bare = true -> (weight (length bz) true k <= fuel)%nat) ->
    live (decode_struct env c rec bz ci v0 bare).
  Proof.
    intros Hok Hr Hci Hum Hch Hw. unfold decode_struct. apply live_enter; [assumption|]. intros b n0 Hb H1 H2.
    pose proof (froom_in _ _ _ Hr H1 H2) as Hrb.
    destruct (info_ok_parts _ _ Hci) as (_ & Hfs & _ & Hu). rewrite Hum in Hu.
    cbn [chain] in Hch. rewrite Hu in Hch. unfold parse_struct_info in Hfs.
    destruct (resolve env (ci_type ci)) as [| | | | | | | | |fs|]; try fin.
    - destruct (decode_time_ret b Hb) as (s & ns & n & e & E & Hn & _). rewrite E. cbn [dbind].
      apply live_slide. intros _. destruct e; fin.
    - destruct v0; try fin.
      assert (Hfl : forall k', (forall t, chain env k' t) \/ k' = k -> forall f, In f (ci_fields ci) -> fi_unpacked f = true ->
                chain env k' (fi_type f) /\ deref_type (fi_type f) = fi_type f).
      { intros k' Hk' f Hin Hup. destruct (parse_fields_in _ _ _ _ _ _ Hfs Hin) as (sf & Hsf & -> & _ & o & _ & Ho).
        rewrite Hup in Ho. apply unpacked_is_list in Ho. split.
        - destruct Hk' as [Hk'| ->]; [apply Hk'|apply Hch; assumption].
        - unfold is_list_kind in Ho. destruct (sf_type sf); try reflexivity. discriminate. }
      apply live_bind.
      + destruct bare.
        * rewrite (H1 eq_refl) in *. apply (live_fields k); try assumption; [apply Hfl; right; reflexivity|]. intros _. apply Hw. reflexivity.
        * assert (Hlt := H2 eq_refl). apply (live_fields R); try assumption; [apply Hfl; left; apply HR|]. intros _.
          unfold froom, weight in *.
          assert ((length b + 1) * (2 * R + 3) <= length bz * (2 * R + 3))%nat by (apply Nat.mul_le_mono_r; lia). lia.
      + intros [[l' bz'] last'] n' e E. destruct e as [e|]; [fin|].
        pose proof (good_fields env Hmsg c rec Hgood (ci_fields ci) l b 0 n0 Hb) as G. rewrite E in G. cbn in G. destruct G as (G1 & G2 & G3).
        apply live_bind; [|intros; fin]. apply live_consume_rest; auto.
  Qed.

  Lemma live_switch bz info v0 o bare k : bytes_ok bz -> info_known info ->
    match info with TIConc ci => ci_unmarshal ci = None | _ => True end ->
    chain env (S k) (ti_type info) -> (weight (length bz) bare (S k) <= S fuel)%nat ->
    live (decode_switch env c rec bz info v0 o bare).
  Proof.
    intros Hok Hi Hu Hch Hw. unfold decode_switch.
    assert (Hr : froom bare bz) by (unfold froom, room, weight in *; destruct bare; lia).
    assert (Hs : forall ci, info = TIConc ci -> live (decode_struct env c rec bz ci v0 bare)).
    { intros ci ->. apply (live_struct _ _ _ _ k); try assumption. intros ->. unfold weight in *. lia. }
    destruct (resolve env (ti_type info)); try fin.
    - apply live_prim.
    - destruct info; [apply Hs; reflexivity|fin].
    - destruct (is_uint8 env e); [apply live_byte_array | apply live_array; assumption].
    - destruct (is_uint8 env e); [apply live_byte_slice_val | apply live_slice; assumption].
    - destruct info; [fin | apply live_interface; assumption].
    - destruct info; [apply Hs; reflexivity|fin].
  Qed.
End Term.

Theorem decode_live env c R : sane_codec env c -> env_msgs env -> env_returns env -> (forall t, chain env R t) ->
  forall fuel bz info t v0 o bare k, bytes_ok bz -> info_known env c info -> chain env k (ti_type info) ->
  (weight R (length bz) bare k <= fuel)%nat -> live (decode_reflect fuel env c bz info t v0 o bare).
Proof.
  intros Hsane Hmsg Hret HR. induction fuel as [|fuel IH]; intros bz info t v0 o bare k Hok Hi Hch Hw.
  - destruct k; [contradiction|]. unfold weight in Hw. lia.
  - destruct k as [|k]; [contradiction|]. cbn [decode_reflect].
    assert (Hg : forall bz info t v0 o bare, bytes_ok bz -> good bare bz (decode_reflect fuel env c bz info t v0 o bare))
      by (intros; apply decode_good; assumption).
    assert (G : live (dmap (rebuild t)
            (let w0 := base_of env t v0 in
             match info with
             | TIConc {| ci_type := ct; ci_unmarshal := Some r |} =>
                 eget (get_type_info env c r) (fun e => DRet w0 0 (Some e)) (fun rinfo =>
                 dbind (decode_reflect fuel env c bz rinfo r (zero env r) o bare) (fun rv n e =>
                 slide bz n (fun _ =>
                 match e with
                 | Some e => DRet w0 n (Some e)
                 | None => eget (from_repr env ct w0 rv) (fun e => DRet w0 n (Some e))
                                (fun r => DRet (fst r) n (snd r))
                 end)))
             | _ => decode_switch env c (decode_reflect fuel env c) bz info w0 o bare
             end))).
    { apply live_dmap. cbv zeta.
      assert (Sw : match info with TIConc ci => ci_unmarshal ci = None | _ => True end ->
                   live (decode_switch env c (decode_reflect fuel env c) bz info (base_of env t v0) o bare)).
      { intros Hu. apply (live_switch env c R Hsane Hmsg HR fuel _ Hg IH _ _ _ _ _ k); assumption. }
      destruct info as [[ct fs m [r|] rg]|ii]; try (apply Sw; cbn; auto; fail).
      clear Sw. cbn [info_known] in Hi. destruct (info_ok_parts _ _ Hi) as (_ & _ & _ & Hu). cbn [ci_type ci_unmarshal] in Hu.
      cbn [chain ti_type ci_type] in Hch. rewrite Hu in Hch.
      apply live_eget; [apply get_type_info_nofuel|intros; discriminate|]. intros rinfo Hr.
      assert (Hty : ti_type rinfo = r).
      { assert (Hd : deref_type r = r).
        { destruct ct; try discriminate Hu. cbn [unmarshal_repr] in Hu. destruct (te_unmarshal env id) as [[|rr g]|]; try discriminate.
          destruct rr; inversion Hu; reflexivity. }
        destruct rinfo as [ci|ii]; cbn [ti_type].
        - destruct (get_type_info_sane _ _ _ _ Hsane Hr) as [-> _]. exact Hd.
        - destruct (get_type_info_iface_sane _ _ _ _ Hr) as [_ E]. congruence. }
      apply live_bind.
      { apply (IH _ _ _ _ _ _ k); [assumption|apply (known_get env c Hsane _ _ Hr)|rewrite Hty; assumption|unfold weight in *; lia]. }
      intros rv n e _. apply live_slide. intros _. destruct e; [discriminate|].
      apply live_eget; [|intros; discriminate|intros; discriminate].
      unfold from_repr. destruct ct; try discriminate. destruct (te_unmarshal env id) as [[|rr g]|] eqn:E; try discriminate.
      eapply Hret; eassumption. }
    destruct info, t; try exact G; discriminate.
Qed.

(** ** Whole calls *)

Definition depth_bound (R len : nat) : nat := (len * (2 * R + 3) + 2 * R + 1)%nat.

Lemma unmarshal_live env c R : sane_codec env c -> env_msgs env -> env_returns env -> (forall t, chain env R t) ->
  forall fuel bz t v0, bytes_ok bz -> (depth_bound R (length bz) <= fuel)%nat ->
  unmarshal_bare fuel env c bz t v0 <> UFuel.
Proof.
  intros Hsane Hmsg Hret HR fuel bz t v0 Hok Hf E.
  pose proof (unmarshal_spec (fun _ _ => True) (fun _ => True) False fuel env c bz t v0) as U. rewrite E in U. apply U; auto.
  intros info k bare Hi Hk.
  pose proof (decode_live env c R Hsane Hmsg Hret HR fuel (skipn k bz) info t v0 (set_num 1 no_opts) bare R
    (bytes_ok_skipn k bz Hok) (known_get env c Hsane _ _ Hi) (HR _)) as L.
  destruct (decode_reflect fuel env c (skipn k bz) info t v0 (set_num 1 no_opts) bare); cbn; auto. apply L; [|reflexivity].
  unfold weight, depth_bound in *. rewrite skipn_length.
  assert ((length bz - k) * (2 * R + 3) <= length bz * (2 * R + 3))%nat by (apply Nat.mul_le_mono_r; lia). destruct bare; lia.
Qed.

Lemma unmarshal_length_live env c R : sane_codec env c -> env_msgs env -> env_returns env -> (forall t, chain env R t) ->
  forall fuel bz t v0, bytes_ok bz -> (depth_bound R (length bz) <= fuel)%nat ->
  unmarshal_length_prefixed fuel env c bz t v0 <> UFuel.
Proof.
  intros Hsane Hmsg Hret HR fuel bz t v0 Hok Hf. unfold unmarshal_length_prefixed. destruct bz as [|b bz]; [discriminate|].
  destruct (uvarint (b :: bz)) as [u n]. destruct (n <? 0); [discriminate|].
  destruct (_ <? u); [discriminate|]. destruct (u <? _); [discriminate|].
  apply (unmarshal_live env c R); try assumption; [apply bytes_ok_skipn; assumption|].
  unfold depth_bound in *. rewrite skipn_length.
  assert ((length (b :: bz) - Z.to_nat n) * (2 * R + 3) <= length (b :: bz) * (2 * R + 3))%nat by (apply Nat.mul_le_mono_r; lia). lia.
Qed.
