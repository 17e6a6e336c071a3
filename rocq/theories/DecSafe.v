(** The decoder keeps its target well typed and does not panic, whatever the bytes. *)
From Coq Require Import ZArith String List Bool Lia.
From Coq Require Import ZifyBool ZifyNat.
From Verif Require Import Base Prims SpecWire PrimFacts PrimProps Types Codec BinEnc BinDec Amino DecFacts FuelFacts DecProps
  ValueInd Typing Registry SpecRegistry RegistryFacts Sane.
Import ListNotations.
Local Open Scope Z_scope.

(** ** Supported types *)

(** [sup] is a set of non-pointer types closed under what the decoder visits. *)
Definition use (sup : gotype -> Prop) (t : gotype) : Prop :=
  sup (deref_type t) /\ (is_ptr t = true -> forall i, deref_type t <> TIface i).
Definition elem_ok (env : tenv) (sup : gotype -> Prop) (e : gotype) : Prop :=
  if is_uint8 env e then e = TPrim PUint8 else use sup e.
(** UnmarshalAmino gives a value of the type or an error, and does not panic. *)
Definition unmarshal_ok (env : tenv) (t : gotype) (r : gotype) : Prop :=
  forall v w, has_type env t v = true -> has_type env r w = true ->
  match from_repr env t v w with
  | EOk (v', _) => has_type env t v' = true
  | EPanic _ => False
  | _ => True
  end.
Definition sup_ok (env : tenv) (sup : gotype -> Prop) (t : gotype) : Prop :=
  match t with
  | TPtr _ => False
  | TIface _ => True
  | _ =>
      (exists ci, new_type_info env t = EOk ci) /\
      match unmarshal_repr env t with
      | EOk (Some r) => use sup r /\ unmarshal_ok env t r /\
          match resolve env t with RFunc | ROther => False | _ => True end
      | _ =>
          match resolve env t with
          | RPrim _ | RTime => True
          | RArray _ e | RSlice e => elem_ok env sup e
          | RStruct fs => forall f, In f fs -> sf_exported f = true -> parse_field_options f <> None -> use sup (sf_type f)
          | _ => False
          end
      end
  end.
Definition sup_set (env : tenv) (sup : gotype -> Prop) : Prop := forall t, sup t -> sup_ok env sup t.

(** The form in which a registered type is put into an interface. *)
Definition reg_form (ci : cinfo) : gotype :=
  if match ci_reg ci with Some r => ri_ptr r | None => false end then TPtr (ci_type ci) else ci_type ci.

Definition assign_msg : panicmsg := "reflect.Set: value of type is not assignable to type"%string.

Section Safe.
  Variable env : tenv.
  Hypothesis We : wf_env env.
  Variable sup : gotype -> Prop.
  Hypothesis Hsup : sup_set env sup.
  Variable c : codec.
  Hypothesis Hc : wf_codec env c.
  Hypothesis Hsane : sane_codec env c.
  Hypothesis Hreg : forall ci, In ci (cd_concretes c) -> sup (ci_type ci).

  (** The only panics not excluded: storing a registered value in an interface its
      type does not implement (and "impossible slide", excluded elsewhere). *)
  Definition PP (p : panicmsg) : Prop :=
    (p = assign_msg /\ exists ci ii, In ci (cd_concretes c) /\ In ii (cd_ifaces c) /\ te_impl env (reg_form ci) (ii_id ii) = false)
    \/ p = slide_msg.

  Definition minfo (info : tinfo) (t : gotype) : Prop :=
    match info with
    | TIConc ci => ci_type ci = deref_type t /\ info_ok env ci
    | TIFace ii => In ii (cd_ifaces c) /\ deref_type t = TIface (ii_id ii)
    end.
  Lemma minfo_type info t : minfo info t -> ti_type info = deref_type t.
  Proof. clear. destruct info; cbn; intros [H1 H2]; congruence. Qed.

  Definition safe (t : gotype) (r : dres value) : Prop := dspec (fun v n e => has_type env t v = true) PP True r.

  Lemma sup_gti t : use sup t -> match get_type_info env c t with EOk info => minfo info t | EErr _ => True | _ => False end.
  Proof.
    intros [Hs _].
    destruct (get_type_info env c t) as [info|e|p|] eqn:E; try exact I.
    - destruct info as [ci|ii]; cbn; [apply (get_type_info_sane env c t ci); assumption|apply (get_type_info_iface_sane env c t ii E)].
    - apply Hsup in Hs. unfold get_type_info in E. unfold sup_ok in Hs.
      destruct (deref_type t); try contradiction; try (destruct (find_iface _ _); discriminate);
        destruct Hs as [[ci Hci] _]; (destruct (assoc _ _ _); [discriminate|]; rewrite Hci in E; discriminate).
    - exact (get_type_info_nofuel _ _ _ E).
  Qed.
  Lemma sup_typ3 t o : use sup t -> exists z, type_to_typ3 env (deref_type t) o = EOk z.
  Proof.
    intros [Hs _]. apply Hsup in Hs.
    assert (N : match resolve env (deref_type t) with RPtr _ | RFunc | ROther | RBad => False | _ => True end).
    { destruct (resolve env (deref_type t)) eqn:E; try exact I.
      - apply resolve_ptr in E; [|assumption]. rewrite E in Hs. exact Hs.
      - unfold sup_ok in Hs. rewrite E in Hs. destruct (deref_type t); try discriminate; cbn [unmarshal_repr] in Hs; try tauto.
        destruct (te_unmarshal env id) as [[|[]]|]; tauto.
      - unfold sup_ok in Hs. rewrite E in Hs. destruct (deref_type t); try discriminate; cbn [unmarshal_repr] in Hs; try tauto.
        destruct (te_unmarshal env id) as [[|[]]|]; tauto.
      - eapply resolve_bad; eassumption. }
    unfold type_to_typ3.
    destruct (resolve env (deref_type t)) as [[]| | | | | | | | | |]; try contradiction; try (eexists; reflexivity);
      try (destruct (fo_fixed64 o); eexists; reflexivity); destruct (fo_fixed32 o); eexists; reflexivity.
  Qed.

  Variable rec : bytes -> tinfo -> gotype -> value -> fopts -> bool -> dres value.
  Hypothesis Hrec : forall bz info t v0 o bare, bytes_ok bz -> use sup t -> minfo info t -> has_type env t v0 = true ->
    safe t (rec bz info t v0 o bare).

  Lemma safe_slide {A} (Q : A -> nat -> option error -> Prop) bz n k :
    dspec Q PP True (k (skipn n bz)) -> dspec Q PP True (slide bz n k).
  Proof. clear. intros H. unfold slide. destruct (_ <? _)%nat; [right; reflexivity|exact H]. Qed.

  Lemma safe_scalar {A} t v0 bz (r : dres A) (f : A -> dres value) : has_type env t v0 = true ->
    (exists a n e, r = DRet a n e /\ (e = None -> dspec (fun v _ _ => has_type env t v = true) PP True (f a))) ->
    safe t (set_scalar v0 bz r f).
  Proof.
    clear. intros Hv (a & n & e & -> & H). unfold safe, set_scalar. cbn [dbind]. apply safe_slide.
    destruct e as [e|]; [exact Hv|]. specialize (H eq_refl). destruct (f a); cbn [dbind dspec] in *; auto.
  Qed.

  Lemma f32conv_range b : 0 <= b < 2 ^ 32 -> 0 <= f32conv b < 2 ^ 32.
  Proof.
    clear. intros H. unfold f32conv. destruct (_ && _); [|exact H].
    assert (0 <= Z.lor b (2 ^ 22)) by (apply Z.lor_nonneg; lia). split; [assumption|].
    destruct (Z.eq_dec (Z.lor b (2 ^ 22)) 0) as [->|]; [lia|].
    apply Z.log2_lt_cancel. rewrite Z.log2_pow2 by lia. apply Z.log2_lt_pow2; [lia|].
    destruct (Z.eq_dec b 0) as [->|]; [cbn; lia|].
    apply Z.log2_lt_pow2; [lia|]. rewrite Z.log2_lor by lia.
    assert (Z.log2 b < 32) by (apply Z.log2_lt_pow2; lia). change (Z.log2 (2 ^ 22)) with 22. lia.
  Qed.

  Lemma safe_prim t p v0 bz o : bytes_ok bz -> resolve env t = RPrim p -> has_type env t v0 = true -> safe t (decode_prim p v0 bz o).
  Proof.
    clear - We. intros Hok Ht Hv.
    assert (T : forall v, has_type env t v = prim_has p v) by (intros; apply has_type_prim; assumption).
    assert (U : forall A (d : bytes -> dres A) f, well_behaved d ->
       (forall a n, d bz = DRet a n None -> dspec (fun v _ _ => v = v0 \/ prim_has p v = true) PP True (f a)) ->
       safe t (set_scalar v0 bz (d bz) f)).
    { intros A d f (H1 & _) Hf. apply safe_scalar; [assumption|]. destruct (H1 bz) as (a & n & e & E & _).
      exists a, n, e. split; [assumption|]. intros ->. specialize (Hf _ _ E).
      eapply dspec_weaken; [exact Hf|]. cbn beta. intros v _ _ [->|H]; [assumption|]. rewrite T. assumption. }
    assert (V : forall size conv msg v n, decode_fixed size conv msg bz = DRet v n None ->
       exists u, v = conv u /\ 0 <= u < 256 ^ Z.of_nat size).
    { intros size conv msg v n H. apply decode_fixed_iff in H; [|assumption]. destruct H as (H1 & _ & ->).
      eexists. split; [reflexivity|]. destruct (get_le_val (firstn size bz)) as [_ H]; [apply bytes_ok_firstn; assumption|].
      unfold zlen in H. rewrite firstn_length_le in H by assumption. exact H. }
    assert (R8 : forall z, -128 <= z <= 127 -> in_int 8 z = true) by (unfold in_int; cbn; lia).
    assert (R16 : forall z, -32768 <= z <= 32767 -> in_int 16 z = true) by (unfold in_int; cbn; lia).
    unfold decode_prim.
    destruct p; try destruct (fo_fixed64 o); try destruct (fo_fixed32 o);
      try (destruct (negb (fo_unsafe o)); [exact Hv|]);
      (apply U;
       [first [apply wb_uvarint|apply wb_int8|apply wb_int16|apply wb_uint8|apply wb_uint16
            |apply wb_int32|apply wb_int64|apply wb_uint32|apply wb_uint64|apply wb_bool
            |apply wb_float32|apply wb_float64|apply wb_string]
       |intros a n E]); cbn [dspec].
    all: try (apply V in E; destruct E as (u & -> & Hu)).
    all: try (apply decode_uvarint_range in E; [|assumption]).
    all: try (destruct (_ || _) eqn:Eb; [left; reflexivity|]).
    all: try right.
    all: cbn [prim_has]; unfold in_int, in_uint.
    all: try (apply decode_int8_iff in E; cbn; lia).
    all: try (apply decode_int16_iff in E; cbn; lia).
    all: try (apply decode_uint8_iff in E; cbn; lia).
    all: try (apply decode_uint16_iff in E; cbn; lia).
    all: try reflexivity.
    all: try (pose proof (iwrap_range 64 a ltac:(lia)); unfold i64; cbn in *; lia).
    all: try (pose proof (iwrap_range 64 u ltac:(lia)); unfold i64; cbn in *; lia).
    all: try (pose proof (iwrap_range 32 u ltac:(lia)); unfold i32; cbn in *; lia).
    all: try (cbn in *; lia).
    all: try (unfold u32, uwrap; pose proof (Z.mod_pos_bound a (2 ^ 32) ltac:(lia)); lia).
    all: try (pose proof (f32conv_range u ltac:(cbn in *; lia)); lia).
    all: unfold decode_string in E; apply byte_slice_frame in E; [|assumption]; apply byte_ok_forallb; tauto.
  Qed.

  Lemma safe_enter t v0 bare bz k : bytes_ok bz -> has_type env t v0 = true ->
    (forall b n0, bytes_ok b -> safe t (k b n0)) -> safe t (enter v0 bare bz k).
  Proof.
    clear. intros Hok Hv H. unfold enter. destruct bare; [apply H; assumption|].
    destruct (decode_byte_slice_ret bz) as (b & n & e & E & Hn). rewrite E. cbn [dbind]. apply safe_slide.
    destruct e as [e|]; [exact Hv|]. apply byte_slice_frame in E; [|assumption]. apply H. tauto.
  Qed.

  Lemma safe_set_iface ii ci v n e t : In ii (cd_ifaces c) -> In ci (cd_concretes c) ->
    deref_type t = t -> resolve env t = RIface (ii_id ii) -> has_type env (ci_type ci) v = true -> conc_type (ci_type ci) = true ->
    safe t (set_iface env ii ci v (fun r => DRet r n e)).
  Proof.
    intros Hi Hci _ Ht Hv Hk. unfold set_iface.
    assert (F : te_impl env (reg_form ci) (ii_id ii) = false -> PP assign_msg).
    { intros F. left. split; [reflexivity|]. exists ci, ii. auto. }
    unfold reg_form in F.
    destruct (match ci_reg ci with Some r => ri_ptr r | None => false end);
      destruct (te_impl env _ _) eqn:E; unfold safe; cbn [dspec]; try (apply F; reflexivity); cbn [has_type]; rewrite Ht, E; cbn [andb].
    - cbn [has_type resolve]. exact Hv.
    - destruct (ci_type ci); try exact Hv. discriminate.
  Qed.

  Lemma lookup_prefix ii pb : In ii (cd_ifaces c) ->
    match type_info_from_prefix ii pb with EOk ci => In ci (cd_concretes c) | EErr _ => True | _ => False end.
  Proof.
    intros Hi. pose proof (wc_impls _ _ Hc ii pb Hi) as W. pose proof (wc_nonempty _ _ Hc ii Hi) as N.
    unfold type_info_from_prefix, impls_of in *. destruct (assoc beqb pb (ii_impls ii)) as [[|ci [|]]|] eqn:E; try exact I.
    - apply assoc_map_in in E. rewrite Forall_forall in N. apply N in E. apply E. reflexivity.
    - assert (In ci [ci]) by (left; reflexivity). rewrite W in H. apply filter_In in H. apply H.
  Qed.
  Lemma lookup_disfix d : match type_info_from_disfix c d with EOk ci => In ci (cd_concretes c) | EErr _ => True | _ => False end.
  Proof.
    unfold type_info_from_disfix. destruct (assoc beqb d (cd_disfix c)) as [ci|] eqn:E; [|exact I].
    apply (wc_disfix _ _ Hc) in E. apply E.
  Qed.

  Lemma conc_minfo ci : In ci (cd_concretes c) ->
    use sup (ci_type ci) /\ minfo (TIConc ci) (ci_type ci) /\ conc_type (ci_type ci) = true.
  Proof.
    intros Hi. destruct (sa_conc _ _ Hsane ci Hi) as [Hok _].
    destruct (info_ok_parts _ _ Hok) as (Hk & _). assert (D : deref_type (ci_type ci) = ci_type ci) by (destruct (ci_type ci); try reflexivity; discriminate).
    split; [|split]; [|cbn; auto|exact Hk]. split; [rewrite D; apply Hreg; assumption|]. destruct (ci_type ci); discriminate.
  Qed.

  Lemma safe_interface bz ii v0 o bare : bytes_ok bz -> In ii (cd_ifaces c) -> has_type env (TIface (ii_id ii)) v0 = true ->
    safe (TIface (ii_id ii)) (decode_interface env c rec bz ii v0 o bare).
  Proof.
    intros Hok Hi Hv. unfold decode_interface. destruct v0 as [| | | | | | | | | |[v|]| | | |]; try discriminate.
    { exact Hv. }
    apply safe_enter; [assumption|assumption|]. intros b n0 Hb. unfold safe.
    destruct (disamb_ret b) as (dp & n1 & e & -> & Hn1 & _). cbn [dbind]. apply safe_slide.
    destruct e as [e|]; [reflexivity|].
    assert (L : match (match fst dp with
                  | Some d => type_info_from_disfix c (to_disfix d (snd dp))
                  | None => type_info_from_prefix ii (snd dp)
                  end) with EOk ci => In ci (cd_concretes c) | EErr _ => True | _ => False end).
    { destruct (fst dp); [apply lookup_disfix|apply lookup_prefix; assumption]. }
    destruct (match fst dp with
                  | Some d => type_info_from_disfix c (to_disfix d (snd dp))
                  | None => type_info_from_prefix ii (snd dp)
                  end) as [ci|e|p|]; cbn [eget]; try contradiction; [|reflexivity].
    cbv zeta. destruct (conc_minfo ci L) as (Hu & Hm & Hk).
    assert (Hgo : forall bz2 n2, bytes_ok bz2 ->
      safe (TIface (ii_id ii))
       (dbind (rec bz2 (TIConc ci) (ci_type ci) (zero env (ci_type ci)) o true) (fun v n3 e =>
              slide bz2 n3 (fun bz3 =>
              let n3 := (n2 + n3)%nat in
              match e with
              | Some e => set_iface env ii ci v (fun r => DRet r n3 (Some e))
              | None =>
                  match bz3 with
                  | _ :: _ => DRet (VIface None) n3 (Some "bytes left over after reading interface contents"%string)
                  | [] => set_iface env ii ci v (fun r => DRet r n3 None)
                  end
              end)))).
    { intros bz2 n2 Hok2. apply dspec_bind. eapply dspec_weaken; [apply Hrec; try assumption; apply has_type_zero; assumption|].
      cbn beta. intros v n e Hty. apply safe_slide. cbv zeta.
      destruct e as [e|]; [apply safe_set_iface; auto|].
      destruct (skipn n bz2); [apply safe_set_iface; auto | reflexivity]. }
    destruct (wants_key env ci (skipn n1 b) o).
    - destruct (key_ret (skipn n1 b)) as (kt & nk & e & -> & Hnk & _). cbn [dbind].
      destruct e as [e|]; [reflexivity|]. destruct (negb _); [reflexivity|].
      destruct (sup_typ3 (ci_type ci) no_opts Hu) as [z Hz]. destruct Hm as [Hm _]. rewrite <- Hm in Hz. rewrite Hz. cbn [eget].
      destruct (negb _); [reflexivity|]. apply safe_slide. apply Hgo.
      do 2 apply bytes_ok_skipn. assumption.
    - apply Hgo. apply bytes_ok_skipn; assumption.
  Qed.

  Lemma safe_byte_array t bz len ert v0 : bytes_ok bz -> resolve env t = RArray len ert -> ert = TPrim PUint8 ->
    has_type env t v0 = true -> safe t (decode_byte_array bz len ert v0).
  Proof.
    clear. intros Hok Ht -> Hv. unfold decode_byte_array, safe. destruct (length bz <? len)%nat; [exact Hv|].
    destruct (decode_byte_slice_ret bz) as (b & n & e & E & Hn). rewrite E. cbn [dbind]. apply safe_slide.
    destruct e as [e|]; [exact Hv|]. apply byte_slice_frame in E; [|assumption].
    destruct (length b =? len)%nat eqn:El; cbn [negb]; [|exact Hv]. cbn [gotype_eqb prim_eqb dspec has_type]. rewrite Ht.
    apply andb_true_iff. split; [unfold bytes_val; rewrite map_length; exact El|]. apply has_type_bytes. tauto.
  Qed.
  Lemma safe_byte_slice_val t bz ert v0 : bytes_ok bz -> resolve env t = RSlice ert -> ert = TPrim PUint8 ->
    has_type env t v0 = true -> safe t (decode_byte_slice_val bz ert v0).
  Proof.
    clear. intros Hok Ht -> Hv. unfold decode_byte_slice_val, safe.
    assert (Z0 : has_type env t (VSlice None) = true) by (cbn; rewrite Ht; reflexivity).
    destruct bz as [|b0 bz']; [exact Z0|]. set (bz := b0 :: bz') in *.
    destruct (decode_byte_slice_ret bz) as (b & n & e & E & Hn). rewrite E. cbn [dbind]. apply safe_slide.
    destruct e as [e|]; [exact Hv|]. apply byte_slice_frame in E; [|assumption]. destruct b as [|x b]; [exact Z0|].
    cbn [gotype_eqb prim_eqb dspec has_type]. rewrite Ht. apply has_type_bytes. tauto.
  Qed.

  Lemma safe_prefer_nil ert v : has_type env ert v = true -> has_type env ert (prefer_nil env ert v) = true.
  Proof. clear - We. intros H. unfold prefer_nil. destruct (_ && _); [apply has_type_zero; assumption|exact H]. Qed.

  Definition all_have (t : gotype) (l : list value) : Prop := forallb (has_type env t) l = true.
  Lemma all_have_app t a b : all_have t a -> all_have t b -> all_have t (a ++ b).
  Proof. clear. unfold all_have. rewrite forallb_app. intros -> ->. reflexivity. Qed.
  Lemma all_have_cons t x l : has_type env t x = true -> all_have t l -> all_have t (x :: l).
  Proof. clear. unfold all_have. cbn. intros -> ->. reflexivity. Qed.
  Lemma all_have_inv t x l : all_have t (x :: l) -> has_type env t x = true /\ all_have t l.
  Proof. clear. unfold all_have. cbn. apply andb_true_iff. Qed.

  Lemma safe_array_packed einfo ert o : use sup ert -> minfo einfo ert -> forall todo bz n done, bytes_ok bz ->
    all_have ert done -> all_have ert todo ->
    dspec (fun r n' e => all_have ert (fst r) /\ length (fst r) = (length done + length todo)%nat /\ bytes_ok (snd r)) PP True
          (decode_array_packed env rec bz n einfo ert o done todo).
  Proof.
    intros Hu Hm. induction todo as [|w0 todo IH]; intros bz n done Hok Hd Ht; cbn [decode_array_packed].
    { cbn [dspec fst snd length]. splits; try assumption; lia. }
    apply all_have_inv in Ht. destruct Ht as [Hw Ht].
    apply dspec_bind. eapply dspec_weaken; [apply Hrec; assumption|]. cbn beta. intros w k e Hty. apply safe_slide.
    pose proof (bytes_ok_skipn k bz Hok). destruct e as [e|].
    { cbn [dspec fst snd]. splits; [apply all_have_app; [|apply all_have_cons]; assumption| |assumption].
      rewrite app_length. reflexivity. }
    eapply dspec_weaken; [apply IH; try assumption; apply all_have_app; [assumption|apply all_have_cons; [apply safe_prefer_nil; assumption|reflexivity]]|].
    cbn beta. intros r n' e' (H1 & H2 & H3). splits; try assumption. rewrite H2, app_length. cbn [length]. lia.
  Qed.
  Lemma safe_array_unpacked einfo ert o : use sup ert -> minfo einfo ert -> forall todo bz n done, bytes_ok bz ->
    all_have ert done -> all_have ert todo ->
    dspec (fun r n' e => all_have ert (fst r) /\ length (fst r) = (length done + length todo)%nat /\ bytes_ok (snd r)) PP True
          (decode_array_unpacked env rec bz n einfo ert o done todo).
  Proof.
    intros Hu Hm. induction todo as [|w0 todo IH]; intros bz n done Hok Hd Ht; cbn [decode_array_unpacked].
    { cbn [dspec fst snd length]. splits; try assumption; lia. }
    apply all_have_inv in Ht. destruct Ht as [Hw Ht].
    assert (S0 : forall w, has_type env ert w = true -> all_have ert (done ++ w :: todo)) by
      (intros; apply all_have_app; [|apply all_have_cons]; assumption).
    assert (L0 : forall w, length (done ++ w :: todo) = (length done + length (w0 :: todo))%nat) by (intros; rewrite app_length; reflexivity).
    destruct (key_ret bz) as (kt & k & e & -> & Hk & _). cbn [dbind].
    destruct (negb _). { cbn [dspec fst snd]. splits; auto. }
    destruct (negb _). { cbn [dspec fst snd]. splits; auto. }
    apply safe_slide. cbv zeta.
    pose proof (bytes_ok_skipn k bz Hok) as Hok1.
    destruct e as [e|]. { cbn [dspec fst snd]. splits; auto. }
    set (bz1 := skipn k bz) in *.
    destruct (skip_empty env einfo ert o bz1).
    - eapply dspec_weaken; [apply IH; try assumption; [apply bytes_ok_skipn; assumption|]; apply all_have_app; [assumption|apply all_have_cons; [apply has_type_default; assumption|reflexivity]]|].
      cbn beta. intros r n' e' (H1 & H2 & H3). splits; try assumption. rewrite H2, app_length. cbn [length]. lia.
    - apply dspec_bind. eapply dspec_weaken; [apply Hrec; assumption|]. cbn beta. intros w k2 e Hty. apply safe_slide.
      pose proof (bytes_ok_skipn k2 bz1 Hok1).
      destruct e as [e|]. { cbn [dspec fst snd]. splits; auto. }
      eapply dspec_weaken; [apply IH; try assumption; apply all_have_app; [assumption|apply all_have_cons; [assumption|reflexivity]]|].
      cbn beta. intros r n' e' (H1 & H2 & H3). splits; try assumption. rewrite H2, app_length. cbn [length]. lia.
  Qed.
  Lemma safe_array t bz len ert v0 o bare : bytes_ok bz -> resolve env t = RArray len ert -> is_uint8 env ert = false -> use sup ert ->
    has_type env t v0 = true -> safe t (decode_array env c rec bz ert v0 o bare).
  Proof.
    intros Hok Ht Hu8 Hu Hv. unfold decode_array. rewrite Hu8. destruct v0; cbn [has_type] in Hv; rewrite Ht in Hv; try discriminate.
    apply andb_true_iff in Hv. destruct Hv as [Hl Hv].
    assert (T : forall l', all_have ert l' -> length l' = length l -> has_type env t (VArr l') = true).
    { intros l' H1 H2. cbn [has_type]. rewrite Ht, H2, Hl. exact H1. }
    pose proof (sup_gti ert Hu) as G. unfold safe.
    destruct (get_type_info env c ert) as [einfo| | |]; cbn [eget]; try contradiction; [|apply T; [exact Hv|reflexivity]].
    apply safe_enter; [assumption|apply T; [exact Hv|reflexivity]|]. intros b n0 Hb. unfold safe.
    destruct (sup_typ3 ert o Hu) as [z Hz]. rewrite (minfo_type _ _ G), Hz. cbn [eget].
    destruct (negb _); apply dspec_bind.
    - eapply dspec_weaken; [apply safe_array_packed; try assumption; reflexivity|]. cbn beta. intros [l' bz'] n e (H1 & H2 & H3). cbn [fst snd] in *.
      destruct e as [e|]; [apply T; assumption|]. destruct bz'; apply T; assumption.
    - eapply dspec_weaken; [apply safe_array_unpacked; try assumption; reflexivity|]. cbn beta. intros [l' bz'] n e (H1 & H2 & H3). cbn [fst snd] in *.
      destruct e as [e|]; [apply T; assumption|]. destruct bz' as [|x bz']; [apply T; assumption|].
      destruct (key_ret (x :: bz')) as (kt & k & e & -> & Hk & _). cbn [dbind]. destruct e; [apply T; assumption|]. destruct (_ <=? _); apply T; assumption.
  Qed.

  Lemma safe_slice_packed einfo ert o : use sup ert -> minfo einfo ert -> forall k bz n done, bytes_ok bz -> all_have ert done ->
    dspec (fun r n' e => all_have ert r) PP True (decode_slice_packed env rec k bz n einfo ert o done).
  Proof.
    intros Hu Hm. induction k as [|k IH]; intros bz n done Hok Hd; destruct bz as [|b0 bz']; cbn [decode_slice_packed];
      try exact Hd; try exact I. set (bz := b0 :: bz') in *.
    apply dspec_bind. eapply dspec_weaken; [apply Hrec; try assumption; apply has_type_zero; assumption|]. cbn beta. intros w m e Hty. apply safe_slide.
    pose proof (bytes_ok_skipn m bz Hok). destruct e as [e|]; [exact Hd|].
    apply IH; [assumption|]. apply all_have_app; [assumption|]. apply all_have_cons; [apply safe_prefer_nil; assumption|reflexivity].
  Qed.
  Lemma safe_slice_unpacked einfo ert o : use sup ert -> minfo einfo ert -> forall k bz n done, bytes_ok bz -> all_have ert done ->
    dspec (fun r n' e => all_have ert r) PP True (decode_slice_unpacked env rec k bz n einfo ert o done).
  Proof.
    intros Hu Hm. induction k as [|k IH]; intros bz n done Hok Hd; destruct bz as [|b0 bz']; cbn [decode_slice_unpacked];
      try exact Hd; try exact I. set (bz := b0 :: bz') in *.
    destruct (key_ret bz) as (kt & m & e & -> & Hk & _). cbn [dbind].
    destruct (_ <? _); [exact Hd|]. destruct (_ <? _); [exact Hd|]. destruct (negb _); [exact Hd|].
    apply safe_slide. cbv zeta. pose proof (bytes_ok_skipn m bz Hok) as Hok1. destruct e as [e|]; [exact Hd|].
    set (bz1 := skipn m bz) in *. destruct (skip_empty env einfo ert o bz1) eqn:Es.
    - apply IH; [apply bytes_ok_skipn; assumption|]. apply all_have_app; [assumption|]. apply all_have_cons; [apply has_type_default; assumption|reflexivity].
    - apply dspec_bind. eapply dspec_weaken; [apply Hrec; try assumption; apply has_type_zero; assumption|]. cbn beta. intros w k2 e Hty. apply safe_slide.
      destruct e as [e|]; [exact Hd|].
      apply IH; [apply bytes_ok_skipn; assumption|]. apply all_have_app; [assumption|]. apply all_have_cons; [assumption|reflexivity].
  Qed.
  Lemma safe_slice t bz ert v0 o bare : bytes_ok bz -> resolve env t = RSlice ert -> is_uint8 env ert = false -> use sup ert ->
    has_type env t v0 = true -> safe t (decode_slice env c rec bz ert v0 o bare).
  Proof.
    intros Hok Ht Hu8 Hu Hv. unfold decode_slice. rewrite Hu8.
    assert (T : forall l', all_have ert l' -> has_type env t (mk_slice l') = true).
    { intros l' H1. unfold mk_slice. destruct l'; cbn [has_type]; rewrite Ht; [reflexivity|exact H1]. }
    pose proof (sup_gti ert Hu) as G. unfold safe.
    destruct (get_type_info env c ert) as [einfo| | |]; cbn [eget]; try contradiction; [|exact Hv].
    apply safe_enter; [assumption|assumption|]. intros b n0 Hb. unfold safe.
    destruct (sup_typ3 ert o Hu) as [z Hz]. rewrite (minfo_type _ _ G), Hz. cbn [eget].
    apply dspec_bind. destruct (negb _).
    - eapply dspec_weaken; [apply safe_slice_packed; try assumption; reflexivity|]. cbn beta. intros l n e H.
      destruct e; [exact Hv|apply T; assumption].
    - eapply dspec_weaken; [apply safe_slice_unpacked; try assumption; reflexivity|]. cbn beta. intros l n e H.
      destruct e; [exact Hv|apply T; assumption].
  Qed.

  (** Fields of a struct with declared fields [fs]. *)
  Definition fields_have (fs : list sfield) (l : list value) : Prop :=
    forall2b (fun f w => has_type env (sf_type f) w) fs l = true.
  Definition field_of (fs : list sfield) (f : finfo) : Prop :=
    (exists sf, nth_error fs (fi_index f) = Some sf /\ sf_type sf = fi_type f) /\ use sup (fi_type f).

  Lemma safe_field fs f l bz last n : field_of fs f -> fields_have fs l -> bytes_ok bz ->
    dspec (fun st n' e => fields_have fs (fst (fst st)) /\ bytes_ok (snd (fst st))) PP True
          (decode_field env c rec f l bz last n).
  Proof.
    intros [(sf & Hsf & Hst) Hu] Hl Hok. unfold decode_field. cbv zeta.
    assert (H0 : has_type env (fi_type f) (nth (fi_index f) l VInvalid) = true).
    { rewrite <- Hst. exact (forall2b_nth _ _ _ _ _ VInvalid Hl Hsf). }
    assert (U : forall v, has_type env (fi_type f) v = true -> fields_have fs (upd (fi_index f) v l)).
    { intros v Hv. refine (forall2b_upd _ _ _ _ _ _ Hl Hsf _). rewrite Hst. exact Hv. }
    pose proof (has_type_default env (fi_type f) We) as Hd.
    pose proof (sup_gti (fi_type f) Hu) as G.
    destruct (get_type_info env c (fi_type f)) as [info| | |]; cbn [eget]; try contradiction; [|cbn [dspec fst snd]; auto].
    destruct bz as [|b0 bz']; [cbn [dspec fst snd]; auto|]. set (bz := b0 :: bz') in *.
    destruct (fi_unpacked f).
    - apply dspec_bind. eapply dspec_weaken; [apply Hrec; assumption|]. cbn beta. intros w m e Hm. apply safe_slide.
      cbn [dspec fst snd]. split; [auto|apply bytes_ok_skipn; assumption].
    - destruct (key_ret bz) as ([fnum typ] & m & e & -> & Hm & _). cbn [dbind].
      destruct (_ <? _); [cbn [dspec fst snd]; auto|]. destruct (_ <=? _); [cbn [dspec fst snd]; auto|].
      apply safe_slide. cbv zeta. pose proof (bytes_ok_skipn m bz Hok) as Hok1.
      destruct e as [e|]; [cbn [dspec fst snd]; auto|]. destruct (negb _); [cbn [dspec fst snd]; auto|].
      destruct (sup_typ3 (fi_type f) (fi_opts f) Hu) as [z Hz]. rewrite (minfo_type _ _ G), Hz. cbn [eget].
      destruct (negb _); [cbn [dspec fst snd]; auto|].
      apply dspec_bind. eapply dspec_weaken; [apply Hrec; assumption|]. cbn beta. intros w m2 e Hty. apply safe_slide.
      cbn [dspec fst snd]. split; [auto|apply bytes_ok_skipn; assumption].
  Qed.
  Lemma safe_fields sfs : forall fs l bz last n, (forall f, In f fs -> field_of sfs f) -> fields_have sfs l -> bytes_ok bz ->
    dspec (fun st n' e => fields_have sfs (fst (fst st)) /\ bytes_ok (snd (fst st))) PP True (decode_fields env c rec fs l bz last n).
  Proof.
    induction fs as [|f fs IH]; intros l bz last n Hf Hl Hok; cbn [decode_fields]; [cbn [dspec fst snd]; auto|].
    apply dspec_bind. eapply dspec_weaken; [apply (safe_field sfs); auto; apply Hf; left; reflexivity|].
    cbn beta. intros [[l' bz'] last'] n' e (H1 & H2). cbn [fst snd] in *. destruct e as [e|]; [cbn [dspec fst snd]; auto|].
    apply IH; auto. intros; apply Hf; right; assumption.
  Qed.
  Lemma safe_consume_rest : forall k bz last n, dspec (fun _ _ _ => True) PP True (consume_rest k bz last n).
  Proof.
    clear. induction k as [|k IH]; intros bz last n; destruct bz as [|b0 bz']; cbn [consume_rest]; try exact I. set (bz := b0 :: bz') in *.
    destruct (key_ret bz) as ([fnum typ] & m & e & -> & Hm & _). cbn [dbind fst snd]. apply safe_slide. cbv zeta.
    destruct e as [e|]; [exact I|]. destruct (_ <=? _); [exact I|].
    destruct (consume_any_ret typ (skipn m bz)) as (m2 & e & -> & Hm2 & _). cbn [dbind]. apply safe_slide.
    destruct e as [e|]; [exact I|]. apply IH.
  Qed.
  Lemma safe_struct t bz ci v0 bare : bytes_ok bz -> use sup t -> t = ci_type ci -> info_ok env ci -> ci_unmarshal ci = None ->
    is_struct env t = true -> has_type env t v0 = true -> safe t (decode_struct env c rec bz ci v0 bare).
  Proof.
    intros Hok Hu Ht Hi Hun Hst Hv. unfold decode_struct. apply safe_enter; try assumption. intros b n0 Hb. unfold safe. rewrite <- Ht.
    destruct (info_ok_parts _ _ Hi) as (Hk & Hp & _ & Hr). rewrite Hun in Hr. rewrite <- Ht in *.
    assert (D : deref_type t = t) by (destruct t; try reflexivity; discriminate).
    destruct Hu as [Hs _]. rewrite D in Hs. apply Hsup in Hs. unfold sup_ok in Hs.
    unfold is_struct in Hst. destruct (resolve env t) eqn:E; try discriminate.
    - destruct (decode_time_ret b Hb) as (s & ns & n & e & -> & Hn & Hok2). cbn [dbind fst snd]. apply safe_slide. destruct e; [exact Hv|].
      cbn [dspec has_type]. rewrite E. unfold time_ok, min_seconds, max_seconds, max_nanos in Hok2. unfold in_int. cbn in *. lia.
    - destruct v0; cbn [has_type] in Hv; rewrite E in Hv; try discriminate.
      apply dspec_bind. eapply dspec_weaken; [apply (safe_fields fs); try assumption|].
      + intros f Hin. unfold parse_struct_info in Hp. rewrite E in Hp.
        destruct (parse_fields_nth _ _ _ _ _ _ Hp Hin) as (sf & o & H1 & H2 & H3 & H4 & H5 & H6 & H7). rewrite Nat.sub_0_r in H2.
        split; [exists sf; auto|]. rewrite H6.
        assert (N : forall f, In f fs -> sf_exported f = true -> parse_field_options f <> None -> use sup (sf_type f)).
        { rewrite Hr in Hs. destruct t; cbn [resolve] in *; try discriminate; tauto. }
        apply N; try assumption; [eapply nth_error_In; eassumption|congruence].
      + cbn beta. intros [[l' bz'] last'] n' e [H1 H2]. cbn [fst snd] in *.
        assert (T : has_type env t (VStruct l') = true) by (cbn [has_type]; rewrite E; exact H1).
        destruct e as [e|]; [exact T|].
        apply dspec_bind. eapply dspec_weaken; [apply safe_consume_rest|]. cbn beta. intros; exact T.
  Qed.
  Lemma safe_switch t bz info v0 o bare : bytes_ok bz -> use sup t -> deref_type t = t -> minfo info t ->
    match info with TIConc ci => ci_unmarshal ci = None | _ => True end ->
    has_type env t v0 = true -> safe t (decode_switch env c rec bz info v0 o bare).
  Proof.
    intros Hok Hu D Hm Hun Hv. unfold decode_switch. pose proof (minfo_type _ _ Hm) as Ht. rewrite Ht, D.
    destruct info as [ci|ii].
    - destruct Hm as [Hm Hi]. rewrite D in Hm. destruct (info_ok_parts _ _ Hi) as (Hk & Hp & _ & Hr). rewrite Hun, Hm in Hr. rewrite Hm in Hk.
      pose proof Hu as [Hs _]. rewrite D in Hs. apply Hsup in Hs. unfold sup_ok in Hs. rewrite Hr in Hs.
      destruct (resolve env t) eqn:E.
      + apply safe_prim; assumption.
      + apply safe_struct; auto. unfold is_struct. rewrite E. reflexivity.
      + assert (El : elem_ok env sup e) by (destruct t; try discriminate; tauto). unfold elem_ok in El.
        destruct (is_uint8 env e) eqn:Eu; [apply safe_byte_array; assumption|eapply safe_array; eassumption].
      + assert (El : elem_ok env sup e) by (destruct t; try discriminate; tauto). unfold elem_ok in El.
        destruct (is_uint8 env e) eqn:Eu; [apply safe_byte_slice_val; assumption|apply safe_slice; assumption].
      + exfalso. destruct t; try discriminate; tauto.
      + exfalso. destruct t; try discriminate; tauto.
      + exfalso. destruct t; try discriminate; tauto.
      + exfalso. destruct t; try discriminate; tauto.
      + apply resolve_iface in E; [|assumption]. rewrite E in Hk. discriminate.
      + apply safe_struct; auto. unfold is_struct. rewrite E. reflexivity.
      + exfalso. eapply resolve_bad; eassumption.
    - destruct Hm as [Hi Hd]. rewrite D in Hd. rewrite Hd. cbn [resolve]. rewrite Hd in Hv. apply safe_interface; assumption.
  Qed.
End Safe.

Theorem decode_safe env sup c : wf_env env -> sup_set env sup -> wf_codec env c -> sane_codec env c ->
  (forall ci, In ci (cd_concretes c) -> sup (ci_type ci)) ->
  forall fuel bz info t v0 o bare, bytes_ok bz -> use sup t -> minfo env c info t -> has_type env t v0 = true ->
  safe env c t (decode_reflect fuel env c bz info t v0 o bare).
Proof.
  intros We Hsup Hc Hsane Hreg. induction fuel as [|k IH]; intros bz info t v0 o bare Hok Hu Hm Hv; cbn [decode_reflect]; [exact I|].
  set (w0 := base_of env t v0). assert (Hw : has_type env (deref_type t) w0 = true) by (apply has_type_base; assumption).
  assert (D : deref_type (deref_type t) = deref_type t) by (clear; induction t; auto).
  assert (Hub : use sup (deref_type t)).
  { destruct Hu as [Hu1 Hu2]. split; [rewrite D; assumption|]. intros Hp. exfalso. revert Hp. clear. induction t; cbn; auto; discriminate. }
  assert (Hmb : minfo env c info (deref_type t)) by (destruct info; cbn; rewrite D; exact Hm).
  assert (G : safe env c t (dmap (rebuild t)
            (match info with
             | TIConc {| ci_type := ct; ci_unmarshal := Some r |} =>
                 eget (get_type_info env c r) (fun e => DRet w0 0 (Some e)) (fun rinfo =>
                 dbind (decode_reflect k env c bz rinfo r (zero env r) o bare) (fun rv n e =>
                 slide bz n (fun _ =>
                 match e with
                 | Some e => DRet w0 n (Some e)
                 | None => eget (from_repr env ct w0 rv) (fun e => DRet w0 n (Some e))
                                (fun r => DRet (fst r) n (snd r))
                 end)))
             | _ => decode_switch env c (decode_reflect k env c) bz info w0 o bare
             end))).
  { unfold safe, dmap. apply dspec_bind. eapply dspec_weaken with (Q := fun v _ _ => has_type env (deref_type t) v = true);
      [|cbn beta; intros v n e H; apply has_type_wrap; exact H].
    pose proof (safe_switch env We sup Hsup c Hc Hsane Hreg (decode_reflect k env c) IH (deref_type t) bz info w0 o bare Hok Hub D Hmb) as S.
    destruct info as [[ct fs m [r|] rg]|ii]; try (apply S; [exact I || reflexivity|exact Hw]).
    clear S. destruct Hmb as [Hct Hi]. cbn [ci_type] in Hct. rewrite D in Hct. subst ct.
    destruct (info_ok_parts _ _ Hi) as (Hk & _ & _ & Hr). cbn [ci_type ci_unmarshal] in *.
    destruct Hub as [Hs _]. rewrite D in Hs. apply Hsup in Hs. unfold sup_ok in Hs. rewrite Hr in Hs.
    assert (Hs' : use sup r /\ unmarshal_ok env (deref_type t) r) by (destruct (deref_type t); try discriminate; tauto).
    destruct Hs' as [Hur Huo]. pose proof (sup_gti env sup Hsup c Hsane r Hur) as Gt.
    destruct (get_type_info env c r) as [rinfo| | |]; cbn [eget]; try contradiction; [|exact Hw].
    apply dspec_bind. eapply dspec_weaken; [apply IH; try assumption; apply has_type_zero; assumption|].
    cbn beta. intros rv n e Hrv. apply safe_slide. destruct e as [e|]; [exact Hw|].
    specialize (Huo w0 rv Hw Hrv). destruct (from_repr env (deref_type t) w0 rv) as [[v' e']| | |]; cbn [eget dspec fst]; try contradiction; auto. }
  destruct info as [ci|ii], t; try exact G.
  exfalso. destruct Hu as [_ Hu]. destruct Hm as [_ Hm]. exact (Hu eq_refl _ Hm).
Qed.

(** ** Whole Unmarshal calls *)

(** The target is not a pointer variable already pointing to something that is
    neither struct nor scalar: amino.go:456-477 panics on those. *)
Definition target_ok (env : tenv) (t : gotype) (v0 : value) : Prop :=
  is_ptr t = true -> snd (deref_pointers v0) = false -> is_list_kind env (deref_type t) = false.

Lemma unmarshal_safe env sup c : wf_env env -> env_msgs env -> sup_set env sup -> wf_codec env c -> sane_codec env c ->
  (forall ci, In ci (cd_concretes c) -> sup (ci_type ci)) ->
  forall fuel bz t v0, bytes_ok bz -> use sup t -> has_type env t v0 = true -> target_ok env t v0 ->
  uspec (fun v _ => has_type env t v = true) (fun p => PP env c p /\ p <> slide_msg) True (unmarshal_bare fuel env c bz t v0).
Proof.
  intros We Hm Hsup Hc Hs Hreg fuel bz t v0 Hok Hu Hv Ht.
  pose proof (unmarshal_no_slide env c fuel bz t v0 Hm Hok) as NS.
  assert (U : uspec (fun v _ => has_type env t v = true) (PP env c) True (unmarshal_bare fuel env c bz t v0)).
  { apply unmarshal_spec; try (intros; assumption).
    - intros p E. pose proof (sup_gti env sup Hsup c Hs t Hu) as G. rewrite E in G. contradiction.
    - intros info p E E2 _. pose proof (sup_gti env sup Hsup c Hs t Hu) as G. rewrite E in G.
      destruct (sup_typ3 env We sup Hsup t no_opts Hu) as [z Hz]. rewrite (minfo_type env c info t G) in E2. congruence.
    - intros p E. exfalso. unfold is_pointer_to_struct in E. destruct (is_struct env t); [discriminate|].
      unfold target_ok in Ht. destruct (is_ptr t); [|discriminate]. destruct (deref_pointers v0) as [w []]; cbn [snd negb] in *; [discriminate|].
      destruct (is_struct env (deref_type t)); [discriminate|]. rewrite Ht in E by reflexivity. discriminate.
    - intros info k bare E Hk. pose proof (sup_gti env sup Hsup c Hs t Hu) as G. rewrite E in G.
      eapply dspec_weaken; [apply (decode_safe env sup c); try assumption; apply bytes_ok_skipn; assumption|]. cbn beta. intros. split; intros; assumption. }
  destruct (unmarshal_bare fuel env c bz t v0); cbn in *; auto. split; [assumption|]. intros ->. apply NS. reflexivity.
Qed.
Lemma unmarshal_length_safe env sup c : wf_env env -> env_msgs env -> sup_set env sup -> wf_codec env c -> sane_codec env c ->
  (forall ci, In ci (cd_concretes c) -> sup (ci_type ci)) ->
  forall fuel bz t v0, bytes_ok bz -> use sup t -> has_type env t v0 = true -> target_ok env t v0 ->
  uspec (fun v _ => has_type env t v = true) (fun p => PP env c p /\ p <> slide_msg) True (unmarshal_length_prefixed fuel env c bz t v0).
Proof.
  intros We Hm Hsup Hc Hs Hreg fuel bz t v0 Hok Hu Hv Ht. unfold unmarshal_length_prefixed. destruct bz as [|b bz]; [exact Hv|].
  set (l := b :: bz) in *. destruct (uvarint l) as [u n].
  destruct (n <? 0); [exact Hv|]. destruct (_ <? u); [exact Hv|]. destruct (u <? _); [exact Hv|].
  apply (unmarshal_safe env sup c); try assumption. apply bytes_ok_skipn. assumption.
Qed.

(** The only panic left, told in terms of the calls that built the codec. *)
Lemma assign_calls env h ci ii : clean env new_codec h = true -> let c := run env new_codec h in
  In ci (cd_concretes c) -> In ii (cd_ifaces c) -> te_impl env (reg_form ci) (ii_id ii) = false ->
  exists t n i o, In (t, n) (conc_calls h) /\ In (i, o) (iface_calls h) /\ te_impl env t i = false.
Proof.
  intros C c Hci Hii F. destruct (run_registered env h new_codec C) as (cs & is & R1 & R2 & R3 & R4).
  cbn [new_codec cd_concretes cd_ifaces map app] in *. subst c. rewrite R2 in Hci.
  destruct (emap_in _ _ _ R1) as [_ A1]. destruct (A1 _ Hci) as ([t n] & Hin & Hcall).
  unfold reg_call in Hcall. cbn [fst snd] in Hcall. destruct (new_registered_spec _ _ _ _ _ Hcall) as (_ & Ht & _ & _ & r & Hr & _ & Hp).
  assert (Hb : In (bare_iface ii) (map bare_iface is)) by (rewrite <- R4; apply in_map; assumption).
  apply in_map_iff in Hb. destruct Hb as (ii' & Hb & Hin'). destruct (emap_in _ _ _ R3) as [_ A3].
  destruct (A3 _ Hin') as ([i o] & Hini & Hc'). unfold iface_call in Hc'. cbn [fst snd] in Hc'. apply new_iface_spec in Hc'. destruct Hc' as [Hid _].
  exists t, n, i, o. splits; try assumption. unfold reg_form in F. rewrite Hr, Hp, Ht in F.
  assert (E : ii_id ii = i) by (rewrite <- Hid; unfold bare_iface, with_impls in Hb; injection Hb as Hb _ _; congruence).
  rewrite <- E. destruct t; cbn [is_ptr conc_of] in F; exact F.
Qed.

Lemma conc_calls_sup env (sup : gotype -> Prop) h : clean env new_codec h = true ->
  (forall t n, In (t, n) (conc_calls h) -> sup (conc_of t)) ->
  forall ci, In ci (cd_concretes (run env new_codec h)) -> sup (ci_type ci).
Proof.
  intros C H ci Hci. destruct (run_registered env h new_codec C) as (cs & is & R1 & R2 & R3 & R4).
  cbn [new_codec cd_concretes app] in *. rewrite R2 in Hci.
  destruct (emap_in _ _ _ R1) as [_ A1]. destruct (A1 _ Hci) as ([t n] & Hin & Hcall).
  unfold reg_call in Hcall. cbn [fst snd] in Hcall. destruct (new_registered_spec _ _ _ _ _ Hcall) as (_ & Ht & _).
  rewrite Ht. eapply H. eassumption.
Qed.
Theorem unmarshal_history_safe env sup h : wf_env env -> env_msgs env -> sup_set env sup ->
  clean env new_codec h = true -> (forall t n, In (t, n) (conc_calls h) -> sup (conc_of t)) ->
  forall fuel bz t v0 p, bytes_ok bz -> use sup t -> has_type env t v0 = true -> target_ok env t v0 ->
  let c := run env new_codec h in
  unmarshal_bare fuel env c bz t v0 = UPanic p \/ unmarshal_length_prefixed fuel env c bz t v0 = UPanic p ->
  p = assign_msg /\
  exists t' n i o, In (t', n) (conc_calls h) /\ In (i, o) (iface_calls h) /\ te_impl env t' i = false.
Proof.
  intros We Hm Hs Hc Hreg fuel bz t v0 p Hok Hu Hv Ht c.
  pose proof (wf_history env h Hc) as W. pose proof (sane_run env h) as Sa. pose proof (conc_calls_sup env sup h Hc Hreg) as Hreg'.
  assert (D : PP env c p /\ p <> slide_msg -> p = assign_msg /\
     exists t' n i o, In (t', n) (conc_calls h) /\ In (i, o) (iface_calls h) /\ te_impl env t' i = false).
  { intros [[[E (ci & ii & H1 & H2 & H3)]|E] N]; [|contradiction]. split; [exact E|]. exact (assign_calls env h ci ii Hc H1 H2 H3). }
  intros [E|E]; apply D.
  - pose proof (unmarshal_safe env sup c We Hm Hs W Sa Hreg' fuel bz t v0 Hok Hu Hv Ht) as U. rewrite E in U. exact U.
  - pose proof (unmarshal_length_safe env sup c We Hm Hs W Sa Hreg' fuel bz t v0 Hok Hu Hv Ht) as U. rewrite E in U. exact U.
Qed.

(** ** Deciding the hypotheses for a finite set of types *)

Definition useb (l : list gotype) (t : gotype) : bool :=
  existsb (gotype_eqb (deref_type t)) l &&
  negb (is_ptr t && match deref_type t with TIface _ => true | _ => false end).
Definition elemb (env : tenv) (l : list gotype) (e : gotype) : bool :=
  if is_uint8 env e then gotype_eqb e (TPrim PUint8) else useb l e.
Definition supb (env : tenv) (l : list gotype) (t : gotype) : bool :=
  match t with
  | TPtr _ => false
  | TIface _ => true
  | _ =>
      match new_type_info env t with EOk _ => true | _ => false end &&
      match unmarshal_repr env t with
      | EOk (Some r) => useb l r && match resolve env t with RFunc | ROther => false | _ => true end
      | _ =>
          match resolve env t with
          | RPrim _ | RTime => true
          | RArray _ e | RSlice e => elemb env l e
          | RStruct fs => forallb (fun f => negb (sf_exported f) || match parse_field_options f with None => true | _ => false end
                                            || useb l (sf_type f)) fs
          | _ => false
          end
      end
  end.
Lemma useb_ok l t : useb l t = true -> use (fun t => In t l) t.
Proof.
  unfold useb, use. intros H. apply andb_true_iff in H. destruct H as [H1 H2]. split.
  - apply existsb_exists in H1. destruct H1 as (x & Hx & E). apply gotype_eqb_eq in E. rewrite E. exact Hx.
  - intros Hp i E. rewrite Hp, E in H2. discriminate.
Qed.
Lemma elemb_ok env l e : elemb env l e = true -> elem_ok env (fun t => In t l) e.
Proof. unfold elemb, elem_ok. destruct (is_uint8 env e); [apply gotype_eqb_eq|apply useb_ok]. Qed.
Lemma supb_ok env l t : (forall r, unmarshal_repr env t = EOk (Some r) -> unmarshal_ok env t r) ->
  supb env l t = true -> sup_ok env (fun t => In t l) t.
Proof.
  intros Hu. unfold supb, sup_ok.
  assert (G :
      match new_type_info env t with EOk _ => true | _ => false end &&
      match unmarshal_repr env t with
      | EOk (Some r) => useb l r && match resolve env t with RFunc | ROther => false | _ => true end
      | _ =>
          match resolve env t with
          | RPrim _ | RTime => true
          | RArray _ e | RSlice e => elemb env l e
          | RStruct fs => forallb (fun f => negb (sf_exported f) || match parse_field_options f with None => true | _ => false end
                                            || useb l (sf_type f)) fs
          | _ => false
          end
      end = true ->
      (exists ci, new_type_info env t = EOk ci) /\
      match unmarshal_repr env t with
      | EOk (Some r) => use (fun t => In t l) r /\ unmarshal_ok env t r /\
          match resolve env t with RFunc | ROther => False | _ => True end
      | _ =>
          match resolve env t with
          | RPrim _ | RTime => True
          | RArray _ e | RSlice e => elem_ok env (fun t => In t l) e
          | RStruct fs => forall f, In f fs -> sf_exported f = true -> parse_field_options f <> None -> use (fun t => In t l) (sf_type f)
          | _ => False
          end
      end).
  { intros H. apply andb_true_iff in H. destruct H as [H1 H2].
    destruct (new_type_info env t) as [ci| | |]; try discriminate. split; [exists ci; reflexivity|].
    assert (N : match resolve env t with
          | RPrim _ | RTime => true
          | RArray _ e | RSlice e => elemb env l e
          | RStruct fs => forallb (fun f => negb (sf_exported f) || match parse_field_options f with None => true | _ => false end
                                            || useb l (sf_type f)) fs
          | _ => false
          end = true -> match resolve env t with
          | RPrim _ | RTime => True
          | RArray _ e | RSlice e => elem_ok env (fun t => In t l) e
          | RStruct fs => forall f, In f fs -> sf_exported f = true -> parse_field_options f <> None -> use (fun t => In t l) (sf_type f)
          | _ => False
          end).
    { destruct (resolve env t); try discriminate; try (intros; exact I); try apply elemb_ok.
      intros F f Hf He Hp. rewrite forallb_forall in F. specialize (F f Hf). rewrite He in F. cbn [negb orb] in F.
      destruct (parse_field_options f); [|contradiction]. apply useb_ok, F. }
    destruct (unmarshal_repr env t) as [[r|]| | |]; try (exact (N H2)).
    apply andb_true_iff in H2. destruct H2 as [H2 H3]. split; [apply useb_ok, H2|]. split; [apply Hu; reflexivity|].
    destruct (resolve env t); try discriminate; exact I. }
  destruct t; try exact G; [discriminate|intros; exact I].
Qed.
Lemma supb_set env l : (forall t r, unmarshal_repr env t = EOk (Some r) -> unmarshal_ok env t r) ->
  forallb (supb env l) l = true -> sup_set env (fun t => In t l).
Proof. intros Hu H t Ht. rewrite forallb_forall in H. apply supb_ok; auto. Qed.
