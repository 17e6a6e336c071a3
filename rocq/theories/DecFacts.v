(** Facts about binary-decode.go that hold for every input: reported counts,
    progress, and unreachability of the "impossible slide" panic. *)
From Coq Require Import ZArith String List Bool Lia.
From Coq Require Import ZifyBool ZifyNat.
From Verif Require Import Base Prims SpecWire PrimFacts PrimProps Types Codec BinEnc BinDec.
Import ListNotations.
Local Open Scope Z_scope.

(** ** A small predicate-transformer calculus for decoder results *)

Definition dspec {A} (Q : A -> nat -> option error -> Prop) (P : panicmsg -> Prop) (F : Prop)
           (r : dres A) : Prop :=
  match r with
  | DRet a n e => Q a n e
  | DPanic p => P p
  | DFuel => F
  end.

Lemma dspec_mono {A} (Q Q' : A -> nat -> option error -> Prop) (P P' : panicmsg -> Prop) (F F' : Prop) r :
  (forall a n e, Q a n e -> Q' a n e) -> (forall p, P p -> P' p) -> (F -> F') ->
  dspec Q P F r -> dspec Q' P' F' r.
Proof. destruct r; cbn; auto. Qed.

Lemma dspec_weaken {A} (Q Q' : A -> nat -> option error -> Prop) (P : panicmsg -> Prop) (F : Prop) r :
  dspec Q P F r -> (forall a n e, Q a n e -> Q' a n e) -> dspec Q' P F r.
Proof. destruct r; cbn; auto. Qed.

Lemma dspec_bind {A B} (Q : B -> nat -> option error -> Prop) P F (r : dres A) k :
  dspec (fun a n e => dspec Q P F (k a n e)) P F r -> dspec Q P F (dbind r k).
Proof. destruct r; cbn; auto. Qed.

Lemma dspec_eget {A B} (Q : B -> nat -> option error -> Prop) P F (r : eres A) kerr k :
  (forall a, r = EOk a -> dspec Q P F (k a)) ->
  (forall e, r = EErr e -> dspec Q P F (kerr e)) ->
  (forall p, r = EPanic p -> P p) -> (r = EFuel -> F) ->
  dspec Q P F (eget r kerr k).
Proof. destruct r; cbn; intros H1 H2 H3 H4; [apply H1 | apply H2 | apply H3 | apply H4]; reflexivity. Qed.

Lemma dspec_slide {A} (Q : A -> nat -> option error -> Prop) P F bz n k :
  (n <= length bz)%nat -> dspec Q P F (k (skipn n bz)) -> dspec Q P F (slide bz n k).
Proof. intros H1 H2. rewrite slide_le by assumption. exact H2. Qed.

Lemma dspec_and {A} (Q1 Q2 : A -> nat -> option error -> Prop) P1 P2 (F1 F2 : Prop) r :
  dspec Q1 P1 F1 r -> dspec Q2 P2 F2 r ->
  dspec (fun a n e => Q1 a n e /\ Q2 a n e) (fun p => P1 p /\ P2 p) (F1 /\ F2) r.
Proof. destruct r; cbn; auto. Qed.

(** ** Frames *)

Lemma byte_slice_frame bz b n : bytes_ok bz -> decode_byte_slice bz = DRet b n None ->
  (Z.to_nat (uvarint_size (zlen b)) + length b <= n)%nat /\ (n <= length bz)%nat /\
  (1 <= Z.to_nat (uvarint_size (zlen b)))%nat /\ bytes_ok b /\ (length b < length bz)%nat.
Proof.
  intros Hok H. destruct (decode_byte_slice_some _ _ _ H) as (u & m & Hu & Hm & Hpos & Hn & Hl & Hbz & Hle).
  destruct (decode_uvarint_minimal _ _ _ Hok Hu) as (_ & Hmin & _).
  pose proof (decode_uvarint_range _ _ _ Hok Hu) as Hr.
  assert (Hs : i64 u = u).
  { destruct (Z_lt_le_dec u (2 ^ 63)); [apply i64_small; lia|]. rewrite (i64_neg u) in Hpos by lia. lia. }
  rewrite Hs in Hl. rewrite <- Hl. pose proof (encode_uvarint_length u Hr) as Hsz.
  unfold zlen in Hsz. pose proof (encode_uvarint_nonnil u Hr).
  assert (bytes_ok b). { rewrite Hbz in Hok. apply bytes_ok_app in Hok. destruct Hok as [_ Hok].
    apply bytes_ok_app in Hok. apply Hok. }
  splits; try assumption; lia.
Qed.

(** ** Theorem A: counts and progress *)

Definition slide_msg : panicmsg := "impossible slide"%string.

Definition good {A} (bare : bool) (bz : bytes) (r : dres A) : Prop :=
  dspec (fun _ n e => (n <= length bz)%nat /\ (e = None -> bare = false -> bz <> [] -> (1 <= n)%nat))
        (fun p => p <> slide_msg) True r.

(** User code (MarshalAmino etc.) does not panic with amino's own message. *)
Record env_msgs (env : tenv) : Prop := {
  em_m : forall id p, te_marshal env id = Some (MBad p) -> p <> slide_msg;
  em_u : forall id p, te_unmarshal env id = Some (UBad p) -> p <> slide_msg;
  em_g : forall id r g v w p, te_unmarshal env id = Some (UOk r g) -> g v w = EPanic p -> p <> slide_msg
}.

Lemma type_to_typ3_panic env t o p : type_to_typ3 env t o = EPanic p -> p = "unsupported field type"%string.
Proof.
  unfold type_to_typ3. destruct (resolve env t) as [[]| | | | | | | | | |];
    try destruct (fo_fixed64 o); try destruct (fo_fixed32 o); intros H; inversion H; reflexivity.
Qed.

Section NoSlide.
  Variable env : tenv.
  Hypothesis Henv : env_msgs env.

  Lemma parse_fields_panic fs : forall i num p, parse_fields env fs i num = EPanic p -> p <> slide_msg.
  Proof.
    induction fs as [|f fs IH]; intros i num p; cbn [parse_fields]; [discriminate|].
    destruct (negb (sf_exported f)); [apply IH|].
    destruct (parse_field_options f) as [o|]; [|apply IH].
    unfold unpacked_list, check_unsafe, ebind.
    destruct (resolve env (sf_type f)) as [[]| | | | | | | | | |]; try destruct (is_uint8 env _);
      try (destruct (type_to_typ3 env _ _) as [| |q|] eqn:E;
           [|discriminate|intros H; inversion H; subst; apply type_to_typ3_panic in E; subst; discriminate|discriminate]);
      try destruct (fo_unsafe _);
      try (intros H; inversion H; subst; discriminate);
      destruct (parse_fields env fs (S i) (S num)) as [| |q2|] eqn:E2; intros H; inversion H; subst;
      eapply IH; eassumption.
  Qed.

  Lemma new_type_info_panic t p : new_type_info env t = EPanic p -> p <> slide_msg.
  Proof.
    destruct t; cbn [new_type_info]; unfold ebind; try (intros H; inversion H; subst; discriminate);
    unfold parse_struct_info, marshal_repr, unmarshal_repr; cbn [resolve]; try discriminate.
    assert (Hp : forall fs q, parse_fields env fs 0 0 = EPanic q -> q <> slide_msg) by (intros; eapply parse_fields_panic; eassumption).
    assert (Hrest : (match (match te_marshal env id with
                 | None => EOk None | Some (MBad p) => EPanic p
                 | Some (MOk (TPtr _) _) => EPanic "Representative objects cannot be pointers"%string
                 | Some (MOk r _) => EOk (Some r) end) with EPanic q => q <> slide_msg | _ => True end) /\
                    (match (match te_unmarshal env id with
                 | None => EOk None | Some (UBad p) => EPanic p
                 | Some (UOk (TPtr _) _) => EPanic "Representative objects cannot be pointers"%string
                 | Some (UOk r _) => EOk (Some r) end) with EPanic q => q <> slide_msg | _ => True end)).
    { split.
      - destruct (te_marshal env id) as [[q|r f]|] eqn:E; [|destruct r; try exact I; discriminate|exact I].
        eapply (em_m env Henv); eassumption.
      - destruct (te_unmarshal env id) as [[q|r f]|] eqn:E; [|destruct r; try exact I; discriminate|exact I].
        eapply (em_u env Henv); eassumption. }
    destruct Hrest as [H1 H2]. revert H1 H2.
    destruct (match te_marshal env id with None => _ | _ => _ end); destruct (match te_unmarshal env id with None => _ | _ => _ end);
    intros H1 H2;
    (destruct (match te_def env id with UStruct _ => _ | UType _ => _ end) as [| | | | | | | | |fs|];
     try (intros H; inversion H; subst; assumption);
     destruct (parse_fields env fs 0 0) eqn:E; intros H; inversion H; subst; try assumption;
     eapply Hp; eassumption).
  Qed.

  Lemma get_type_info_panic c t p : get_type_info env c t = EPanic p -> p <> slide_msg.
  Proof.
    unfold get_type_info. destruct (deref_type t); 
      try (destruct (find_iface _ _); discriminate);
      (destruct (assoc _ _ _); [discriminate|]; unfold ebind;
       destruct (new_type_info env _) eqn:E; intros H; inversion H; subst;
       eapply new_type_info_panic; eassumption).
  Qed.

  Variable c : codec.
  Variable rec : bytes -> tinfo -> gotype -> value -> fopts -> bool -> dres value.
  Hypothesis Hrec : forall bz info t v0 o bare, bytes_ok bz -> good bare bz (rec bz info t v0 o bare).

  Ltac notmsg := intros; subst; discriminate.
  Ltac ret := cbn [dspec fst snd]; splits; intros; try discriminate; try lia.

  Lemma good_set_scalar {A} bare v0 bz (r : dres A) f :
    well_behaved (fun _ => r) \/ True ->
    (exists a n e, r = DRet a n e /\ (n <= length bz)%nat /\ (e = None -> (1 <= n)%nat)) ->
    (forall a, exists v n e, f a = DRet v n e) ->
    good bare bz (set_scalar v0 bz r f).
  Proof.
    clear Hrec rec c Henv.
    intros _ (a & n & e & -> & Hn & Hp) Hf. unfold good, set_scalar. cbn [dbind].
    rewrite slide_le by assumption. destruct e.
    - ret.
    - destruct (Hf a) as (v & k & e & ->). cbn [dbind]. ret.
  Qed.

  Lemma wb_use {A} (d : bytes -> dres A) bz : well_behaved d ->
    exists a n e, d bz = DRet a n e /\ (n <= length bz)%nat /\ (e = None -> (1 <= n)%nat).
  Proof.
    clear Hrec rec c Henv.
    intros (H1 & H2 & _). destruct (H1 bz) as (a & n & e & E & Hn). exists a, n, e.
    splits; try assumption. intros ->. eapply H2; eassumption.
  Qed.

  Lemma wb_int8 : well_behaved decode_int8.  Proof. apply wb_narrow, wb_varint. Qed.
  Lemma wb_int16 : well_behaved decode_int16. Proof. apply wb_narrow, wb_varint. Qed.
  Lemma wb_uint8 : well_behaved decode_uint8. Proof. apply wb_narrow, wb_uvarint. Qed.
  Lemma wb_uint16 : well_behaved decode_uint16. Proof. apply wb_narrow, wb_uvarint. Qed.
  Lemma wb_int32 : well_behaved decode_int32. Proof. apply wb_fixed; lia. Qed.
  Lemma wb_int64 : well_behaved decode_int64. Proof. apply wb_fixed; lia. Qed.
  Lemma wb_uint32 : well_behaved decode_uint32. Proof. apply wb_fixed; lia. Qed.
  Lemma wb_uint64 : well_behaved decode_uint64. Proof. apply wb_fixed; lia. Qed.
  Lemma wb_float32 : well_behaved decode_float32. Proof. apply wb_fixed; lia. Qed.
  Lemma wb_float64 : well_behaved decode_float64. Proof. apply wb_fixed; lia. Qed.
  Lemma wb_string : well_behaved decode_string. Proof. apply wb_byte_slice. Qed.

  Lemma good_prim bare p v0 bz o : good bare bz (decode_prim p v0 bz o).
  Proof.
    clear Hrec rec c Henv.
    unfold decode_prim.
    destruct p; try destruct (fo_fixed64 o); try destruct (fo_fixed32 o);
      try (destruct (negb (fo_unsafe o)); [unfold good; ret|]);
      (apply good_set_scalar;
       [right; exact I
       |apply wb_use; first [apply wb_uvarint|apply wb_int8|apply wb_int16|apply wb_uint8|apply wb_uint16
            |apply wb_int32|apply wb_int64|apply wb_uint32|apply wb_uint64|apply wb_bool
            |apply wb_float32|apply wb_float64|apply wb_string]
       |intros a; try (destruct (_ || _)); eexists _, _, _; reflexivity]).
  Qed.

  (** Entering a frame: the continuation may report up to the frame's length. *)
  Lemma good_enter {A} (v0 : A) bare bz k :
    bytes_ok bz ->
    (forall b n0, bytes_ok b -> (n0 + length b <= length bz)%nat -> (bare = false -> (1 <= n0)%nat) ->
       (bare = false -> (length b < length bz)%nat) -> (bare = true -> b = bz /\ n0 = 0%nat) ->
       dspec (fun _ n e => (n0 <= n <= n0 + length b)%nat) (fun p => p <> slide_msg) True (k b n0)) ->
    good bare bz (enter v0 bare bz k).
  Proof.
    intros Hok Hk. unfold enter, good. destruct bare.
    - eapply dspec_weaken; [apply Hk|]; try assumption; try lia; try discriminate.
      + intros _. split; reflexivity.
      + cbn beta. intros a n e Hn. split; [lia|discriminate].
    - destruct (decode_byte_slice_ret bz) as (b & n & e & E & Hn). rewrite E. cbn [dbind].
      rewrite slide_le by assumption. destruct e as [e|]; [ret|].
      apply byte_slice_frame in E; [|assumption]. destruct E as (H1 & H2 & H3 & H4 & H5).
      eapply dspec_weaken; [apply Hk|]; try assumption; try lia; try discriminate.
      cbn beta. intros a n' e Hn'. split; [lia|]. intros; lia.
  Qed.

  Lemma good_set_iface ii ci v k Q :
    (forall w, dspec Q (fun p => p <> slide_msg) True (k w)) ->
    dspec Q (fun p => p <> slide_msg) True (set_iface env ii ci v k).
  Proof.
    intros Hk. unfold set_iface. destruct (match ci_reg ci with Some r => ri_ptr r | None => false end);
    destruct (te_impl env _ _); try apply Hk; cbn; discriminate.
  Qed.

  Lemma disamb_ret bz : exists dp n e, decode_disamb_prefix bz = DRet dp n e /\ (n <= length bz)%nat /\
    (e = None -> (4 <= n)%nat).
  Proof.
    clear Hrec rec c Henv.
    unfold decode_disamb_prefix. destruct (length bz <? 4)%nat eqn:E.
    { eexists _, _, _. splits; try reflexivity; try discriminate; try lia. }
    destruct bz as [|[|p|p] bz]; [cbn in E; lia | |..];
      [destruct (length _ <? 8)%nat eqn:E8|..]; eexists _, _, _; splits; try reflexivity; try discriminate; try lia.
  Qed.

  Lemma type_info_from_prefix_panic ii pb p : type_info_from_prefix ii pb = EPanic p -> p <> slide_msg.
  Proof.
    unfold type_info_from_prefix. destruct (assoc _ _ _) as [[|ci [|]]|]; intros H; inversion H; subst; discriminate.
  Qed.

  Lemma key_ret bz : exists k n e, decode_field_key bz = DRet k n e /\ (n <= length bz)%nat /\ (e = None -> (1 <= n)%nat).
  Proof.
    clear Hrec rec c Henv.
    destruct (decode_field_key_ret bz) as (k & n & e & E & Hn). exists k, n, e. splits; try assumption.
    intros ->. apply decode_field_key_pos in E. lia.
  Qed.

  Lemma length_skipn {A} n (l : list A) : length (skipn n l) = (length l - n)%nat.
  Proof. apply skipn_length. Qed.

  Lemma good_interface bz ii v0 o bare : bytes_ok bz -> good bare bz (decode_interface env c rec bz ii v0 o bare).
  Proof.
    intros Hok. unfold decode_interface.
    destruct v0 as [| | | | | | | | | |[v|]| | | |]; try (unfold good; cbn; discriminate).
    { unfold good. ret. }
    apply good_enter; [assumption|]. intros b n0 Hb Hlen Hn0 _ _.
    destruct (disamb_ret b) as (dp & n1 & e & -> & Hn1 & _). cbn [dbind].
    rewrite slide_le by assumption. destruct e as [e|]; [ret|].
    apply dspec_eget.
    2:{ intros e _. ret. }
    2:{ intros p. destruct (fst dp); [unfold type_info_from_disfix; destruct (assoc _ _ _); discriminate|].
        apply type_info_from_prefix_panic. }
    2:{ auto. }
    intros ci _. cbv zeta.
    assert (Hgo : forall bz2 n2, bytes_ok bz2 -> (n0 <= n2)%nat -> (n2 + length bz2 <= n0 + length b)%nat ->
      dspec (fun _ n e => (n0 <= n <= n0 + length b)%nat) (fun p => p <> slide_msg) True
       (dbind (rec bz2 (TIConc ci) (ci_type ci) (zero env (ci_type ci)) o true) (fun v n3 e =>
              slide bz2 n3 (fun bz3 =>
              let n3 := (n2 + n3)%nat in
              match e with
              | Some e => set_iface env ii ci v (fun r => DRet r n3 (Some e))
              | None =>
                  match bz3 with
                  | _ :: _ => DRet (VIface None) n3 (Some "bytes left over after reading interface contents"%string)
                  | [] => set_iface env ii ci v (fun r => DRet r n3 None)
                  end
              end)))).
    { intros bz2 n2 Hok2 Hn2 Hl2. apply dspec_bind.
      eapply dspec_weaken; [apply Hrec; assumption|].
      cbn beta. intros v n e [Hn _]. rewrite slide_le by assumption. cbv zeta.
      destruct e as [e|]; [apply good_set_iface; intros; ret|].
      destruct (skipn n bz2); [apply good_set_iface; intros; ret | ret]. }
    destruct (wants_key env ci (skipn n1 b) o).
    - destruct (key_ret (skipn n1 b)) as (kt & nk & e & -> & Hnk & _). cbn [dbind]. rewrite length_skipn in Hnk.
      destruct e as [e|]; [ret|]. destruct (negb _); [ret|].
      apply dspec_eget; [intros tw _ | intros; ret | intros p Hp; apply type_to_typ3_panic in Hp; subst; discriminate | auto].
      destruct (negb _); [ret|]. rewrite slide_le by (rewrite length_skipn; lia). apply Hgo.
      + do 2 apply bytes_ok_skipn. assumption.
      + lia.
      + rewrite !length_skipn. lia.
    - apply Hgo; [apply bytes_ok_skipn; assumption | lia | rewrite length_skipn; lia].
  Qed.

  Lemma good_byte_array bare bz len ert v0 : bytes_ok bz -> good bare bz (decode_byte_array bz len ert v0).
  Proof.
    intros Hok. unfold decode_byte_array, good. destruct (length bz <? len)%nat; [ret|].
    destruct (wb_use decode_byte_slice bz wb_byte_slice) as (b & n & e & -> & Hn & Hp). cbn [dbind].
    rewrite slide_le by assumption. destruct e; [ret|]. specialize (Hp eq_refl).
    destruct (negb _); [ret|]. destruct (gotype_eqb _ _); ret; discriminate.
  Qed.

  Lemma good_byte_slice_val bare bz ert v0 : bytes_ok bz -> good bare bz (decode_byte_slice_val bz ert v0).
  Proof.
    intros Hok. unfold decode_byte_slice_val, good. destruct bz as [|b0 bz']; [ret; congruence|].
    set (bz := b0 :: bz') in *.
    destruct (wb_use decode_byte_slice bz wb_byte_slice) as (b & n & e & -> & Hn & Hp). cbn [dbind].
    rewrite slide_le by assumption. destruct e; [ret|]. specialize (Hp eq_refl).
    destruct b; [ret|]. destruct (gotype_eqb _ _); ret; discriminate.
  Qed.

  Lemma good_array_packed einfo ert o : forall todo bz n done, bytes_ok bz ->
    dspec (fun r n' e => (n <= n')%nat /\ (n' + length (snd r) <= n + length bz)%nat /\ bytes_ok (snd r))
          (fun p => p <> slide_msg) True
          (decode_array_packed env rec bz n einfo ert o done todo).
  Proof.
    induction todo as [|w0 todo IH]; intros bz n done Hok; cbn [decode_array_packed]; [ret; assumption|].
    apply dspec_bind. eapply dspec_weaken; [apply Hrec; assumption|].
    cbn beta. intros w k e [Hk _]. rewrite slide_le by assumption.
    pose proof (bytes_ok_skipn k bz Hok). pose proof (length_skipn k bz).
    destruct e as [e|]; [ret; cbn [snd]; try lia; assumption|].
    eapply dspec_weaken; [apply IH; assumption|].
    cbn beta. intros r n' e' (H1 & H2 & H3). splits; try assumption; lia.
  Qed.

  Lemma good_array_unpacked einfo ert o : forall todo bz n done, bytes_ok bz ->
    dspec (fun r n' e => (n <= n')%nat /\ (n' + length (snd r) <= n + length bz)%nat /\ bytes_ok (snd r))
          (fun p => p <> slide_msg) True
          (decode_array_unpacked env rec bz n einfo ert o done todo).
  Proof.
    induction todo as [|w0 todo IH]; intros bz n done Hok; cbn [decode_array_unpacked]; [ret; assumption|].
    destruct (key_ret bz) as (kt & k & e & -> & Hk & _). cbn [dbind].
    destruct (negb _); [ret; assumption|]. destruct (negb _); [ret; assumption|].
    rewrite slide_le by assumption. cbv zeta.
    pose proof (bytes_ok_skipn k bz Hok) as Hok1. pose proof (length_skipn k bz) as Hl1.
    destruct e as [e|]; [ret; cbn [snd]; try lia; assumption|].
    set (bz1 := skipn k bz) in *.
    destruct (skip_empty env einfo ert o bz1) eqn:Es.
    - assert (1 <= length bz1)%nat by (unfold skip_empty in Es; destruct bz1; [discriminate|cbn; lia]).
      eapply dspec_weaken; [apply IH; apply bytes_ok_skipn; assumption|].
      cbn beta. rewrite length_skipn. intros r n' e' (H1 & H2 & H3). splits; try assumption; lia.
    - apply dspec_bind. eapply dspec_weaken; [apply Hrec; assumption|].
      cbn beta. intros w k2 e [Hk2 _]. rewrite slide_le by assumption.
      pose proof (bytes_ok_skipn k2 bz1 Hok1). pose proof (length_skipn k2 bz1).
      destruct e as [e|]; [ret; cbn [snd]; try lia; assumption|].
      eapply dspec_weaken; [apply IH; assumption|].
      cbn beta. intros r n' e' (H1 & H2 & H3). splits; try assumption; lia.
  Qed.

  Lemma good_array bz ert v0 o bare : bytes_ok bz -> good bare bz (decode_array env c rec bz ert v0 o bare).
  Proof.
    intros Hok. unfold decode_array. destruct (is_uint8 env ert); [unfold good; cbn; discriminate|].
    destruct v0; try (unfold good; cbn; discriminate).
    unfold good. apply dspec_eget; [intros einfo _ | intros; ret | apply get_type_info_panic | auto].
    apply good_enter; [assumption|]. intros b n0 Hb Hlen Hn0 _ _.
    apply dspec_eget; [intros typ3 _ | intros; ret | intros p Hp; apply type_to_typ3_panic in Hp; subst; discriminate | auto].
    destruct (negb _).
    - apply dspec_bind. eapply dspec_weaken; [apply good_array_packed; assumption|].
      cbn beta. intros [l' bz'] n e (H1 & H2 & H3). cbn [snd] in *.
      destruct e as [e|]; [ret|]. destruct bz'; ret.
    - apply dspec_bind. eapply dspec_weaken; [apply good_array_unpacked; assumption|].
      cbn beta. intros [l' bz'] n e (H1 & H2 & H3). cbn [snd] in *.
      destruct e as [e|]; [ret|]. destruct bz' as [|x bz']; [ret|].
      destruct (key_ret (x :: bz')) as (kt & k & e & -> & Hk & _). cbn [dbind].
      destruct e; [ret|]. destruct (_ <=? _); ret.
  Qed.

  Lemma good_slice_packed einfo ert o : forall k bz n done, bytes_ok bz ->
    dspec (fun r n' e => (n <= n')%nat /\ (n' <= n + length bz)%nat) (fun p => p <> slide_msg) True
          (decode_slice_packed env rec k bz n einfo ert o done).
  Proof.
    induction k as [|k IH]; intros bz n done Hok; destruct bz as [|b0 bz']; cbn [decode_slice_packed];
      try (ret; fail); try exact I. set (bz := b0 :: bz') in *.
    apply dspec_bind. eapply dspec_weaken; [apply Hrec; assumption|].
    cbn beta. intros w m e [Hm _]. rewrite slide_le by assumption.
    pose proof (bytes_ok_skipn m bz Hok). pose proof (length_skipn m bz).
    destruct e as [e|]; [ret|].
    eapply dspec_weaken; [apply IH; assumption|]. cbn beta. intros; lia.
  Qed.

  Lemma good_slice_unpacked einfo ert o : forall k bz n done, bytes_ok bz ->
    dspec (fun r n' e => (n <= n')%nat /\ (n' <= n + length bz)%nat) (fun p => p <> slide_msg) True
          (decode_slice_unpacked env rec k bz n einfo ert o done).
  Proof.
    induction k as [|k IH]; intros bz n done Hok; destruct bz as [|b0 bz']; cbn [decode_slice_unpacked];
      try (ret; fail); try exact I. set (bz := b0 :: bz') in *.
    destruct (key_ret bz) as (kt & m & e & -> & Hm & _). cbn [dbind].
    destruct (_ <? _); [ret|]. destruct (_ <? _); [ret|]. destruct (negb _); [ret|].
    rewrite slide_le by assumption. cbv zeta.
    pose proof (bytes_ok_skipn m bz Hok) as Hok1. pose proof (length_skipn m bz) as Hl1.
    destruct e as [e|]; [ret|]. set (bz1 := skipn m bz) in *.
    destruct (skip_empty env einfo ert o bz1) eqn:Es.
    - assert (1 <= length bz1)%nat by (unfold skip_empty in Es; destruct bz1; [discriminate|cbn; lia]).
      eapply dspec_weaken; [apply IH; apply bytes_ok_skipn; assumption|].
      cbn beta. rewrite length_skipn. intros; lia.
    - apply dspec_bind. eapply dspec_weaken; [apply Hrec; assumption|].
      cbn beta. intros w k2 e [Hk2 _]. rewrite slide_le by assumption.
      pose proof (bytes_ok_skipn k2 bz1 Hok1). pose proof (length_skipn k2 bz1).
      destruct e as [e|]; [ret|].
      eapply dspec_weaken; [apply IH; assumption|]. cbn beta. intros; lia.
  Qed.

  Lemma good_slice bz ert v0 o bare : bytes_ok bz -> good bare bz (decode_slice env c rec bz ert v0 o bare).
  Proof.
    intros Hok. unfold decode_slice. destruct (is_uint8 env ert); [unfold good; cbn; discriminate|].
    unfold good. apply dspec_eget; [intros einfo _ | intros; ret | apply get_type_info_panic | auto].
    apply good_enter; [assumption|]. intros b n0 Hb Hlen Hn0 _ _.
    apply dspec_eget; [intros typ3 _ | intros; ret | intros p Hp; apply type_to_typ3_panic in Hp; subst; discriminate | auto].
    apply dspec_bind.
    destruct (negb _).
    - eapply dspec_weaken; [apply good_slice_packed; assumption|].
      cbn beta. intros l n e (H1 & H2). destruct e as [e|]; ret.
    - eapply dspec_weaken; [apply good_slice_unpacked; assumption|].
      cbn beta. intros l n e (H1 & H2). destruct e as [e|]; ret.
  Qed.

  Lemma good_field f l bz last n : bytes_ok bz ->
    dspec (fun st n' e => (n <= n')%nat /\ (n' + length (snd (fst st)) <= n + length bz)%nat /\ bytes_ok (snd (fst st)))
          (fun p => p <> slide_msg) True (decode_field env c rec f l bz last n).
  Proof.
    intros Hok. unfold decode_field. cbv zeta.
    apply dspec_eget; [intros info _ | intros; ret; assumption | apply get_type_info_panic | auto].
    destruct bz as [|b0 bz']; [ret; assumption|]. set (bz := b0 :: bz') in *.
    destruct (fi_unpacked f).
    - apply dspec_bind. eapply dspec_weaken; [apply Hrec; assumption|].
      cbn beta. intros w m e [Hm _]. rewrite slide_le by assumption.
      ret; cbn [fst snd]; [rewrite length_skipn; lia | apply bytes_ok_skipn; assumption].
    - destruct (key_ret bz) as ([fnum typ] & m & e & -> & Hm & _). cbn [dbind].
      destruct (_ <? _); [ret; assumption|]. destruct (_ <=? _); [ret; assumption|].
      rewrite slide_le by assumption. cbv zeta.
      pose proof (bytes_ok_skipn m bz Hok) as Hok1. pose proof (length_skipn m bz) as Hl1.
      destruct e as [e|]; [ret; cbn [fst snd]; try lia; assumption|].
      destruct (negb _); [ret; cbn [fst snd]; try lia; assumption|].
      apply dspec_eget; [intros tw _ | intros; ret; cbn [fst snd]; try lia; assumption
                        | intros p Hp; apply type_to_typ3_panic in Hp; subst; discriminate | auto].
      destruct (negb _); [ret; cbn [fst snd]; try lia; assumption|].
      apply dspec_bind. eapply dspec_weaken; [apply Hrec; assumption|].
      cbn beta. intros w m2 e [Hm2 _]. rewrite slide_le by assumption.
      ret; cbn [fst snd]; [rewrite length_skipn; lia | apply bytes_ok_skipn; assumption].
  Qed.

  Lemma good_fields : forall fs l bz last n, bytes_ok bz ->
    dspec (fun st n' e => (n <= n')%nat /\ (n' + length (snd (fst st)) <= n + length bz)%nat /\ bytes_ok (snd (fst st)))
          (fun p => p <> slide_msg) True (decode_fields env c rec fs l bz last n).
  Proof.
    induction fs as [|f fs IH]; intros l bz last n Hok; cbn [decode_fields]; [ret; assumption|].
    apply dspec_bind. eapply dspec_weaken; [apply good_field; assumption|].
    cbn beta. intros [[l' bz'] last'] n' e (H1 & H2 & H3). cbn [fst snd] in *.
    destruct e as [e|]; [ret; assumption|].
    eapply dspec_weaken; [apply IH; assumption|].
    cbn beta. intros st n'' e'' (H4 & H5 & H6). splits; try assumption; lia.
  Qed.

  Lemma consume_any_ret typ3 bz : exists n e, consume_any typ3 bz = DRet tt n e /\ (n <= length bz)%nat /\
    (e = None -> (1 <= n)%nat).
  Proof.
    clear Hrec rec c Henv.
    unfold consume_any.
    assert (U : forall A (r : dres A), (exists a n e, r = DRet a n e /\ (n <= length bz)%nat /\ (e = None -> (1 <= n)%nat)) ->
      exists n e, dbind r (fun _ n e => match e with Some e => DRet tt 0 (Some e)
                          | None => slide bz n (fun _ => DRet tt n None) end) = DRet tt n e /\ (n <= length bz)%nat /\ (e = None -> (1 <= n)%nat)).
    { intros A r (a & n & e & -> & Hn & Hp). cbn [dbind]. destruct e as [e|].
      - eexists _, _; splits; try reflexivity; try discriminate; lia.
      - rewrite slide_le by assumption. eexists _, _; splits; try reflexivity; try assumption. }
    destruct (typ3 =? _); [apply U, wb_use, wb_varint|].
    destruct (typ3 =? _); [apply U, wb_use, wb_int64|].
    destruct (typ3 =? _); [apply U, wb_use, wb_byte_slice|].
    destruct (typ3 =? _); [apply U, wb_use, wb_int32|].
    eexists _, _; splits; try reflexivity; try discriminate; lia.
  Qed.

  Lemma good_consume_rest : forall k bz last n, bytes_ok bz ->
    dspec (fun _ n' e => (n <= n')%nat /\ (n' <= n + length bz)%nat) (fun p => p <> slide_msg) True
          (consume_rest k bz last n).
  Proof.
    induction k as [|k IH]; intros bz last n Hok; destruct bz as [|b0 bz']; cbn [consume_rest];
      try (ret; fail); try exact I. set (bz := b0 :: bz') in *.
    destruct (key_ret bz) as ([fnum typ] & m & e & -> & Hm & _). cbn [dbind fst snd].
    rewrite slide_le by assumption. cbv zeta.
    pose proof (bytes_ok_skipn m bz Hok) as Hok1. pose proof (length_skipn m bz) as Hl1.
    destruct e as [e|]; [ret|]. destruct (_ <=? _); [ret|].
    destruct (consume_any_ret typ (skipn m bz)) as (m2 & e & -> & Hm2 & _). cbn [dbind].
    rewrite slide_le by assumption. destruct e as [e|]; [ret|].
    eapply dspec_weaken; [apply IH; apply bytes_ok_skipn; assumption|].
    cbn beta. rewrite length_skipn. intros; lia.
  Qed.

  Lemma good_struct bz ci v0 bare : bytes_ok bz -> good bare bz (decode_struct env c rec bz ci v0 bare).
  Proof.
    intros Hok. unfold decode_struct. apply good_enter; [assumption|]. intros b n0 Hb Hlen Hn0 _ _.
    destruct (resolve env (ci_type ci)); try (cbn; discriminate).
    - destruct (decode_time_ret b Hb) as (s & ns & n & e & -> & Hn & _). cbn [dbind].
      rewrite slide_le by assumption. destruct e; ret.
    - destruct v0; try (cbn; discriminate).
      apply dspec_bind. eapply dspec_weaken; [apply good_fields; assumption|].
      cbn beta. intros [[l' bz'] last'] n' e (H1 & H2 & H3). cbn [fst snd] in *.
      destruct e as [e|]; [ret|]. apply dspec_bind.
      eapply dspec_weaken; [apply good_consume_rest; assumption|].
      cbn beta. intros; ret.
  Qed.

  Lemma good_switch bz info v0 o bare : bytes_ok bz -> good bare bz (decode_switch env c rec bz info v0 o bare).
  Proof.
    intros Hok. unfold decode_switch.
    destruct (resolve env (ti_type info)); try (unfold good; cbn; discriminate).
    - apply good_prim.
    - destruct info; [apply good_struct; assumption | unfold good; cbn; discriminate].
    - destruct (is_uint8 env e); [apply good_byte_array; assumption | apply good_array; assumption].
    - destruct (is_uint8 env e); [apply good_byte_slice_val; assumption | apply good_slice; assumption].
    - destruct info; [unfold good; cbn; discriminate | apply good_interface; assumption].
    - destruct info; [apply good_struct; assumption | unfold good; cbn; discriminate].
  Qed.
End NoSlide.

Lemma good_dmap {A B} (f : A -> B) bare bz r : good bare bz r -> good bare bz (dmap f r).
Proof. unfold good, dmap. intros H. apply dspec_bind. eapply dspec_weaken; [exact H|]; cbn; auto. Qed.

(** Every call of decodeReflectBinary reports a count within its input, makes
    progress inside frames, and never slides too far. *)
Theorem decode_good env c : env_msgs env -> forall fuel bz info t v0 o bare, bytes_ok bz ->
  good bare bz (decode_reflect fuel env c bz info t v0 o bare).
Proof.
  intros Henv. induction fuel as [|k IH]; intros bz info t v0 o bare Hok; cbn [decode_reflect]; [exact I|].
  assert (G : good bare bz (dmap (rebuild t)
            (let w0 := base_of env t v0 in
             match info with
             | TIConc {| ci_type := ct; ci_unmarshal := Some r |} =>
                 eget (get_type_info env c r) (fun e => DRet w0 0 (Some e)) (fun rinfo =>
                 dbind (decode_reflect k env c bz rinfo r (zero env r) o bare) (fun rv n e =>
                 slide bz n (fun _ =>
                 match e with
                 | Some e => DRet w0 n (Some e)
                 | None => eget (from_repr env ct w0 rv) (fun e => DRet w0 n (Some e))
                                (fun r => DRet (fst r) n (snd r))
                 end)))
             | _ => decode_switch env c (decode_reflect k env c) bz info w0 o bare
             end))).
  { apply good_dmap. cbv zeta.
    assert (S : good bare bz (decode_switch env c (decode_reflect k env c) bz info (base_of env t v0) o bare)).
    { apply good_switch; try assumption. }
    destruct info as [[ct fs m [r|] rg]|ii]; try exact S.
    unfold good. apply dspec_eget;
      [intros rinfo _ | intros; cbn; split; [lia|discriminate] | apply get_type_info_panic; assumption | auto].
    apply dspec_bind. eapply dspec_weaken; [apply IH; assumption|].
    cbn beta. intros rv n e [Hn Hp]. rewrite slide_le by assumption.
    destruct e as [e|]; [cbn; split; [assumption|discriminate]|].
    apply dspec_eget; [intros [v e] _ | intros; cbn; split; [lia|discriminate] | | auto].
    - cbn. split; [assumption|]. intros. apply Hp; auto.
    - intros p. unfold from_repr. destruct ct; try (intros H; inversion H; subst; discriminate).
      destruct (te_unmarshal env id) as [[|rr g]|] eqn:E; try (intros H; inversion H; subst; discriminate).
      intros H. eapply (em_g env Henv); eassumption. }
  destruct info, t; try exact G; cbn; discriminate.
Qed.
