(** What decoders consume, and the order of the entries they accept. *)
From Coq Require Import ZArith String List Bool Lia.
From Coq Require Import ZifyBool ZifyNat.
From Verif Require Import Base Prims SpecWire PrimFacts PrimProps Types Codec BinEnc BinDec Amino FuelFacts DecFacts
  ValueInd Typing Registry SpecRegistry RegistryFacts Sane DecSafe SpecNorm EncFacts RoundTrip TopFacts SpecProto ProtoFacts
  SpecStruct SkipFacts SpecVersion VersionFacts SpecFrame.
Import ListNotations.
Local Open Scope Z_scope.

(** ** Inversion of decoder results *)

Lemma dbind_ok {A B} (r : dres A) (k : A -> nat -> option error -> dres B) b n e : dbind r k = DRet b n e ->
  exists a m e', r = DRet a m e' /\ k a m e' = DRet b n e.
Proof. destruct r; cbn [dbind]; intros H; try discriminate. eexists _, _, _. split; [reflexivity|exact H]. Qed.
Lemma slide_ok {A} bz m (k : bytes -> dres A) b n e : slide bz m k = DRet b n e -> (m <= length bz)%nat /\ k (skipn m bz) = DRet b n e.
Proof. unfold slide. destruct (Nat.ltb_spec (length bz) m); intros X; [discriminate|]. split; [lia|exact X]. Qed.
Lemma eget_ok {A B} (r : eres A) kerr (k : A -> dres B) b n : eget r kerr k = DRet b n None ->
  (forall e b n, kerr e <> DRet b n None) -> exists a, r = EOk a /\ k a = DRet b n None.
Proof. destruct r; cbn [eget]; intros H K; try discriminate; [eexists; split; [reflexivity|exact H]|exfalso; exact (K _ _ _ H)]. Qed.

Ltac dstep H :=
  lazymatch type of H with
  | dbind _ _ = DRet _ _ _ => let a := fresh "a" in let m := fresh "m" in let e := fresh "e" in let E := fresh "E" in
      apply dbind_ok in H; destruct H as (a & m & e & E & H)
  | slide _ _ _ = DRet _ _ _ => let L := fresh "L" in apply slide_ok in H; destruct H as [L H]
  | eget _ _ _ = DRet _ _ None => let a := fresh "a" in let E := fresh "E" in
      apply eget_ok in H; [destruct H as (a & E & H)|intros; discriminate]
  | match ?e with Some _ => _ | None => _ end = DRet _ _ None => destruct e; [discriminate H|]
  | (if ?b then _ else _) = DRet _ _ _ => let E := fresh "E" in destruct b eqn:E; try discriminate H
  end.

(** ** Varints *)

Lemma digits_prefix ds : forall ds' last last' r r', Forall digit128 ds -> Forall digit128 ds' -> digit128 last -> digit128 last' ->
  map contb ds ++ last :: r = map contb ds' ++ last' :: r' -> ds = ds' /\ last = last' /\ r = r'.
Proof.
  induction ds as [|d ds IH]; intros [|d' ds'] last last' r r' H H' L L' E; cbn [map app] in E; inversion E; subst.
  - auto.
  - inversion H'; subst. unfold digit128, contb in *. lia.
  - inversion H; subst. unfold digit128, contb in *. lia.
  - apply Forall_cons_iff in H, H'. destruct H as [_ H], H' as [_ H']. unfold contb in *. assert (d = d') by lia. subst d'.
    destruct (IH ds' last last' r r') as (-> & -> & ->); try assumption. auto.
Qed.
Lemma uvarint_exact p u rest u' n : bytes_ok (p ++ rest) -> leb128 p u -> decode_uvarint (p ++ rest) = DRet u' n None -> n = length p /\ u' = u.
Proof.
  intros Hok (ds & last & -> & Hd & Hl & Hv) H. apply decode_uvarint_inv in H; [|exact Hok].
  destruct H as (ds' & last' & rest' & E & Hd' & Hl' & _ & _ & Hv' & ->). rewrite <- app_assoc in E. cbn [app] in E.
  apply (digits_prefix ds ds' last last') in E; try assumption. destruct E as (-> & -> & ->).
  rewrite app_length, map_length. cbn [length]. split; [lia|congruence].
Qed.
Lemma leb_min_leb p u : leb128_min p u -> leb128 p u.
Proof. intros (ds & last & H1 & H2 & H3 & H4 & _). exists ds, last. auto. Qed.
Lemma leb_nonneg p u : leb128 p u -> 0 <= u.
Proof.
  intros (ds & last & -> & Hd & Hl & ->). apply val128_bound. apply Forall_app. split; [exact Hd|]. constructor; [exact Hl|constructor].
Qed.
Lemma byte_slice_exact (l b rest : bytes) b' n : bytes_ok ((l ++ b) ++ rest) -> leb128 l (zlen b) -> decode_byte_slice ((l ++ b) ++ rest) = DRet b' n None ->
  n = length (l ++ b) /\ b' = b.
Proof.
  intros Hok Hl H. destruct (decode_byte_slice_some _ _ _ H) as (u & m & Hu & Hm & Hp & Hn & Hz & Hb & _).
  rewrite <- app_assoc in Hu, Hok. destruct (uvarint_exact _ _ _ _ _ Hok Hl Hu) as [-> ->].
  assert (Z0 : i64 (zlen b) = zlen b).
  { rewrite <- app_assoc in *. pose proof (decode_uvarint_range _ _ _ Hok Hu). destruct (Z_lt_le_dec (zlen b) (2 ^ 63)); [apply i64_small; unfold zlen in *; lia|].
    rewrite i64_neg in Hp by lia. lia. }
  rewrite Z0 in Hz. unfold zlen in Hz. assert (length b' = length b) by lia. split; [rewrite app_length; lia|].
  rewrite <- app_assoc in Hb. rewrite firstn_app_exact in Hb by reflexivity. apply app_inv_head in Hb.
  apply (f_equal (firstn (length b))) in Hb. rewrite firstn_app_exact in Hb by reflexivity. rewrite <- H0 in Hb. rewrite firstn_app_exact in Hb by reflexivity. congruence.
Qed.
Lemma minimal_size (l b : bytes) : zlen b < 2 ^ 64 -> leb128_min l (zlen b) -> length l = Z.to_nat (uvarint_size (zlen b)).
Proof.
  intros Hb Hl. assert (0 <= zlen b) by (unfold zlen; lia).
  rewrite (leb_unique l (encode_uvarint (zlen b)) (zlen b)); [|exact Hl|apply encode_uvarint_leb; lia].
  pose proof (encode_uvarint_length (zlen b)). unfold zlen in *. lia.
Qed.

(** ** Counts of the composite decoders *)

Section Counts.
  Variable env : tenv.
  Variable c : codec.
  Variable rec : bytes -> tinfo -> gotype -> value -> fopts -> bool -> dres value.

  Lemma field_count f l bz last n l' bz' last' n' : decode_field env c rec f l bz last n = DRet (l', bz', last') n' None ->
    (n' + length bz' = n + length bz)%nat.
  Proof.
    unfold decode_field. cbv zeta. intros H. dstep H. destruct bz as [|x bz]; [inversion H; subst; reflexivity|].
    remember (x :: bz) as bz0. destruct (fi_unpacked f).
    - dstep H. dstep H. inversion H; subst. rewrite skipn_length. lia.
    - dstep H. destruct a0 as [fnum typ]. destruct (_ <? fnum); [inversion H; subst; reflexivity|]. dstep H. dstep H. dstep H. dstep H. dstep H. dstep H. dstep H. dstep H.
      inversion H; subst. rewrite !skipn_length in *. lia.
  Qed.
  Lemma fields_count fs : forall l bz last n l' bz' last' n', decode_fields env c rec fs l bz last n = DRet (l', bz', last') n' None ->
    (n' + length bz' = n + length bz)%nat.
  Proof.
    induction fs as [|f fs IH]; intros l bz last n l' bz' last' n' H; cbn [decode_fields] in H; [inversion H; subst; reflexivity|].
    dstep H. dstep H. destruct a as [[l1 bz1] last1]. apply field_count in E. apply IH in H. lia.
  Qed.
  Lemma rest_count : forall k bz last n n', consume_rest k bz last n = DRet tt n' None -> n' = (n + length bz)%nat.
  Proof.
    induction k as [|k IH]; intros [|x bz] last n n' H; cbn [consume_rest] in H; try (inversion H; subst; cbn; lia); try discriminate.
    remember (x :: bz) as bz0. dstep H. dstep H. dstep H. dstep H. dstep H. dstep H. dstep H. apply IH in H. rewrite !skipn_length in *. lia.
  Qed.
  Lemma slice_packed_count einfo ert o : forall k bz n done l n', decode_slice_packed env rec k bz n einfo ert o done = DRet l n' None ->
    n' = (n + length bz)%nat.
  Proof.
    induction k as [|k IH]; intros [|x bz] n done l n' H; cbn [decode_slice_packed] in H; try (inversion H; subst; cbn; lia); try discriminate.
    remember (x :: bz) as bz0. dstep H. dstep H. dstep H. apply IH in H. rewrite skipn_length in *. lia.
  Qed.
  Lemma array_packed_count einfo ert o : forall todo bz n done l bz' n', decode_array_packed env rec bz n einfo ert o done todo = DRet (l, bz') n' None ->
    (n' + length bz' = n + length bz)%nat.
  Proof.
    induction todo as [|w todo IH]; intros bz n done l bz' n' H; cbn [decode_array_packed] in H; [inversion H; subst; reflexivity|].
    dstep H. dstep H. dstep H. apply IH in H. rewrite skipn_length in *. lia.
  Qed.

  (** What [enter] hands to its continuation. *)
  Lemma enter_ok {A} (v0 : A) bz (k : bytes -> nat -> dres A) v n : enter v0 false bz k = DRet v n None ->
    exists buf m, decode_byte_slice bz = DRet buf m None /\ k buf (Z.to_nat (uvarint_size (zlen buf))) = DRet v n None.
  Proof. unfold enter. intros H. dstep H. dstep H. destruct e; [discriminate H|]. exists a, m. split; assumption. Qed.

  Lemma struct_count bz ci fs v0 v n : resolve env (ci_type ci) = RStruct fs -> decode_struct env c rec bz ci v0 false = DRet v n None ->
    exists buf m, decode_byte_slice bz = DRet buf m None /\ n = (Z.to_nat (uvarint_size (zlen buf)) + length buf)%nat.
  Proof.
    intros Hr H. unfold decode_struct in H. apply enter_ok in H. destruct H as (buf & m & D & H). exists buf, m. split; [exact D|].
    rewrite Hr in H. destruct v0; try discriminate. dstep H. destruct a as [[l1 bz1] last1]. dstep H. dstep H. inversion H; subst.
    destruct a. apply rest_count in E0. apply fields_count in E. lia.
  Qed.
  Lemma set_iface_ok ii ci v k r : set_iface env ii ci v k = r -> (exists w, r = k w) \/ exists p, r = DPanic p.
  Proof.
    unfold set_iface. destruct (match ci_reg ci with Some r0 => ri_ptr r0 | None => false end); destruct (te_impl _ _ _); intros <-; eauto.
  Qed.
  Lemma iface_count bz ii o v0 v n : decode_interface env c rec bz ii v0 o false = DRet v n None ->
    exists buf m, decode_byte_slice bz = DRet buf m None /\ n = (Z.to_nat (uvarint_size (zlen buf)) + length buf)%nat.
  Proof.
    unfold decode_interface. intros H. destruct v0; try discriminate. destruct o0; [discriminate|].
    apply enter_ok in H. destruct H as (buf & m & D & H). exists buf, m. split; [exact D|].
    dstep H. dstep H. dstep H. cbv zeta in H. dstep H.
    assert (G : forall bz2 n2, dbind (rec bz2 (TIConc a0) (ci_type a0) (zero env (ci_type a0)) o true)
      (fun (v : value) (n3 : nat) (e : option error) =>
         slide bz2 n3 (fun bz3 : bytes =>
            match e with
            | Some e0 => set_iface env ii a0 v (fun r : value => DRet r (n2 + n3)%nat (Some e0))
            | None => match bz3 with
                      | [] => set_iface env ii a0 v (fun r : value => DRet r (n2 + n3)%nat None)
                      | _ :: _ => DRet (VIface None) (n2 + n3)%nat (Some "bytes left over after reading interface contents"%string)
                      end
            end)) = DRet v n None -> n = (n2 + length bz2)%nat).
    { clear H. intros bz2 n2 H. dstep H. dstep H. destruct e.
      - apply set_iface_ok in H. destruct H as [[w H]|[p H]]; inversion H.
      - destruct (skipn m1 bz2) eqn:S; [|discriminate H]. apply (f_equal (@length Z)) in S. rewrite skipn_length in S. cbn [length] in S.
        apply set_iface_ok in H. destruct H as [[w H]|[p H]]; inversion H. lia. }
    destruct (wants_key _ _ _ _).
    - dstep H. dstep H. dstep H. dstep H. dstep H. dstep H. apply G in H. rewrite !skipn_length in *. lia.
    - apply G in H. rewrite skipn_length in H. lia.
  Qed.
  Lemma list_slice_count bz e o v0 v n : delimited env e = false -> (forall einfo, get_type_info env c e = EOk einfo -> ti_type einfo = deref_type e) ->
    decode_slice env c rec bz e v0 o false = DRet v n None ->
    exists buf m, decode_byte_slice bz = DRet buf m None /\ n = (Z.to_nat (uvarint_size (zlen buf)) + length buf)%nat.
  Proof.
    intros Hd Ht H. unfold decode_slice in H. dstep H. dstep H. apply enter_ok in H. destruct H as (buf & m & D & H). exists buf, m. split; [exact D|].
    dstep H. rewrite (Ht _ E0) in E1. apply typ3_delimited in E1. rewrite E1, Hd in H. cbn [negb] in H. dstep H. dstep H. inversion H; subst.
    apply slice_packed_count in E2. exact E2.
  Qed.
  Lemma list_array_count bz e o v0 v n : delimited env e = false -> (forall einfo, get_type_info env c e = EOk einfo -> ti_type einfo = deref_type e) ->
    decode_array env c rec bz e v0 o false = DRet v n None ->
    exists buf m, decode_byte_slice bz = DRet buf m None /\ n = (Z.to_nat (uvarint_size (zlen buf)) + length buf)%nat.
  Proof.
    intros Hd Ht H. unfold decode_array in H. dstep H. destruct v0; try discriminate. dstep H. apply enter_ok in H. destruct H as (buf & m & D & H). exists buf, m. split; [exact D|].
    dstep H. rewrite (Ht _ E0) in E1. apply typ3_delimited in E1. rewrite E1, Hd in H. cbn [negb] in H. dstep H. destruct a1 as [l1 bz1]. dstep H. destruct bz1; [|discriminate].
    inversion H; subst. apply array_packed_count in E2. cbn [length] in E2. lia.
  Qed.
End Counts.

(** ** One payload *)

Section Exact.
  Variable env : tenv.
  Variable c : codec.
  Hypothesis Hs : sane_codec env c.

  Lemma info_unmarshal info t : get_type_info env c t = EOk info ->
    match deref_type t with TNamed id => match te_unmarshal env id with None => true | _ => false end | _ => true end = true ->
    ti_type info = deref_type t /\ match info with TIConc ci => ci_unmarshal ci = None | TIFace _ => True end.
  Proof.
    intros H Hm. pose proof (gti_minfo _ _ _ _ Hs H) as Hi. split; [eapply minfo_type; exact Hi|]. destruct info as [ci|ii]; [|exact I].
    destruct Hi as [Ht Hok]. pose proof (minfo_unmethod _ _ _ Ht Hok) as U. destruct (ci_unmarshal ci) as [r|]; [|reflexivity].
    destruct U as (id & g & E & U & _). rewrite E, U in Hm. discriminate.
  Qed.
  (** Types without UnmarshalAmino go straight to the switch. *)
  Lemma reflect_switch k bz info t v0 o bare : get_type_info env c t = EOk info ->
    match deref_type t with TNamed id => match te_unmarshal env id with None => true | _ => false end | _ => true end = true ->
    decode_reflect (S k) env c bz info t v0 o bare =
      match info, t with
      | TIFace _, TPtr _ => DPanic "should not happen"%string
      | _, _ => dmap (rebuild t) (decode_switch env c (decode_reflect k env c) bz info (base_of env t v0) o bare)
      end.
  Proof.
    intros H Hm. destruct (info_unmarshal _ _ H Hm) as [_ U]. cbn [decode_reflect]. destruct info as [[ct fs m u r]|ii]; [|destruct t; reflexivity].
    cbn in U. rewrite U. destruct t; reflexivity.
  Qed.

  (** Decoding from a frame looks at the frame only. *)
  Lemma enter_same {A} (v0 : A) bz bz' buf m (k : bytes -> nat -> dres A) :
    decode_byte_slice bz = DRet buf m None -> decode_byte_slice bz' = DRet buf m None -> enter v0 false bz k = enter v0 false bz' k.
  Proof.
    intros H H'. unfold enter. rewrite H, H'. cbn [dbind].
    destruct (decode_byte_slice_some _ _ _ H) as (_ & _ & _ & _ & _ & _ & _ & _ & L).
    destruct (decode_byte_slice_some _ _ _ H') as (_ & _ & _ & _ & _ & _ & _ & _ & L').
    rewrite !slide_le by assumption. reflexivity.
  Qed.
  Lemma frame_same k bz bz' info t v0 o buf m : get_type_info env c t = EOk info -> in_frame env (deref_type t) = true ->
    decode_byte_slice bz = DRet buf m None -> decode_byte_slice bz' = DRet buf m None ->
    decode_reflect k env c bz info t v0 o false = decode_reflect k env c bz' info t v0 o false.
  Proof.
    intros H Hf D D'. destruct k as [|k]; [reflexivity|]. unfold in_frame, one_payload in Hf.
    apply andb_true_iff in Hf. destruct Hf as [Hf Hf2]. apply andb_true_iff in Hf. destruct Hf as [Hm Hf].
    rewrite !(reflect_switch _ _ _ _ _ _ _ H Hm). destruct (info_unmarshal _ _ H Hm) as [Ht _].
    assert (G : forall v, decode_switch env c (decode_reflect k env c) bz info v o false = decode_switch env c (decode_reflect k env c) bz' info v o false).
    { intros v. unfold decode_switch. rewrite Ht. destruct (resolve env (deref_type t)); try discriminate.
      - destruct (is_uint8 env e); [discriminate|]. unfold decode_array. destruct (is_uint8 env e); [reflexivity|]. destruct v; try reflexivity.
        destruct (get_type_info env c e); cbn [eget]; try reflexivity. eapply enter_same; eassumption.
      - destruct (is_uint8 env e); [discriminate|]. unfold decode_slice. destruct (is_uint8 env e); [reflexivity|].
        destruct (get_type_info env c e); cbn [eget]; try reflexivity. eapply enter_same; eassumption.
      - destruct info; [reflexivity|]. unfold decode_interface. destruct v; try reflexivity. destruct o0; [reflexivity|]. eapply enter_same; eassumption.
      - destruct info; [|reflexivity]. unfold decode_struct. eapply enter_same; eassumption. }
    rewrite G. reflexivity.
  Qed.

  Lemma frame_count k bz info t v0 o v n : get_type_info env c t = EOk info -> in_frame env (deref_type t) = true ->
    decode_reflect k env c bz info t v0 o false = DRet v n None ->
    exists buf m, decode_byte_slice bz = DRet buf m None /\ n = (Z.to_nat (uvarint_size (zlen buf)) + length buf)%nat.
  Proof.
    intros H Hf D. destruct k as [|k]; [discriminate|]. unfold in_frame, one_payload in Hf.
    apply andb_true_iff in Hf. destruct Hf as [Hf Hf2]. apply andb_true_iff in Hf. destruct Hf as [Hm Hf].
    rewrite (reflect_switch _ _ _ _ _ _ _ H Hm) in D. destruct (info_unmarshal _ _ H Hm) as [Ht _].
    assert (G : exists w, decode_switch env c (decode_reflect k env c) bz info (base_of env t v0) o false = DRet w n None).
    { destruct info; [|destruct t; try discriminate D]; unfold dmap in D; dstep D; inversion D; subst; eexists; eassumption. }
    destruct G as [w G]. unfold decode_switch in G. rewrite Ht in G.
    assert (Te : forall e einfo, get_type_info env c e = EOk einfo -> ti_type einfo = deref_type e).
    { intros e einfo He. eapply minfo_type. eapply gti_minfo; eassumption. }
    destruct (resolve env (deref_type t)) eqn:Er; try discriminate.
    - destruct (is_uint8 env e); [discriminate|]. cbn [orb] in Hf. eapply list_array_count; [|apply Te|exact G]. destruct (delimited env e); [discriminate|reflexivity].
    - destruct (is_uint8 env e); [discriminate|]. cbn [orb] in Hf. eapply list_slice_count; [|apply Te|exact G]. destruct (delimited env e); [discriminate|reflexivity].
    - destruct info; [discriminate|]. eapply iface_count; exact G.
    - destruct info; [|discriminate]. eapply struct_count; [|exact G]. cbn in Ht. rewrite Ht. exact Er.
  Qed.

  Lemma fixed_exact size conv msg bz v n : decode_fixed size conv msg bz = DRet v n None -> n = size.
  Proof. unfold decode_fixed. destruct (_ <? _)%nat; intros X; inversion X; reflexivity. Qed.
  Lemma scalar_some {A} v0 bz (r : dres A) f v n : set_scalar v0 bz r f = DRet v n None -> exists a, r = DRet a n None.
  Proof. unfold set_scalar. intros H. dstep H. dstep H. dstep H. dstep H. exists a. congruence. Qed.
  Lemma varint_some bz v n : decode_varint bz = DRet v n None -> exists u, decode_uvarint bz = DRet u n None.
  Proof. intros H. apply decode_varint_uvarint in H. destruct H as (u & H & _). exists u. exact H. Qed.
  Lemma narrow_inv r lo hi msg conv v n : narrow r lo hi msg conv = DRet v n None -> exists u, r = DRet u n None.
  Proof. unfold narrow. destruct r as [x m [e|]| |]; try discriminate. destruct (_ || _); intros X; inversion X; subst. eexists. reflexivity. Qed.

  Lemma varint_payload p rest u n wt : bytes_ok (p ++ rest) -> wt = Typ3Varint -> payload_of wt p -> decode_uvarint (p ++ rest) = DRet u n None -> n = length p.
  Proof.
    intros Hok -> Hp D. inversion Hp as [b u0 Hl Hz| | |]; subst. destruct (uvarint_exact _ _ _ _ _ Hok Hl D) as [-> _]. reflexivity.
  Qed.
  Lemma len_payload p rest b n wt : bytes_ok (p ++ rest) -> wt = Typ3ByteLength -> payload_of wt p -> decode_byte_slice (p ++ rest) = DRet b n None ->
    n = length p /\ n = (Z.to_nat (uvarint_size (zlen b)) + length b)%nat.
  Proof.
    intros Hok -> Hp D. inversion Hp as [| |l b0 Hl Hz|]; subst. destruct (byte_slice_exact _ _ _ _ _ Hok (leb_min_leb _ _ Hl) D) as [-> ->]. split; [reflexivity|].
    rewrite app_length, (minimal_size l b0); [reflexivity| |exact Hl].
    destruct (decode_byte_slice_some _ _ _ D) as (u & m & Hu & _). pose proof (decode_uvarint_range _ _ _ Hok Hu).
    rewrite <- app_assoc in Hok, Hu. destruct (uvarint_exact _ _ _ _ _ Hok (leb_min_leb _ _ Hl) Hu) as [_ <-]. lia.
  Qed.
  Lemma bool_exact p u rest v n : bytes_ok (p ++ rest) -> leb128 p u -> decode_bool (p ++ rest) = DRet v n None -> n = length p.
  Proof.
    intros Hok (ds & last & -> & Hd & Hl & Hv) H. unfold decode_bool in H. destruct ds as [|d ds]; cbn [map app] in H.
    - destruct (last =? 0); [inversion H; reflexivity|]. destruct (last =? 1); inversion H; reflexivity.
    - apply Forall_cons_iff in Hd. destruct Hd as [Hd _]. unfold digit128 in Hd. destruct (Z.eqb_spec (d + 128) 0); [lia|]. destruct (Z.eqb_spec (d + 128) 1); [lia|discriminate].
  Qed.

  Lemma exact_payload k p rest info t v0 o v n wt : bytes_ok (p ++ rest) -> get_type_info env c t = EOk info -> one_payload env (deref_type t) = true ->
    type_to_typ3 env (deref_type t) o = EOk wt -> payload_of wt p -> decode_reflect k env c (p ++ rest) info t v0 o false = DRet v n None ->
    n = length p.
  Proof.
    intros Hok H Hf Hw Hp D. destruct (in_frame env (deref_type t)) eqn:Hin.
    { destruct (frame_count _ _ _ _ _ _ _ _ H Hin D) as (buf & m & Db & Hn).
      assert (W : wt = Typ3ByteLength).
      { unfold in_frame in Hin. apply andb_true_iff in Hin. destruct Hin as [_ Hin]. unfold type_to_typ3 in Hw. destruct (resolve env (deref_type t)); try discriminate; apply EOk_inj in Hw; congruence. }
      destruct (len_payload _ _ _ _ _ Hok W Hp Db) as [L1 L2]. congruence. }
    destruct k as [|k]; [discriminate|]. unfold in_frame in Hin. rewrite Hf in Hin. cbn [andb] in Hin.
    unfold one_payload in Hf. apply andb_true_iff in Hf. destruct Hf as [Hm Hf].
    rewrite (reflect_switch _ _ _ _ _ _ _ H Hm) in D. destruct (info_unmarshal _ _ H Hm) as [Ht _].
    assert (G : exists w, decode_switch env c (decode_reflect k env c) (p ++ rest) info (base_of env t v0) o false = DRet w n None).
    { destruct info; [|destruct t; try discriminate D]; unfold dmap in D; dstep D; inversion D; subst; eexists; eassumption. }
    destruct G as [w G]. unfold decode_switch in G. rewrite Ht in G. unfold type_to_typ3 in Hw.
    destruct (resolve env (deref_type t)) as [q| |len e|e| | | | | | |] eqn:Er; try discriminate.
    - destruct q; cbn [decode_prim] in G; try (lazymatch type of G with context [fo_fixed64 o] => destruct (fo_fixed64 o) end);
        try (lazymatch type of G with context [fo_fixed32 o] => destruct (fo_fixed32 o) end); try (destruct (negb (fo_unsafe o)); [discriminate|]);
        apply EOk_inj in Hw; apply scalar_some in G; destruct G as [a G];
        try (symmetry in Hw; unfold decode_int8, decode_int16, decode_uint8, decode_uint16 in G;
             try (apply narrow_inv in G; destruct G as [u G]); try (apply varint_some in G; destruct G as [u' G]);
             eapply varint_payload; eassumption);
        try (apply fixed_exact in G; subst wt n; inversion Hp; subst; symmetry; assumption).
      + subst wt. inversion Hp; subst. eapply bool_exact; eassumption.
      + symmetry in Hw. destruct (len_payload _ _ _ _ _ Hok Hw Hp G) as [L _]. exact L.
    - destruct (is_uint8 env e); [|discriminate]. unfold decode_byte_array in G. dstep G. dstep G. dstep G. dstep G. dstep G. dstep G. inversion G; subst.
      apply EOk_inj in Hw. symmetry in Hw. destruct (len_payload _ _ _ _ _ Hok Hw Hp E0) as [L1 _]. exact L1.
    - destruct (is_uint8 env e); [|discriminate]. unfold decode_byte_slice_val in G. apply EOk_inj in Hw. symmetry in Hw.
      destruct (p ++ rest) as [|x y] eqn:Epr.
      + exfalso. subst wt. inversion Hp as [| |l b0 Hl Hz|]; subst. destruct Hl as (ds & last & -> & _). destruct ds; discriminate Epr.
      + rewrite <- Epr in *. dstep G. dstep G. dstep G.
        assert (Lm : m = n). { destruct a; [inversion G; reflexivity|]. dstep G. inversion G. reflexivity. }
        subst m. destruct (len_payload _ _ _ _ _ Hok Hw Hp E) as [L1 _]. exact L1.
  Qed.
End Exact.

(** ** The order of entries *)

Lemma key_err bz kt m e : decode_field_key bz = DRet kt m (Some e) -> fst kt = 0.
Proof.
  unfold decode_field_key. destruct (decode_uvarint bz) as [v n [e'|]| |]; try (intros X; inversion X; reflexivity); try discriminate.
  destruct (_ <? _); intros X; inversion X; reflexivity.
Qed.
Lemma key_exact key num wt rest kt m : bytes_ok (key ++ rest) -> 0 <= wt < 8 -> leb128 key (num * 8 + wt) ->
  decode_field_key (key ++ rest) = DRet kt m None -> kt = (num, wt) /\ m = length key.
Proof.
  intros Hok Hw Hl H. destruct kt as [num' wt']. destruct (decode_field_key_some _ _ _ _ Hok H) as (Hu & _ & Hw').
  destruct (uvarint_exact _ _ _ _ _ Hok Hl Hu) as [-> E]. split; [f_equal; lia|reflexivity].
Qed.

Lemma leb_cons key u r : leb128 key u -> key ++ r = [] -> False.
Proof. intros (ds & la & -> & _) H. destruct ds; discriminate. Qed.

Definition above_head (hi : Z) (ns : list Z) : Prop := match ns with [] => True | a :: _ => hi < a end.

Section Order.
  Variable env : tenv.
  Variable c : codec.
  Hypothesis Hs : sane_codec env c.
  Variable k : nat.
  Let rec := decode_reflect k env c.

  Lemma len_zero p : payload_of 2 (0 :: p) -> p = [].
  Proof.
    intros H. inversion H as [| |l b Hl E1 E|]; subst. destruct Hl as (ds & last & -> & Hd & Hx & Hv & _). destruct ds as [|d ds].
    - cbn [map app val128] in E, Hv. inversion E; subst. destruct p; [reflexivity|unfold zlen in Hv; cbn [length] in Hv; lia].
    - cbn [map app] in E. inversion E. apply Forall_cons_iff in Hd. unfold digit128 in Hd. lia.
  Qed.
  Lemma payload_nonnil wt p : payload_of wt p -> p <> [].
  Proof.
    intros H. inversion H as [b u Hl|b L|l b Hl E|b L]; subst; try (intros ->; discriminate L).
    - destruct Hl as (ds & last & -> & _). destruct ds; discriminate.
    - destruct Hl as (ds & last & -> & _). destruct ds; discriminate.
  Qed.
  Lemma skip_payload einfo ert o p rest : skip_empty env einfo ert o (p ++ rest) = true -> payload_of 2 p -> length p = 1%nat.
  Proof.
    intros H Hp. pose proof (payload_nonnil _ _ Hp) as Hn. destruct p as [|x p]; [congruence|]. cbn [app skip_empty] in H. unfold skip_empty in H.
    destruct x; try discriminate. rewrite (len_zero p Hp). reflexivity.
  Qed.

  Lemma slice_entries einfo ert o : get_type_info env c ert = EOk einfo -> one_payload env (deref_type ert) = true -> delimited env ert = true -> 0 < fo_num o ->
    forall j bz ns n done l n', bytes_ok bz -> sequence ns bz -> decode_slice_unpacked env rec j bz n einfo ert o done = DRet l n' None ->
    exists i ns2 pre bz2, ns = repeat (fo_num o) i ++ ns2 /\ sequence ns2 bz2 /\ bz = pre ++ bz2 /\ n' = (n + length pre)%nat /\ above_head (fo_num o) ns2.
  Proof.
    intros Hg Hone Hdel Hnum. induction j as [|j IH]; intros bz ns n done l n' Hok Hsq H; cbn [decode_slice_unpacked] in H.
    - destruct bz; [|discriminate]. inversion H; subst. inversion Hsq as [E1 E2|num wt key p ns' r Hwt Hkey Hp Hr E1 E2]; subst; [exists 0%nat, [], [], []; splits; auto; try (cbn; lia); constructor|].
      exfalso. exact (leb_cons _ _ _ Hkey E2).
    - inversion Hsq as [E1 E2|num wt key p ns' r Hwt Hkey Hp Hr E1 E2]; subst.
      { inversion H; subst. exists 0%nat, [], [], []. splits; auto; try (cbn; lia). }
      destruct (key ++ p ++ r) as [|x y] eqn:Ebz. { exfalso. exact (leb_cons _ _ _ Hkey Ebz). }
      rewrite <- Ebz in *. clear x y Ebz. dstep H. destruct e as [e|].
      { apply key_err in E. rewrite E in H. destruct (Z.ltb_spec 0 (fo_num o)); [discriminate|lia]. }
      destruct (key_exact _ _ _ _ _ _ Hok Hwt Hkey E) as [-> ->]. cbn [fst snd] in H.
      destruct (Z.ltb_spec num (fo_num o)); [discriminate|]. destruct (Z.ltb_spec (fo_num o) num).
      { inversion H; subst. exists 0%nat, (num :: ns'), [], (key ++ p ++ r). splits; auto; try (cbn; lia). }
      assert (num = fo_num o) by lia. subst num. clear H0 H1. destruct (Z.eqb_spec wt Typ3ByteLength); [|discriminate]. cbn [negb] in H. subst wt.
      dstep H. rewrite skipn_app_exact in H by reflexivity. apply bytes_ok_app in Hok. destruct Hok as [Hok1 Hok].
      pose proof Hok as Hok2. apply bytes_ok_app in Hok2. destruct Hok2 as [Hokp Hokr].
      destruct (skip_empty env einfo ert o (p ++ r)) eqn:Esk.
      + pose proof (skip_payload _ _ _ _ _ Esk Hp) as Lp. rewrite skipn_app_exact in H by exact Lp.
        destruct (IH _ _ _ _ _ _ Hokr Hr H) as (i & ns2 & pre & bz2 & -> & S2 & -> & -> & A). exists (S i), ns2, (key ++ p ++ pre), bz2.
        splits; auto; [rewrite !app_assoc; reflexivity|rewrite !app_length; lia].
      + dstep H. dstep H. dstep H.
        assert (Lp : m = length p).
        { eapply (exact_payload env c Hs k p r einfo ert _ (set_num 1 o) _ m Typ3ByteLength); try eassumption.
          unfold delimited in Hdel. unfold type_to_typ3. destruct (resolve env (deref_type ert)) as [[]| | | | | | | | | |]; try discriminate; reflexivity. }
        subst m. rewrite skipn_app_exact in H by reflexivity.
        destruct (IH _ _ _ _ _ _ Hokr Hr H) as (i & ns2 & pre & bz2 & -> & S2 & -> & -> & A). exists (S i), ns2, (key ++ p ++ pre), bz2.
        splits; auto; [rewrite !app_assoc; reflexivity|rewrite !app_length; lia].
  Qed.

  Lemma array_entries einfo ert o : get_type_info env c ert = EOk einfo -> one_payload env (deref_type ert) = true -> delimited env ert = true -> 0 < fo_num o ->
    forall todo bz ns n done l bz' n', bytes_ok bz -> sequence ns bz -> decode_array_unpacked env rec bz n einfo ert o done todo = DRet (l, bz') n' None ->
    exists ns2 pre, ns = repeat (fo_num o) (length todo) ++ ns2 /\ sequence ns2 bz' /\ bz = pre ++ bz' /\ n' = (n + length pre)%nat.
  Proof.
    intros Hg Hone Hdel Hnum. induction todo as [|w0 todo IH]; intros bz ns n done l bz' n' Hok Hsq H; cbn [decode_array_unpacked] in H.
    - inversion H; subst. exists ns, []. splits; auto; cbn; lia.
    - dstep H. destruct e as [e|].
      { apply key_err in E. rewrite E in H. destruct (Z.eqb_spec 0 (fo_num o)); [lia|discriminate]. }
      inversion Hsq as [E1 E2|num wt key p ns' r Hwt Hkey Hp Hr E1 E2]; subst; [discriminate E|].
      destruct (key_exact _ _ _ _ _ _ Hok Hwt Hkey E) as [-> ->]. cbn [fst snd] in H.
      destruct (Z.eqb_spec num (fo_num o)); [|discriminate]. cbn [negb] in H. subst num. destruct (Z.eqb_spec wt Typ3ByteLength); [|discriminate]. cbn [negb] in H. subst wt.
      dstep H. rewrite skipn_app_exact in H by reflexivity. apply bytes_ok_app in Hok. destruct Hok as [Hok1 Hok].
      pose proof Hok as Hok2. apply bytes_ok_app in Hok2. destruct Hok2 as [Hokp Hokr].
      destruct (skip_empty env einfo ert o (p ++ r)) eqn:Esk.
      + pose proof (skip_payload _ _ _ _ _ Esk Hp) as Lp. rewrite skipn_app_exact in H by exact Lp.
        destruct (IH _ _ _ _ _ _ _ Hokr Hr H) as (ns2 & pre & -> & S2 & -> & ->). exists ns2, (key ++ p ++ pre).
        splits; auto; [rewrite !app_assoc; reflexivity|rewrite !app_length; lia].
      + dstep H. dstep H. dstep H.
        assert (Lp : m = length p).
        { eapply (exact_payload env c Hs k p r einfo ert _ (set_num 1 o) _ m Typ3ByteLength); try eassumption.
          unfold delimited in Hdel. unfold type_to_typ3. destruct (resolve env (deref_type ert)) as [[]| | | | | | | | | |]; try discriminate; reflexivity. }
        subst m. rewrite skipn_app_exact in H by reflexivity.
        destruct (IH _ _ _ _ _ _ _ Hokr Hr H) as (ns2 & pre & -> & S2 & -> & ->). exists ns2, (key ++ p ++ pre).
        splits; auto; [rewrite !app_assoc; reflexivity|rewrite !app_length; lia].
  Qed.

  (** A list field with one entry per element. *)
  Lemma list_entries info t o bz ns v0 v n : get_type_info env c t = EOk info -> entries env t = true -> one_or_entries env t = true -> 0 < fo_num o ->
    bytes_ok bz -> sequence ns bz -> decode_reflect (S k) env c bz info t v0 o true = DRet v n None ->
    exists i ns2 pre bz2, ns = repeat (fo_num o) i ++ ns2 /\ sequence ns2 bz2 /\ bz = pre ++ bz2 /\ n = length pre /\ above_head (fo_num o) ns2.
  Proof.
    intros Hg He Ho Hnum Hok Hsq D. unfold one_or_entries in Ho. rewrite He in Ho. apply andb_true_iff in Ho. destruct Ho as [Hm Ho].
    destruct (entries_elem env t He) as (e & Hel & Hdel & Hu). pose proof (elem_nonptr env t e Hel) as Np. pose proof (deref_nonptr _ Np) as Dt.
    rewrite (reflect_switch env c Hs _ _ _ _ _ _ _ Hg) in D by (rewrite Dt; exact Hm).
    destruct (info_unmarshal env c Hs _ _ Hg) as [Ht _]; [rewrite Dt; exact Hm|].
    assert (G : exists w, decode_switch env c (decode_reflect k env c) bz info (base_of env t v0) o true = DRet w n None).
    { destruct info; [|destruct t; try discriminate D]; unfold dmap in D; dstep D; inversion D; subst; eexists; eassumption. }
    destruct G as [w G]. unfold decode_switch in G. rewrite Ht, Dt in G. unfold elem_type in Hel.
    assert (Te : forall e einfo, get_type_info env c e = EOk einfo -> ti_type einfo = deref_type e).
    { intros e0 einfo He0. eapply minfo_type. eapply gti_minfo; eassumption. }
    destruct (resolve env t) as [| |len e'|e'| | | | | | |] eqn:Er; try discriminate; inversion Hel; subst e'; rewrite Hu in G.
    - unfold decode_array in G. rewrite Hu in G. destruct (base_of env t v0) as [| | | | | |l0| | | | | | | |]; try discriminate G. dstep G. unfold enter in G. dstep G.
      rewrite (Te _ _ E) in E0. apply typ3_delimited in E0. rewrite E0, Hdel in G. cbn [negb] in G. dstep G. destruct a1 as [l1 bz1]. dstep G.
      apply (array_entries a e o E Ho Hdel Hnum) with (ns := ns) in E1; [|exact Hok|exact Hsq]. destruct E1 as (ns2 & pre & -> & S2 & -> & ->).
      exists (length l0), ns2, pre, bz1. inversion S2 as [X1 X2|num wt key p ns' r Hwt Hkey Hp Hr X1 X2]; subst.
      + inversion G; subst. splits; auto; first [constructor|cbn; lia].
      + destruct (key ++ p ++ r) as [|x y] eqn:Ebz. { exfalso. exact (leb_cons _ _ _ Hkey Ebz). }
        rewrite <- Ebz in *. clear x y Ebz. dstep G. dstep G. apply bytes_ok_app in Hok. destruct Hok as [_ Hok].
        destruct (key_exact _ _ _ _ _ _ Hok Hwt Hkey E1) as [-> ->]. cbn [fst] in G. destruct (Z.leb_spec num (fo_num o)); [discriminate|]. inversion G; subst.
        splits; auto. 
    - unfold decode_slice in G. rewrite Hu in G. dstep G. unfold enter in G. dstep G.
      rewrite (Te _ _ E) in E0. apply typ3_delimited in E0. rewrite E0, Hdel in G. cbn [negb] in G. dstep G. dstep G. inversion G; subst.
      apply (slice_entries a e o E Ho Hdel Hnum) with (ns := ns) in E1; [|exact Hok|exact Hsq]. exact E1.
  Qed.
End Order.

Section Fields.
  Variable env : tenv.
  Variable c : codec.
  Hypothesis Hs : sane_codec env c.
  Variable R : Z -> Prop.

  Fixpoint good_infos (hi : Z) (infos : list finfo) : Prop :=
    match infos with
    | [] => True
    | f :: r => hi < fo_num (fi_opts f) /\ fi_unpacked f = entries env (fi_type f) /\ one_or_entries env (fi_type f) = true /\
                (fi_unpacked f = true -> R (fo_num (fi_opts f))) /\ good_infos (fo_num (fi_opts f)) r
    end.
  Lemma good_weaken hi hi' infos : hi' <= hi -> good_infos hi infos -> good_infos hi' infos.
  Proof. destruct infos; cbn; [auto|]. intros H (A & B). split; [lia|exact B]. Qed.

  Definition continues (last hi : Z) (ns : list Z) : Prop := hi <= last \/ above_head hi ns.

  Lemma rising_app a : forall b hi, rising R a -> rising R b -> Forall (fun x => x <= hi) a -> Forall (fun x => hi < x) b -> rising R (a ++ b).
  Proof.
    induction a as [|x a IH]; intros b hi Ha Hb La Lb; [exact Hb|]. cbn [app rising] in *. destruct Ha as [H1 H2]. inversion La; subst. split; [|apply (IH b hi); assumption].
    apply Forall_app. split; [exact H1|]. eapply Forall_impl; [|exact Lb]. cbv beta. intros; left; lia.
  Qed.
  Lemma rising_repeat x i : R x -> rising R (repeat x i).
  Proof. intros H. induction i as [|i IH]; cbn [repeat rising]; [exact I|]. split; [|exact IH]. apply Forall_forall. intros y Hy. apply repeat_spec in Hy. subst. right. auto. Qed.

  Lemma field_step k f l bz last n l' bz' last' n' hi ns : 0 <= hi -> good_infos hi [f] -> bytes_ok bz -> sequence ns bz -> continues last hi ns ->
    decode_field env c (decode_reflect k env c) f l bz last n = DRet (l', bz', last') n' None ->
    exists ns1 ns2, ns = ns1 ++ ns2 /\ bytes_ok bz' /\ sequence ns2 bz' /\ rising R ns1 /\ Forall (fun x => hi < x <= fo_num (fi_opts f)) ns1 /\
      exists hi', hi <= hi' <= fo_num (fi_opts f) /\ Forall (fun x => x <= hi') ns1 /\ continues last' hi' ns2.
  Proof.
    intros Hhi (Hlt & Hu & Hone & HR & _) Hok Hsq Hc H. assert (Hpos : 0 < fo_num (fi_opts f)) by lia. unfold decode_field in H. cbv zeta in H. dstep H. rename a into info.
    assert (Same : DRet (upd (fi_index f) (default_value env (fi_type f)) l, bz, last) n None = DRet (l', bz', last') n' None -> exists ns1 ns2,
      ns = ns1 ++ ns2 /\ bytes_ok bz' /\ sequence ns2 bz' /\ rising R ns1 /\ Forall (fun x => hi < x <= fo_num (fi_opts f)) ns1 /\
      exists hi', hi <= hi' <= fo_num (fi_opts f) /\ Forall (fun x => x <= hi') ns1 /\ continues last' hi' ns2).
    { intros X. inversion X; subst. exists [], ns. splits; auto; [exact I|]. exists hi. split; [lia|split; [constructor|exact Hc]]. }
    destruct bz as [|x0 bz0]; [exact (Same H)|]. remember (x0 :: bz0) as bz. destruct (fi_unpacked f).
    - dstep H. dstep H. inversion H; subst l' bz' last' n' e. destruct k as [|k]; [discriminate E0|].
      destruct (list_entries env c Hs k _ _ _ _ _ _ _ _ E (eq_sym Hu) Hone Hpos Hok Hsq E0) as (i & ns2 & pre & bz2 & -> & S2 & Eb & -> & A).
      rewrite Eb, skipn_app_exact by reflexivity. rewrite Eb in Hok. apply bytes_ok_app in Hok. destruct Hok as [_ Hok].
      exists (repeat (fo_num (fi_opts f)) i), ns2. splits; auto.
      + apply rising_repeat. auto.
      + apply Forall_forall. intros y Hy. apply repeat_spec in Hy. lia.
      + exists (fo_num (fi_opts f)). split; [lia|split; [|right; exact A]]. apply Forall_forall. intros y Hy. apply repeat_spec in Hy. lia.
    - dstep H. destruct a as [fnum typ].
      destruct (Z.ltb_spec (fo_num (fi_opts f)) fnum) as [Hf|Hf]; [exact (Same H)|]. destruct (Z.leb_spec fnum last); [discriminate|]. dstep H. dstep H.
      destruct (Z.eqb_spec (fo_num (fi_opts f)) fnum); [|discriminate]. cbn [negb] in H. subst fnum. dstep H. destruct (Z.eqb_spec typ a); [|discriminate]. cbn [negb] in H. subst a.
      inversion Hsq as [X1 X2|num wt key p ns' r Hwt Hkey Hp Hr X1 X2]; [subst; discriminate|]. rewrite <- X2 in *.
      destruct (key_exact _ _ _ _ _ _ Hok Hwt Hkey E0) as [X ->]. inversion X; subst num typ. rewrite skipn_app_exact in H by reflexivity. dstep H. dstep H.
      apply bytes_ok_app in Hok. destruct Hok as [_ Hok].
      pose proof (gti_minfo _ _ _ _ Hs E) as Hi. rewrite (minfo_type env c _ _ Hi) in E1. unfold one_or_entries in Hone. rewrite <- Hu in Hone. inversion H; subst e.
      pose proof (exact_payload env c Hs k p r info (fi_type f) _ _ _ _ wt Hok E Hone E1 Hp E2) as Lm. subst m.
      rewrite skipn_app_exact in * by reflexivity. subst. apply bytes_ok_app in Hok. destruct Hok as [_ Hok].
      exists [fo_num (fi_opts f)], ns'. split; [reflexivity|]. split; [assumption|]. split; [assumption|].
      split; [cbn [rising]; split; [constructor|exact I]|]. split; [constructor; [lia|constructor]|].
      exists (fo_num (fi_opts f)). split; [lia|split; [constructor; [lia|constructor]|left; lia]].
  Qed.

  Lemma fields_order k : forall infos l bz last n l' bz' last' n' hi ns, 0 <= hi -> good_infos hi infos -> bytes_ok bz -> sequence ns bz -> continues last hi ns ->
    decode_fields env c (decode_reflect k env c) infos l bz last n = DRet (l', bz', last') n' None ->
    exists ns1 ns2, ns = ns1 ++ ns2 /\ bytes_ok bz' /\ sequence ns2 bz' /\ rising R ns1 /\ Forall (fun x => hi < x) ns1 /\
      exists hi', hi <= hi' /\ Forall (fun x => x <= hi') ns1 /\ continues last' hi' ns2.
  Proof.
    induction infos as [|f infos IH]; intros l bz last n l' bz' last' n' hi ns Hhi Hg Hok Hsq Hc H; cbn [decode_fields] in H.
    - inversion H; subst. exists [], ns. split; [reflexivity|]. split; [assumption|]. split; [assumption|]. split; [exact I|]. split; [constructor|]. exists hi. split; [lia|split; [constructor|exact Hc]].
    - dstep H. dstep H. destruct a as [[l1 bz1] last1]. cbn [good_infos] in Hg. destruct Hg as (G1 & G2 & G3 & G4 & G5).
      apply (field_step k f l bz last n _ _ _ _ hi ns) in E; [|exact Hhi|cbn; auto|exact Hok|exact Hsq|exact Hc].
      destruct E as (a1 & b1 & -> & Ok1 & S1 & R1 & F1 & hi1 & Hh & F1' & C1).
      apply (IH _ _ _ _ _ _ _ _ hi1 b1) in H; [|lia|apply (good_weaken (fo_num (fi_opts f))); [lia|exact G5]|exact Ok1|exact S1|exact C1].
      destruct H as (a2 & b2 & -> & Ok2 & S2 & R2 & F2 & hi2 & Hh2 & F2' & C2).
      exists (a1 ++ a2), b2. splits; auto.
      + rewrite app_assoc. reflexivity.
      + apply (rising_app _ _ hi1); assumption.
      + apply Forall_app. split; [eapply Forall_impl; [|exact F1]; cbv beta; lia|eapply Forall_impl; [|exact F2]; cbv beta; lia].
      + exists hi2. split; [lia|split; [|exact C2]]. apply Forall_app. split; [eapply Forall_impl; [|exact F1']; cbv beta; lia|exact F2'].
  Qed.

  Lemma consume_exact wt p rest n : bytes_ok (p ++ rest) -> payload_of wt p -> consume_any wt (p ++ rest) = DRet tt n None -> n = length p.
  Proof.
    intros Hok Hp H. unfold consume_any in H. inversion Hp as [b u Hl X|b L X|l b Hl X|b L X]; subst.
    - change (0 =? Typ3Varint) with true in H. cbn iota in H. dstep H. dstep H. dstep H. inversion H; subst.
      apply varint_some in E. destruct E as [u' E]. destruct (uvarint_exact _ _ _ _ _ Hok Hl E) as [-> _]. reflexivity.
    - change (1 =? Typ3Varint) with false in H. change (1 =? Typ38Byte) with true in H. cbn iota in H. dstep H. dstep H. dstep H. inversion H; subst.
      apply fixed_exact in E. congruence.
    - change (2 =? Typ3Varint) with false in H. change (2 =? Typ38Byte) with false in H. change (2 =? Typ3ByteLength) with true in H. cbn iota in H.
      dstep H. dstep H. dstep H. inversion H; subst. destruct (byte_slice_exact _ _ _ _ _ Hok (leb_min_leb _ _ Hl) E) as [-> _]. reflexivity.
    - change (5 =? Typ3Varint) with false in H. change (5 =? Typ38Byte) with false in H. change (5 =? Typ3ByteLength) with false in H. change (5 =? Typ3_4Byte) with true in H.
      cbn iota in H. dstep H. dstep H. dstep H. inversion H; subst. apply fixed_exact in E. congruence.
  Qed.
  Lemma rest_order : forall j bz last n n' ns, bytes_ok bz -> sequence ns bz -> consume_rest j bz last n = DRet tt n' None ->
    rising R ns /\ Forall (fun x => last < x) ns.
  Proof.
    induction j as [|j IH]; intros bz last n n' ns Hok Hsq H; inversion Hsq as [X1 X2|num wt key p ns' r Hwt Hkey Hp Hr X1 X2]; subst; cbn [consume_rest] in H;
      try (split; [exact I|constructor]).
    - destruct (key ++ p ++ r) as [|x y] eqn:Ebz; [|discriminate]. exfalso. exact (leb_cons _ _ _ Hkey Ebz).
    - destruct (key ++ p ++ r) as [|x y] eqn:Ebz. { exfalso. exact (leb_cons _ _ _ Hkey Ebz). }
      rewrite <- Ebz in *. clear x y Ebz. dstep H. dstep H. dstep H. destruct (key_exact _ _ _ _ _ _ Hok Hwt Hkey E) as [-> ->]. cbn [fst snd] in H.
      destruct (Z.leb_spec num last); [discriminate|]. rewrite skipn_app_exact in H by reflexivity. apply bytes_ok_app in Hok. destruct Hok as [_ Hok].
      dstep H. dstep H. dstep H. destruct a. apply consume_exact in E0; [|exact Hok|exact Hp]. subst m. rewrite skipn_app_exact in H by reflexivity.
      apply bytes_ok_app in Hok. destruct Hok as [_ Hok]. destruct (IH _ _ _ _ _ Hok Hr H) as [R1 F1]. cbn [rising]. splits.
      + eapply Forall_impl; [|exact F1]. cbv beta. auto.
      + exact R1.
      + constructor; [lia|]. eapply Forall_impl; [|exact F1]. cbv beta. lia.
  Qed.
  Lemma body_order k infos l bz l' bz' last' n0 n' n'' ns : good_infos 0 infos -> bytes_ok bz -> sequence ns bz ->
    decode_fields env c (decode_reflect k env c) infos l bz 0 n0 = DRet (l', bz', last') n' None ->
    consume_rest (length bz') bz' last' n' = DRet tt n'' None -> rising R ns /\ Forall (fun x => 0 < x) ns.
  Proof.
    intros Hg Hok Hsq H H'. destruct (fields_order k infos _ _ _ _ _ _ _ _ 0 ns (Z.le_refl 0) Hg Hok Hsq (or_introl (Z.le_refl 0)) H)
      as (a & b & -> & Ok1 & S1 & R1 & F1 & hi & Hh & F1' & C1).
    destruct (rest_order _ _ _ _ _ _ Ok1 S1 H') as [R2 F2].
    assert (F3 : Forall (fun x => hi < x) b).
    { destruct C1 as [C1|C1]; [eapply Forall_impl; [|exact F2]; cbv beta; lia|]. destruct b as [|y b]; [constructor|]. cbn in C1. cbn [rising] in R2.
      constructor; [lia|]. eapply Forall_impl; [|apply R2]. cbv beta. lia. }
    split; [apply (rising_app _ _ hi); assumption|]. apply Forall_app. split; [exact F1|]. eapply Forall_impl; [|exact F3]. cbv beta. lia.
  Qed.
End Fields.

(** The infos of a struct type. *)
Lemma infos_good env fs (R : Z -> Prop) : forall i num infos, parse_fields env fs i num = EOk infos -> Z.of_nat (num + length fs) < 2 ^ 32 ->
  (forall f, In f fs -> visible f = true -> one_or_entries env (sf_type f) = true) ->
  (forall n f, In (n, f) (numbered (Z.of_nat num + 1) fs) -> entries env (sf_type f) = true -> R n) ->
  good_infos env R (Z.of_nat num) infos.
Proof.
  induction fs as [|f fs IH]; intros i num infos H Hn Hf HR; [cbn in H; apply EOk_inj in H; subst; exact I|].
  apply parse_step in H. pose proof (visible_opts f (Z.of_nat num + 1)) as Hv. cbn [numbered length] in *.
  destruct (field_opts _ f) as [o|] eqn:Eo.
  - assert (V : visible f = true) by (destruct (visible f); [reflexivity|]; destruct Hv as [_ Hv]; discriminate (Hv eq_refl)). rewrite V in HR.
    destruct H as (fi & rest & -> & Hx & Ht & Hu & Ho & _ & H). cbn [good_infos]. rewrite Ht, Hu, Ho.
    change (fo_num (set_num (u32 (Z.of_nat num + 1)) o)) with (u32 (Z.of_nat num + 1)). rewrite u32_small by lia. splits; [lia|reflexivity|apply Hf; [left; reflexivity|exact V]| |].
    + intros He. apply (HR _ f); [left; reflexivity|exact He].
    + replace (Z.of_nat num + 1) with (Z.of_nat (S num)) in * by lia. apply (IH (S i) (S num)); [exact H|lia| |].
      * intros g Hg. apply Hf. right. exact Hg.
      * intros n g Hg. apply HR. right. replace (Z.of_nat (S num) + 1) with (Z.of_nat (S num) + 1) by lia. exact Hg.
  - assert (V : visible f = false) by (apply Hv; reflexivity). rewrite V in HR. apply (IH (S i) num); [exact H|lia| |exact HR].
    intros g Hg. apply Hf. right. exact Hg.
Qed.

(** ** Structs *)

Lemma struct_infos env c t fs info : sane_codec env c -> resolve env (deref_type t) = RStruct fs -> one_payload env (deref_type t) = true ->
  get_type_info env c t = EOk info -> exists ci, info = TIConc ci /\ ci_type ci = deref_type t /\ parse_fields env fs 0 0 = EOk (ci_fields ci).
Proof.
  intros Hs Hr Ho H. pose proof (gti_minfo _ _ _ _ Hs H) as Hi. destruct info as [ci|ii].
  - destruct Hi as [Ht Hok]. exists ci. split; [reflexivity|]. split; [exact Ht|]. destruct (info_ok_parts _ _ Hok) as (_ & Hp & _).
    unfold parse_struct_info in Hp. rewrite Ht, Hr in Hp. exact Hp.
  - destruct Hi as [_ Ht]. rewrite Ht in Hr. discriminate.
Qed.

Lemma struct_order env c t fs info k bz v0 v n o (bare : bool) ns buf m : sane_codec env c -> get_type_info env c t = EOk info ->
  resolve env (deref_type t) = RStruct fs -> one_payload env (deref_type t) = true -> Z.of_nat (length fs) < 2 ^ 32 ->
  (forall f, In f fs -> visible f = true -> one_or_entries env (sf_type f) = true) ->
  (if bare then buf = bz else decode_byte_slice bz = DRet buf m None) -> bytes_ok buf -> sequence ns buf ->
  decode_reflect k env c bz info t v0 o bare = DRet v n None -> rising (repeated env fs) ns /\ Forall (fun x => 0 < x) ns.
Proof.
  intros Hs Hg Hr Hone Hl Hf Hb Hok Hsq D. destruct k as [|k]; [discriminate|].
  destruct (struct_infos _ _ _ _ _ Hs Hr Hone Hg) as (ci & -> & Ht & Hp).
  unfold one_payload in Hone. apply andb_true_iff in Hone. destruct Hone as [Hm _]. rewrite (reflect_switch env c Hs _ _ _ _ _ _ _ Hg Hm) in D.
  unfold dmap in D. dstep D. unfold decode_switch in E. cbn [ti_type] in E. rewrite Ht, Hr in E. unfold decode_struct in E.
  assert (G : exists n0 m' e', (match resolve env (ci_type ci), base_of env t v0 with
    | RStruct _, VStruct l0 =>
        dbind (decode_fields env c (decode_reflect k env c) (ci_fields ci) l0 buf 0 n0) (fun st n e =>
        let '(l, bz', last) := st in
        match e with
        | Some e => DRet (VStruct l) n (Some e)
        | None => dbind (consume_rest (length bz') bz' last n) (fun _ n e => DRet (VStruct l) n e)
        end)
    | _, _ => DPanic "reflect: call on wrong kind"%string end) = DRet a m' e' /\ e' = None).
  { assert (e = None) by (inversion D; reflexivity). subst e. destruct bare.
    - subst buf. unfold enter in E. rewrite Ht, Hr in *. eexists 0%nat, _, None. split; [exact E|reflexivity].
    - apply enter_ok in E. destruct E as (buf' & m' & E1 & E). assert (buf' = buf) by congruence. subst buf'.
      rewrite Ht, Hr in *. eexists _, _, None. split; [exact E|reflexivity]. }
  clear E D. destruct G as (n0 & m' & e' & G & ->). rewrite Ht, Hr in G. destruct (base_of env t v0) as [| | | | | | | | |l0| | | | |]; try discriminate.
  dstep G. destruct a0 as [[l1 bz1] last1]. dstep G. dstep G. destruct a0. inversion G; subst.
  eapply (body_order env c Hs (repeated env fs)); [|exact Hok|exact Hsq|exact E|exact E0].
  apply (infos_good env fs _ 0 0); [exact Hp|cbn; lia|exact Hf|]. intros num f Hin He. exists f. auto.
Qed.

(** ** Frames *)

Lemma frame_split bz b m : bytes_ok bz -> decode_byte_slice bz = DRet b m None ->
  exists l rest, bz = l ++ b ++ rest /\ m = length (l ++ b) /\ leb128 l (zlen b) /\ (length l <= 10)%nat /\ zlen b < 2 ^ 63.
Proof.
  intros Hok H. destruct (decode_byte_slice_some _ _ _ H) as (u & k & Hu & Hk & Hp & Hn & Hz & Hb & Hl).
  pose proof (decode_uvarint_range _ _ _ Hok Hu) as Hr.
  assert (U : u = zlen b). { destruct (Z_lt_le_dec u (2 ^ 63)); [rewrite i64_small in Hz by lia; exact Hz|]. rewrite i64_neg in Hp by lia. lia. }
  exists (firstn k bz), (skipn m bz). split; [exact Hb|]. assert (Lf : length (firstn k bz) = k) by (rewrite firstn_length; lia).
  split; [rewrite app_length, Lf; exact Hn|].
  destruct (decode_uvarint_inv _ _ _ Hok Hu) as (ds & last & rest & -> & Hd & Hx & H9 & _ & Hv & ->).
  assert (E : firstn (S (length ds)) (map contb ds ++ last :: rest) = map contb ds ++ [last]).
  { change (last :: rest) with ([last] ++ rest). rewrite app_assoc. apply firstn_app_exact. rewrite app_length, map_length. cbn. lia. }
  rewrite E. split; [|split].
  - exists ds, last. rewrite <- U. auto.
  - rewrite app_length, map_length. cbn. lia.
  - destruct (Z_lt_le_dec u (2 ^ 63)); [lia|]. rewrite i64_neg in Hp by lia. lia.
Qed.
Lemma frame_join (l b rest : bytes) : leb128 l (zlen b) -> (length l <= 10)%nat -> zlen b < 2 ^ 63 ->
  decode_byte_slice (l ++ b ++ rest) = DRet b (length (l ++ b)) None.
Proof.
  intros Hl H10 Hb. assert (0 <= zlen b) by (unfold zlen; lia). unfold decode_byte_slice. rewrite (decode_uvarint_leb l (b ++ rest) (zlen b)); [|exact Hl|lia|exact H10].
  rewrite slide_app by reflexivity. rewrite i64_small by lia. destruct (Z.ltb_spec (zlen b) 0); [lia|].
  replace (zlen (b ++ rest) <? zlen b) with false by (unfold zlen; rewrite app_length; lia).
  rewrite firstn_app_exact by (unfold zlen; lia). rewrite app_length. f_equal. unfold zlen. lia.
Qed.

Lemma frame_exact env c k t info v0 o bz v n : sane_codec env c -> get_type_info env c t = EOk info -> in_frame env (deref_type t) = true -> bytes_ok bz ->
  decode_reflect k env c bz info t v0 o false = DRet v n None ->
  exists l b rest, bz = l ++ b ++ rest /\ leb128 l (zlen b) /\ (n <= length (l ++ b))%nat /\ (leb128_min l (zlen b) -> n = length (l ++ b)) /\
    forall rest', decode_reflect k env c (l ++ b ++ rest') info t v0 o false = DRet v n None.
Proof.
  intros Hs Hg Hin Hok D. destruct (frame_count env c Hs _ _ _ _ _ _ _ _ Hg Hin D) as (buf & m & Db & Hn).
  destruct (frame_split _ _ _ Hok Db) as (l & rest & -> & -> & Hl & H10 & Hz). exists l, buf, rest.
  assert (0 <= zlen buf) by (unfold zlen; lia).
  split; [reflexivity|]. split; [exact Hl|]. split; [|split].
  - rewrite Hn, app_length. assert (Z.to_nat (uvarint_size (zlen buf)) <= length l)%nat; [|lia].
    assert (Hu : decode_uvarint (l ++ buf ++ rest) = DRet (zlen buf) (length l) None) by (apply decode_uvarint_leb; [exact Hl|lia|exact H10]).
    destruct (decode_uvarint_minimal _ _ _ Hok Hu) as (_ & Hle & _). pose proof (encode_uvarint_length (zlen buf)). unfold zlen in *. lia.
  - intros Hm. rewrite Hn, app_length, (minimal_size l buf); [reflexivity|lia|exact Hm].
  - intros rest'. rewrite <- D. eapply frame_same; [exact Hs|exact Hg|exact Hin|apply frame_join; assumption|exact Db].
Qed.
