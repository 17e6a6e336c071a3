(** The decoder reads every message that SpecRead.v describes. *)
From Coq Require Import ZArith String List Bool Lia.
From Coq Require Import ZifyBool ZifyNat.
From Verif Require Import Base Prims SpecWire PrimFacts PrimProps Types Codec BinEnc BinDec Amino FuelFacts DecFacts
  ValueInd Typing Registry SpecRegistry RegistryFacts Sane DecSafe SpecNorm EncFacts RoundTrip RegistryProps TopFacts SpecProto ProtoFacts
  SpecStruct SkipFacts SpecVersion VersionFacts SpecKin Careful KinFacts SpecFrame OrderFacts SpecRead ReadFacts.
Import ListNotations.
Local Open Scope Z_scope.

Scheme reads_m := Minimality for reads Sort Prop
  with packed_m := Minimality for packed_reads Sort Prop
  with elems_m := Minimality for elems_read Sort Prop
  with fields_m := Minimality for fields_read Sort Prop.
Combined Scheme reads_mut from reads_m, packed_m, elems_m, fields_m.

(** ** Enough fuel *)

Definition Ev (P : nat -> Prop) : Prop := exists k0, forall k, (k0 <= k)%nat -> P k.
Lemma ev_now (P : nat -> Prop) : (forall k, P k) -> Ev P.
Proof. intros H. exists 0%nat. intros. apply H. Qed.
Lemma ev_map (P Q : nat -> Prop) : Ev P -> (forall k, P k -> Q k) -> Ev Q.
Proof. intros [k0 H] F. exists k0. intros. apply F. apply H. assumption. Qed.
Lemma ev_and (P Q R : nat -> Prop) : Ev P -> Ev Q -> (forall k, P k -> Q k -> R k) -> Ev R.
Proof. intros [k1 H1] [k2 H2] F. exists (Nat.max k1 k2). intros. apply F; [apply H1|apply H2]; lia. Qed.
Lemma ev_up (P Q : nat -> Prop) : Ev P -> (forall k, P k -> Q (S k)) -> Ev Q.
Proof. intros [k0 H] F. exists (S k0). intros [|k] L; [lia|]. apply F. apply H. lia. Qed.

(** ** Messages with a possibly missing last byte *)

Definition cutmsg (cut : bool) (es : list entry) (b : bytes) : Prop := message es (if cut then b ++ [0] else b) /\ (cut = true -> es <> []).

Lemma leb_nonnil b u : leb128_min b u -> b <> [].
Proof. intros (ds & last & -> & _) X. apply app_eq_nil in X. destruct X as [_ X]. discriminate X. Qed.
Lemma payload_nonnil q b : payload_bytes q b -> b <> [].
Proof.
  intros H. destruct H as [u b H|b H _|b H _|l b H].
  - exact (leb_nonnil _ _ H).
  - intros ->. discriminate.
  - intros ->. discriminate.
  - apply leb_nonnil in H. destruct l; [contradiction|discriminate].
Qed.
Lemma message_inv num q es b : message ((num, q) :: es) b ->
  exists key p b', b = key ++ p ++ b' /\ leb128_min key (num * 8 + wire_type q) /\ payload_bytes q p /\ message es b'.
Proof. intros H. inversion H; subst. eexists _, _, _. splits; [reflexivity|eassumption|eassumption|eassumption]. Qed.
Lemma message_end b : message [] b -> b = [].
Proof. intros H. inversion H. reflexivity. Qed.
Lemma message_nonnil e es b : message (e :: es) b -> b <> [].
Proof. intros H. destruct e as [num q]. apply message_inv in H. destruct H as (key & p & b' & -> & K & _). apply leb_nonnil in K. destruct key; [contradiction|discriminate]. Qed.
Lemma empty_payload p : payload_bytes (Plen []) p -> p = [0].
Proof. intros H. inversion H as [| | |l b L]; subst. assert (E : l = [0]) by (apply (leb_zero_inv _ _ L); reflexivity). subst l. reflexivity. Qed.
Lemma varint_payload u p : payload_bytes (Pvarint u) p -> leb128_min p u.
Proof. intros H. inversion H; subst. assumption. Qed.

Lemma cutmsg_cons cut num q es b : cutmsg cut ((num, q) :: es) b ->
  (cut = true -> es <> []) -> exists key p b', b = key ++ p ++ b' /\ leb128_min key (num * 8 + wire_type q) /\ payload_bytes q p /\ cutmsg cut es b'.
Proof.
  intros [H _] Hc. apply message_inv in H. destruct H as (key & p & bs & E & K & P & M). destruct cut.
  - specialize (Hc eq_refl). assert (Nb : bs <> []). { destruct es as [|e es]; [contradiction|]. eapply message_nonnil. eassumption. }
    destruct (exists_last Nb) as (b' & x & ->). rewrite !app_assoc in E. apply app_inj_tail in E. destruct E as [-> <-].
    exists key, p, b'. rewrite <- app_assoc. splits; auto. split; auto.
  - exists key, p, bs. splits; auto. split; [assumption|discriminate].
Qed.
Lemma cutmsg_last num b : cutmsg true [(num, Plen [])] b -> leb128_min b (num * 8 + 2).
Proof.
  intros [H _]. apply message_inv in H. destruct H as (key & p & bs & E & K & P & M). apply message_end in M. apply empty_payload in P. subst.
  apply app_inj_tail in E. destruct E as [-> _]. exact K.
Qed.
Lemma cutmsg_nil cut b : cutmsg cut [] b -> cut = false /\ b = [].
Proof. intros [H N]. destruct cut; [exfalso; apply N; reflexivity|]. apply message_end in H. auto. Qed.
Lemma cutmsg_some cut num q es b : cutmsg cut ((num, q) :: es) b -> exists key p, b = key ++ p /\ leb128_min key (num * 8 + wire_type q).
Proof.
  intros [H _]. apply message_inv in H. destruct H as (key & p & bs & E & K & P & M). destruct cut.
  - destruct (exists_last (l := p ++ bs)) as (p' & x & E'). { pose proof (payload_nonnil _ _ P). destruct p; [contradiction|discriminate]. }
    rewrite E', app_assoc in E. apply app_inj_tail in E. destruct E as [-> _]. exists key, p'. auto.
  - exists key, (p ++ bs). auto.
Qed.
Lemma message_split es1 : forall es2 b, message (es1 ++ es2) b -> exists b1 b2, b = b1 ++ b2 /\ message es1 b1 /\ message es2 b2.
Proof.
  induction es1 as [|[num q] es1 IH]; intros es2 b H.
  - exists [], b. splits; auto. constructor.
  - cbn [app] in H. apply message_inv in H. destruct H as (key & p & bs & -> & K & P & M). destruct (IH _ _ M) as (b1 & b2 & -> & M1 & M2). exists (key ++ p ++ b1), b2.
    rewrite !app_assoc. splits; auto. rewrite <- app_assoc. constructor; assumption.
Qed.
Lemma cutmsg_split cut es1 es2 b : cutmsg cut (es1 ++ es2) b -> (cut = true -> es2 <> []) -> exists b1 b2, b = b1 ++ b2 /\ message es1 b1 /\ cutmsg cut es2 b2.
Proof.
  intros [H _] Hc. destruct (message_split _ _ _ H) as (b1 & b2 & E & M1 & M2). destruct cut.
  - assert (N : b2 <> []). { destruct es2; [exfalso; apply Hc; reflexivity|]. eapply message_nonnil. exact M2. }
    destruct (exists_last N) as (b' & x & ->). rewrite app_assoc in E. apply app_inj_tail in E. destruct E as [-> <-]. exists b1, b'.
    splits; auto. split; auto.
  - subst b. exists b1, b2. splits; auto. split; [assumption|discriminate].
Qed.

Lemma key_reads key num q rest : leb128_min key (num * 8 + wire_type q) -> 0 <= num < 2 ^ 29 ->
  decode_field_key (key ++ rest) = DRet (num, wire_type q) (length key) None.
Proof.
  intros H R. pose proof (wire_type_range q). apply decode_field_key_of; [exact R|lia|]. apply leb_uvarint; [exact H|lia].
Qed.

Lemma typ3_of_wire env t o w : type_wire env t o = Some w -> type_to_typ3 env t o = EOk w.
Proof.
  unfold type_wire, type_to_typ3. destruct (resolve env t) as [p| | | | | | | | | |]; try discriminate; try (intros H; inversion H; reflexivity).
  destruct p; intros H; inversion H; try reflexivity; try (destruct (fo_fixed64 o); reflexivity); try (destruct (fo_fixed32 o); reflexivity).
Qed.
Lemma typ3_delimited env t o : delimited env t = true -> type_to_typ3 env (deref_type t) o = EOk 2.
Proof.
  unfold delimited, type_to_typ3. destruct (resolve env (deref_type t)) as [p| | | | | | | | | |]; try discriminate; try reflexivity.
  destruct p; try discriminate. reflexivity.
Qed.
Lemma typ3_packed env t o w : delimited env t = false -> type_wire env (deref_type t) o = Some w -> w <> 2.
Proof.
  unfold delimited, type_wire. destruct (resolve env (deref_type t)) as [p| | | | | | | | | |]; try discriminate.
  destruct p; try discriminate; try (destruct (fo_fixed64 o)); try (destruct (fo_fixed32 o)); intros _ H; inversion H; lia.
Qed.

Lemma time_reads es s ns b : timestamp es s ns -> message es b -> decode_time b = DRet (s, ns) (length b) None.
Proof.
  assert (K1 : forall key, leb128_min key (1 * 8 + wire_type (Pvarint 0)) -> forall rest, decode_field_key (key ++ rest) = DRet (1, 0) (length key) None) by (intros; apply (key_reads key 1 (Pvarint 0)); [assumption|lia]).
  assert (K2 : forall key, leb128_min key (2 * 8 + wire_type (Pvarint 0)) -> forall rest, decode_field_key (key ++ rest) = DRet (2, 0) (length key) None) by (intros; apply (key_reads key 2 (Pvarint 0)); [assumption|lia]).
  assert (NN : forall key p u rest, leb128_min key (2 * 8 + 0) -> leb128_min p u -> 0 <= u <= 999999999 ->
    decode_nanos (key ++ p) rest = DRet u (rest + length key + length p) None).
  { intros key p u r Hk Hp Hu. unfold decode_nanos. rewrite (K2 key Hk). cbn [Z.eqb Pos.eqb andb Typ3Varint]. rewrite slide_app by reflexivity.
    pose proof (leb_uvarint p u [] Hp ltac:(lia)) as D. rewrite app_nil_r in D. rewrite D, slide_le by lia. unfold max_nanos. destruct (Z.ltb_spec 999999999 u); [lia|].
    rewrite i32_small by lia. reflexivity. }
  assert (SS : forall key p u rest, leb128_min key (1 * 8 + 0) -> leb128_min p u -> 0 <= u < 2 ^ 64 -> -62135596800 <= signed 64 u < 253402300800 ->
    decode_seconds (key ++ p ++ rest) = DRet (signed 64 u, rest) (length key + length p) None).
  { intros key p u r Hk Hp Hu Hs. unfold decode_seconds. rewrite (K1 key Hk). cbn [Z.eqb Pos.eqb andb Typ3Varint]. rewrite slide_app by reflexivity.
    rewrite (leb_uvarint p u r Hp) by lia. rewrite slide_app by reflexivity. rewrite signed64 in * by lia. unfold min_seconds, max_seconds. cbv zeta.
    destruct (Z.ltb_spec (i64 u) (-62135596800)); [lia|]. destruct (Z.leb_spec 253402300800 (i64 u)); [lia|]. reflexivity. }
  assert (LN : forall l u, leb128_min l u -> (0 < length l)%nat) by (intros l u H; apply leb_nonnil in H; destruct l; [contradiction|cbn; lia]).
  intros T M. destruct T as [|u Hu Hs|n Hn|u n Hu Hs Hn].
  - apply message_end in M. subst. reflexivity.
  - apply message_inv in M. destruct M as (key & p & bs & -> & K & P & M). apply message_end in M. subst bs. apply varint_payload in P.
    rewrite decode_time_nonnil by (rewrite app_length; apply LN in K; lia). rewrite (SS key p u [] K P Hu Hs), app_nil_r, app_length. reflexivity.
  - apply message_inv in M. destruct M as (key & p & bs & -> & K & P & M). apply message_end in M. subst bs. apply varint_payload in P.
    rewrite app_nil_r. rewrite decode_time_nonnil by (rewrite app_length; apply LN in K; lia).
    unfold decode_seconds. rewrite (K2 key K). cbn [Z.eqb Pos.eqb andb Typ3Varint]. rewrite decode_time_nanos_nonnil by (rewrite app_length; apply LN in K; lia).
    rewrite (NN key p n 0%nat K P Hn), app_length. reflexivity.
  - apply message_inv in M. destruct M as (key & p & bs & -> & K & P & M). apply varint_payload in P.
    apply message_inv in M. destruct M as (key2 & p2 & bs2 & -> & K' & P' & M). apply message_end in M. subst bs2. apply varint_payload in P'.
    rewrite app_nil_r. rewrite decode_time_nonnil by (rewrite app_length; apply LN in K; lia).
    rewrite (SS key p u _ K P Hu Hs). rewrite decode_time_nanos_nonnil by (rewrite app_length; apply LN in K'; lia).
    rewrite (NN key2 p2 n _ K' P' Hn), !app_length. f_equal. lia.
Qed.

Section Numbers.
  Variable env : tenv.
  Variable c : codec.

  Lemma read_numbers :
    (forall t o m q v, reads env c t o m q v -> match q with Pvarint u => u < 2 ^ 64 | _ => True end) /\
    (forall e o b l, packed_reads env c e o b l -> True) /\
    (forall cut num e o es l, elems_read env c cut num e o es l -> Forall (fun x => fst x = num) es /\ (cut = true -> es <> [])) /\
    (forall cut num fs es l, fields_read env c cut num fs es l -> Forall (fun x => num <= fst x < 2 ^ 29) es /\ (cut = true -> es <> [])).
  Proof.
    assert (UN : forall es lo, unknown lo es -> Forall (fun x => lo <= fst x < 2 ^ 29) es).
    { induction es as [|[n q] es IH]; intros lo H; constructor; destruct H as (H1 & H2 & H3); cbn [fst]; [lia|].
      apply IH in H3. eapply Forall_impl; [|exact H3]. cbn. intros. lia. }
    apply reads_mut; intros; try exact I; try (destruct q; exact I); try assumption.
    - destruct q; try exact I. cbn [prim_reads] in H1. destruct (Z.leb_spec (2 ^ 64) u); [discriminate|assumption].
    - split; [constructor|discriminate].
    - destruct H1. split; [constructor; auto|discriminate].
    - destruct H4. split; [constructor; auto|discriminate].
    - split; [constructor; [reflexivity|constructor]|discriminate].
    - split; [apply UN; assumption|discriminate].
    - destruct H4. split; [|assumption]. eapply Forall_impl; [|eassumption]. cbn. intros. lia.
    - destruct H8 as [H8 _]. split; [|discriminate]. constructor; [cbn; lia|]. eapply Forall_impl; [|eassumption]. cbn. intros. lia.
    - split; [|discriminate]. constructor; [cbn; lia|constructor].
    - destruct H7 as [H7 N7], H12 as [H12 N12]. split.
      + apply Forall_app. split; [eapply Forall_impl; [|exact H7]|eapply Forall_impl; [|exact H12]]; cbn; intros; lia.
      + intros X. apply orb_true_iff in X. destruct X as [X|X]; [apply N12 in X|apply N7 in X]; intros Y; apply app_eq_nil in Y; tauto.
  Qed.
End Numbers.

Definition small (q : payload) : Prop := match q with Plen b => zlen b < 2 ^ 63 | _ => True end.
Lemma small_payload q p : payload_bytes q p -> zlen p < 2 ^ 63 -> small q.
Proof. intros H L. destruct H; try exact I. cbn. rewrite zlen_app in L. pose proof (zlen_nonneg l). lia. Qed.
Lemma enter_len {A} (v0 : A) b p rest k : payload_bytes (Plen b) p -> zlen b < 2 ^ 63 ->
  exists n0, enter v0 false (p ++ rest) k = k b n0 /\ (n0 + length b = length p)%nat.
Proof.
  intros P Z. destruct (enter_finish v0 false b rest k Z) as (n0 & rest' & E & L & R & _). specialize (R eq_refl). subst rest'.
  rewrite app_nil_r in E. assert (X : p = finish false b).
  { eapply payload_unique; [exact P|]. cbn [finish]. apply pay_slice. exact Z. }
  subst p. exists n0. split; assumption.
Qed.
Definition tail_key (num : Z) (rest : bytes) : Prop :=
  rest = [] \/ exists kt m, decode_field_key rest = DRet kt m None /\ num < fst kt.
Lemma tail_cutmsg num cut es b : cutmsg cut es b -> Forall (fun x => num + 1 <= fst x < 2 ^ 29) es -> 0 <= num -> tail_key num b.
Proof.
  intros M F N. destruct es as [|[n q] es].
  - apply cutmsg_nil in M. left. tauto.
  - right. apply cutmsg_some in M. destruct M as (key & p & -> & K). inversion F; subst. cbn [fst] in *.
    rewrite (key_reads key n q p K) by lia. eexists _, _. split; [reflexivity|]. cbn [fst]. lia.
Qed.

Section Accept.
  Variable env : tenv.
  Hypothesis We : wf_env env.
  Variable c : codec.
  Hypothesis Hc : wf_codec env c.
  Hypothesis Hs : sane_codec env c.

  Notation D k := (decode_reflect k env c).

  Lemma plain_switch k bz info t v0 o bare : minfo env c info t -> deref_type t = t -> plainly_read env t ->
    D (S k) bz info t v0 o bare = decode_switch env c (D k) bz info v0 o bare.
  Proof.
    intros Hi Hd Hp. pose proof (deref_is_ptr t) as Np. rewrite Hd in Np.
    assert (DM : forall r : dres value, dmap (rebuild t) r = r).
    { intros [v n er| |]; try reflexivity. cbn. unfold rebuild. rewrite <- EncFacts.ptrs_wrap, ptrs_nonptr by exact Hd. reflexivity. }
    cbn [decode_reflect]. destruct info as [ci|ii].
    - destruct Hi as [Hct Hok]. rewrite Hd in Hct. pose proof (minfo_unmethod _ _ _ Hct Hok) as M.
      destruct ci as [ct cf cm cu cr]. cbn [ci_unmarshal ci_type] in *.
      assert (cu = None). { destruct cu as [r|]; [|reflexivity]. destruct M as (id & g & -> & M & _). rewrite (Hp id eq_refl) in M. discriminate. }
      subst cu. rewrite DM. destruct t; try discriminate Np; reflexivity.
    - destruct t; try discriminate Np; apply DM.
  Qed.

  Lemma lift_ptr k bz info t v0 o bare w n : minfo env c info t -> direct t = true -> base_of env t v0 = zero env (deref_type t) ->
    D k bz info (deref_type t) (zero env (deref_type t)) o bare = DRet w n None -> D k bz info t v0 o bare = DRet (ptrs t w) n None.
  Proof.
    intros Hi Hdir Hb H. destruct k as [|k]; [discriminate H|]. cbn [decode_reflect] in *.
    assert (Bd : base_of env (deref_type t) (zero env (deref_type t)) = zero env (deref_type t)) by (rewrite base_zero, deref_idem; reflexivity).
    rewrite Bd in H. rewrite Hb. pose proof (deref_is_ptr t) as Np.
    assert (DM : forall r : dres value, dmap (rebuild (deref_type t)) r = r).
    { intros [x y z| |]; try reflexivity. cbn. unfold rebuild. rewrite <- EncFacts.ptrs_wrap, ptrs_nonptr by apply deref_idem. reflexivity. }
    rewrite DM in H. 
    assert (UP : forall r, r = DRet w n None -> dmap (rebuild t) r = DRet (ptrs t w) n None).
    { intros r ->. cbn. unfold rebuild. rewrite <- EncFacts.ptrs_wrap. reflexivity. }
    destruct info as [ci|ii].
    - apply UP. destruct (deref_type t); exact H.
    - unfold direct in Hdir. destruct Hi as [_ Hi]. rewrite Hi in *. cbn [is_iface] in Hdir. rewrite andb_true_r in Hdir. apply negb_true_iff in Hdir.
      destruct t; try discriminate Hdir; apply UP; exact H.
  Qed.

  (** What the decoder does with [q], framed and bare. *)
  Definition acc (info : tinfo) (t : gotype) (o : fopts) (m : bool) (q : payload) (v : value) (k : nat) : Prop :=
    (forall p rest, payload_bytes q p -> D k (p ++ rest) info t (zero env t) o false = DRet v (length p) None) /\
    (forall p, (if m then q = Plen p else payload_bytes q p) -> D k p info t (zero env t) o true = DRet v (length p) None) /\
    (byte_slice env t -> q = Plen [] -> D k [] info t (zero env t) o false = DRet v 0 None).

  Definition PR (t : gotype) (o : fopts) (m : bool) (q : payload) (v : value) : Prop :=
    forall info, minfo env c info t -> deref_type t = t -> small q -> Ev (acc info t o m q v).
  Definition PK (e : gotype) (o : fopts) (b : bytes) (l : list value) : Prop :=
    forall info, minfo env c info e -> zlen b < 2 ^ 63 -> Ev (fun k =>
      (forall K n done, (length b <= K)%nat -> decode_slice_packed env (D k) K b n info e o done = DRet (done ++ l) (n + length b) None) /\
      (forall n done, decode_array_packed env (D k) b n info e o done (repeat (zero env e) (length l)) = DRet (done ++ l, []) (n + length b) None)).
  Definition PE (cut : bool) (num : Z) (e : gotype) (o : fopts) (es : list entry) (l : list value) : Prop :=
    forall info, minfo env c info e -> fo_num o = num -> 0 <= num < 2 ^ 29 -> forall b rest, cutmsg cut es b -> (cut = true -> rest = []) ->
      tail_key num rest -> zlen b < 2 ^ 63 -> Ev (fun k =>
      (forall K n done, (length (b ++ rest) <= K)%nat -> decode_slice_unpacked env (D k) K (b ++ rest) n info e o done = DRet (done ++ l) (n + length b) None) /\
      (forall n done, decode_array_unpacked env (D k) (b ++ rest) n info e o done (repeat (zero env e) (length l)) = DRet (done ++ l, rest) (n + length b) None)).
  Definition PF (cut : bool) (num : Z) (fs : list sfield) (es : list entry) (l : list value) : Prop :=
    forall numn i infos, num = Z.of_nat numn + 1 -> parse_fields env fs i numn = EOk infos -> forall b, cutmsg cut es b -> zlen b < 2 ^ 63 -> Ev (fun k =>
      forall donel n last, length donel = i -> 0 <= last < num -> exists bu last' n',
        decode_fields env c (D k) infos (donel ++ map (fun f => zero env (sf_type f)) fs) b last n = DRet (donel ++ l, bu, last') n' None /\
        consume_rest (length bu) bu last' n' = DRet tt (n + length b) None).

  Lemma byte_slice_plain t : byte_slice env t -> plainly_read env t -> exists e, resolve env t = RSlice e /\ is_uint8 env e = true.
  Proof. intros H P. destruct H; [eauto|]. rewrite (P id eq_refl) in H. discriminate. Qed.

  (** Framed values. *)
  Lemma acc_frame info t o b v k F : minfo env c info t -> deref_type t = t -> plainly_read env t -> zlen b < 2 ^ 63 -> ~ byte_slice env t ->
    (forall bz bare, exists v0 : value, decode_switch env c (D k) bz info (zero env t) o bare = enter v0 bare bz F) ->
    (forall n0, F b n0 = DRet v (n0 + length b) None) -> acc info t o true (Plen b) v (S k).
  Proof.
    intros Hi Hd Hp Hz Nb HF HV. unfold acc. splits.
    - intros p rest P. rewrite plain_switch by assumption. destruct (HF (p ++ rest) false) as [v0 ->].
      destruct (enter_len v0 b p rest F P Hz) as (n0 & -> & E). rewrite HV, E. reflexivity.
    - intros p X. inversion X; subst p. rewrite plain_switch by assumption. destruct (HF b true) as [v0 ->]. cbn [enter]. rewrite HV. reflexivity.
    - intros X. contradiction.
  Qed.

  Lemma filled_list t l v : filled env t l v ->
    (exists e, resolve env t = RSlice e /\ v = mk_slice l) \/ (exists e, resolve env t = RArray (length l) e /\ v = VArr l).
  Proof.
    intros H. destruct H as [e H N|e H N|e H]; [left|left|right]; exists e; split; auto.
    - destruct l; [contradiction|reflexivity].
    - subst l. reflexivity.
  Qed.
  Lemma list_of_slice t e e' : list_of env t e -> resolve env t = RSlice e' -> e' = e.
  Proof. intros [H|[n H]] H'; rewrite H in H'; inversion H'. reflexivity. Qed.
  Lemma list_of_array t e n e' : list_of env t e -> resolve env t = RArray n e' -> e' = e.
  Proof. intros [H|[n' H]] H'; rewrite H in H'; inversion H'. reflexivity. Qed.
  Lemma list_bytes_not t e : list_of env t e -> is_uint8 env e = false -> plainly_read env t -> ~ byte_slice env t.
  Proof. intros L U P B. destruct (byte_slice_plain _ B P) as (e' & E & U'). rewrite (list_of_slice _ _ _ L E) in U'. congruence. Qed.
  Lemma known_info t : known env c t = true -> exists info, get_type_info env c t = EOk info /\ minfo env c info t.
  Proof.
    unfold known. destruct (get_type_info env c t) as [i| | |] eqn:E; try discriminate. intros _. exists i. split; [reflexivity|]. apply gti_minfo; assumption.
  Qed.
  Lemma deref_info info t : minfo env c info t -> minfo env c info (deref_type t).
  Proof. apply minfo_deref. Qed.

  Lemma direct_zero t v0 : v0 = zero env t -> base_of env t v0 = zero env (deref_type t).
  Proof. intros ->. apply base_zero. Qed.

  Lemma rebuild_prefer e w : prefer_nil env e (ptrs e w) = if is_ptr e && defaultv w then VPtr None else ptrs e w.
  Proof. unfold prefer_nil. rewrite default_eq, ptrs_default. destruct e; reflexivity. Qed.

  (** ** Leaves *)

  Lemma a_prim t o p q v : plainly_read env t -> resolve env t = RPrim p -> prim_reads p o q = Some v -> PR t o false q v.
  Proof.
    intros Hp Er Hq info Hi Hd Hz. exists 1%nat. intros [|k] L; [lia|]. pose proof (minfo_type _ _ _ _ Hi) as Ety. rewrite Hd in Ety.
    assert (OK : forall x, payload_bytes q x -> payload_ok q).
    { intros x P. destruct P as [u b Hl| | |]; cbn; auto. split; [eapply leb_pos; exact Hl|]. cbn [prim_reads] in Hq. destruct (Z.leb_spec (2 ^ 64) u); [discriminate|assumption]. }
    unfold acc. splits.
    - intros x rest P. rewrite plain_switch by assumption. unfold decode_switch. rewrite Ety, Er. eapply prim_complete; eauto.
    - intros x P. rewrite plain_switch by assumption. unfold decode_switch. rewrite Ety, Er. rewrite <- (app_nil_r x) at 1. eapply prim_complete; eauto.
    - intros B. destruct (byte_slice_plain _ B Hp) as (e & E & _). congruence.
  Qed.

  Lemma a_time t o es b s ns : plainly_read env t -> resolve env t = RTime -> timestamp es s ns -> message es b -> PR t o true (Plen b) (VTime s ns).
  Proof.
    intros Hp Er T M info Hi Hd Hz. exists 1%nat. intros [|k] L; [lia|]. pose proof (minfo_type _ _ _ _ Hi) as Ety. rewrite Hd in Ety.
    destruct info as [ci|ii]; [|cbn in Ety; subst t; discriminate Er]. cbn [ti_type] in Ety.
    eapply acc_frame; try eassumption.
    - intros B. destruct (byte_slice_plain _ B Hp) as (e & E & _). congruence.
    - intros bz bare. exists (zero env t). unfold decode_switch. cbn [ti_type]. rewrite Ety, Er. unfold decode_struct. reflexivity.
    - intros n0. cbv beta. rewrite Ety, Er, (time_reads _ _ _ _ T M). cbn [dbind]. rewrite slide_le by lia. reflexivity.
  Qed.

  Lemma a_bytes t e o b v : plainly_read env t -> list_of env t e -> is_uint8 env e = true ->
      e = TPrim PUint8 \/ (resolve env t = RSlice e /\ b = []) -> filled env t (map VUint b) v -> PR t o false (Plen b) v.
  Proof.
    intros Hp Hl Hu He Hf info Hi Hd Hz. exists 1%nat. intros [|k] L; [lia|]. pose proof (minfo_type _ _ _ _ Hi) as Ety. rewrite Hd in Ety.
    assert (G : forall x rest bare, payload_bytes (Plen b) x -> decode_switch env c (D k) (x ++ rest) info (zero env t) o bare = DRet v (length x) None).
    { intros x rest bare P. unfold decode_switch. rewrite Ety. destruct (filled_list _ _ _ Hf) as [(e' & E & ->)|(e' & E & ->)]; rewrite E.
      - rewrite (list_of_slice _ _ _ Hl E), Hu. unfold decode_byte_slice_val. destruct (x ++ rest) as [|y z] eqn:Ex.
        { apply app_eq_nil in Ex. destruct Ex as [-> _]. exfalso. eapply payload_nonnil; eauto. }
        rewrite <- Ex. inversion P as [| | |l b' Hlb]; subst. rewrite (leb_slice l b rest Hlb Hz). cbn [dbind]. rewrite slide_app by reflexivity.
        destruct b as [|y' b]; [reflexivity|]. destruct He as [->|[_ X]]; [|discriminate X]. reflexivity.
      - rewrite (list_of_array _ _ _ _ Hl E), Hu. unfold decode_byte_array. inversion P as [| | |l b' Hlb]; subst.
        rewrite map_length. destruct (Nat.ltb_spec (length ((l ++ b) ++ rest)) (length b)) as [X|_]; [rewrite !app_length in X; lia|].
        rewrite (leb_slice l b rest Hlb Hz). cbn [dbind]. rewrite slide_app by reflexivity. rewrite Nat.eqb_refl. cbn [negb].
        destruct He as [->|[X _]]; [|congruence]. reflexivity. }
    unfold acc. splits.
    - intros x rest P. rewrite plain_switch by assumption. apply G. exact P.
    - intros x P. rewrite plain_switch by assumption. rewrite <- (app_nil_r x) at 1. apply G. exact P.
    - intros B X. inversion X; subst b. rewrite plain_switch by assumption. unfold decode_switch. rewrite Ety.
      destruct (byte_slice_plain _ B Hp) as (e' & E & U). rewrite E, U. cbn [decode_byte_slice_val]. inversion Hf; subst; try congruence. contradiction.
  Qed.

  (** ** Packed lists *)

  Lemma a_packed_cons e o m q w b bs l : direct e = true -> PR (deref_type e) o m q w -> payload_bytes q b -> PK e o bs l ->
    PK e o (b ++ bs) ((if is_ptr e && defaultv w then VPtr None else ptrs e w) :: l).
  Proof.
    intros Hdir Hw Hb IH info Hi Hz. rewrite zlen_app in Hz. pose proof (zlen_nonneg b). pose proof (zlen_nonneg bs).
    eapply ev_and; [apply (Hw info (deref_info _ _ Hi) (deref_idem e)); eapply small_payload; [exact Hb|lia]|apply (IH info Hi); lia|].
    intros k (A1 & _ & _) [S1 S2]. pose proof (payload_nonnil _ _ Hb) as Nb.
    assert (R : forall rest, D k (b ++ rest) info e (zero env e) o false = DRet (ptrs e w) (length b) None).
    { intros rest. apply lift_ptr; auto. apply base_zero. }
    split.
    - intros K n done HK. rewrite app_length in HK. destruct K as [|K]; [destruct b; [contradiction|cbn in HK; lia]|].
      destruct (b ++ bs) as [|y z] eqn:E; [destruct b; [contradiction|discriminate]|]. cbn [decode_slice_packed]. rewrite <- E. rewrite R. cbn [dbind].
      rewrite slide_app by reflexivity. rewrite S1 by (destruct b; [contradiction|cbn in HK; lia]). rewrite rebuild_prefer, <- app_assoc, app_length, Nat.add_assoc. reflexivity.
    - intros n done. cbn [length repeat decode_array_packed]. rewrite R. cbn [dbind]. rewrite slide_app by reflexivity. rewrite S2, rebuild_prefer.
      rewrite <- app_assoc, app_length, Nat.add_assoc. reflexivity.
  Qed.

  Lemma a_packed t e o l b v : plainly_read env t -> list_of env t e -> is_uint8 env e = false -> delimited env e = false -> known env c e = true ->
      type_wire env (deref_type e) o <> None -> PK e o b l -> filled env t l v -> PR t o true (Plen b) v.
  Proof.
    intros Hp Hl Hu Hdl Hk Hw HK Hf info Hi Hd Hz. pose proof (minfo_type _ _ _ _ Hi) as Ety. rewrite Hd in Ety.
    destruct (known_info _ Hk) as (ei & Eg & Hie). pose proof (minfo_type _ _ _ _ Hie) as Eet.
    destruct (type_wire env (deref_type e) o) as [wt|] eqn:Ew; [|contradiction]. clear Hw. pose proof (typ3_packed _ _ _ _ Hdl Ew) as Nw.
    eapply ev_up; [apply (HK ei Hie); exact Hz|]. intros k [S1 S2].
    destruct (filled_list _ _ _ Hf) as [(e' & E & ->)|(e' & E & ->)].
    - pose proof (list_of_slice _ _ _ Hl E) as ->.
      eapply acc_frame; try eassumption; [eapply list_bytes_not; eassumption| |].
      + intros bz bare. exists (zero env t). unfold decode_switch. rewrite Ety, E, Hu. unfold decode_slice. rewrite Hu, Eg. cbn [eget]. reflexivity.
      + intros n0. cbv beta. rewrite Eet, (typ3_of_wire _ _ _ _ Ew). cbn [eget]. unfold Typ3ByteLength. destruct (Z.eqb_spec wt 2); [contradiction|]. cbn [negb].
        rewrite S1 by lia. reflexivity.
    - pose proof (list_of_array _ _ _ _ Hl E) as ->.
      eapply acc_frame; try eassumption; [eapply list_bytes_not; eassumption| |].
      + intros bz bare. exists (zero env t). unfold decode_switch. rewrite Ety, E, Hu. unfold decode_array. rewrite Hu, (zero_array _ _ _ _ We E), Eg. cbn [eget]. reflexivity.
      + intros n0. cbv beta. rewrite Eet, (typ3_of_wire _ _ _ _ Ew). cbn [eget]. unfold Typ3ByteLength. destruct (Z.eqb_spec wt 2); [contradiction|]. cbn [negb].
        rewrite S2. reflexivity.
  Qed.

  (** ** Lists with one entry per element *)

  Lemma leb_head r u : leb128_min (0 :: r) u -> u = 0.
  Proof.
    intros (ds & x & E & Hd & Hx & -> & _). destruct ds as [|d ds].
    - cbn in E. inversion E; subst. reflexivity.
    - cbn in E. inversion E. inversion Hd; subst. unfold digit128 in *. lia.
  Qed.
  Lemma byte_slice_direct e : byte_slice env (deref_type e) -> direct e = true.
  Proof.
    intros B. unfold direct. destruct (is_iface (deref_type e)) eqn:E; [|rewrite andb_false_r; reflexivity].
    destruct (deref_type e); try discriminate E. inversion B; subst. discriminate.
  Qed.

  Definition unpacked_ok (k : nat) (info : tinfo) (e : gotype) (o : fopts) (b rest : bytes) (l : list value) : Prop :=
      (forall K n done, (length (b ++ rest) <= K)%nat -> decode_slice_unpacked env (D k) K (b ++ rest) n info e o done = DRet (done ++ l) (n + length b) None) /\
      (forall n done, decode_array_unpacked env (D k) (b ++ rest) n info e o done (repeat (zero env e) (length l)) = DRet (done ++ l, rest) (n + length b) None).

  (** One entry, read as [w]. *)
  Lemma unpacked_step k info e o num key p b rest w l : fo_num o = num -> 0 <= num < 2 ^ 29 -> leb128_min key (num * 8 + 2) ->
    (forall (n : nat) (bz2 : bytes), bz2 = b ++ rest ->
       (if skip_empty env info e o (p ++ bz2) then p = [0] /\ w = default_value env e
        else D k (p ++ bz2) info e (zero env e) (set_num 1 o) false = DRet w (length p) None)) ->
    unpacked_ok k info e o b rest l -> unpacked_ok k info e o (key ++ p ++ b) rest (w :: l).
  Proof.
    intros Hn Hr Hk Hp [S1 S2]. assert (Kr : forall x, decode_field_key (key ++ x) = DRet (num, 2) (length key) None) by (intros; apply (key_reads key num (Plen []) x Hk Hr)).
    pose proof (leb_nonnil _ _ Hk) as Nk. specialize (Hp 0%nat (b ++ rest) eq_refl).
    assert (Ea : (key ++ p ++ b) ++ rest = key ++ p ++ b ++ rest) by (rewrite <- !app_assoc; reflexivity).
    assert (El : forall n, (n + length key + length p + length b = n + length (key ++ p ++ b))%nat) by (intros; rewrite !app_length; lia).
    unfold unpacked_ok. rewrite Ea. split.
    - intros K n done HK. destruct (key ++ p ++ b ++ rest) as [|y z] eqn:E; [destruct key; [contradiction|discriminate]|].
      destruct K as [|K]; [cbn in HK; lia|]. rewrite <- E in *. assert (HK' : (length (b ++ rest) <= K)%nat). { rewrite !app_length in HK. rewrite app_length. destruct key; [contradiction|cbn in HK; lia]. }
      assert (U : decode_slice_unpacked env (D k) (S K) (key ++ p ++ b ++ rest) n info e o done =
        if skip_empty env info e o (p ++ b ++ rest) then decode_slice_unpacked env (D k) K (skipn 1 (p ++ b ++ rest)) (n + length key + 1) info e o (done ++ [default_value env e])
        else dbind (D k (p ++ b ++ rest) info e (zero env e) (set_num 1 o) false) (fun w m2 er => slide (p ++ b ++ rest) m2 (fun bz2 =>
                  match er with
                  | Some er => DRet done (n + length key + m2)%nat (wrap_err er)
                  | None => decode_slice_unpacked env (D k) K bz2 (n + length key + m2)%nat info e o (done ++ [w])
                  end))).
      { rewrite E at 1. cbn [decode_slice_unpacked]. rewrite <- E. rewrite Kr. cbn [dbind fst snd]. rewrite Hn, Z.ltb_irrefl. cbn [Z.eqb Pos.eqb negb Typ3ByteLength].
        rewrite slide_app by reflexivity. reflexivity. }
      rewrite U. destruct (skip_empty env info e o (p ++ b ++ rest)).
      + destruct Hp as [-> ->]. cbn [skipn app]. rewrite S1 by exact HK'. rewrite <- app_assoc, <- El. reflexivity.
      + rewrite Hp. cbn [dbind]. rewrite slide_app by reflexivity. rewrite S1 by exact HK'. rewrite <- app_assoc, <- El. reflexivity.
    - intros n done. cbn [length repeat decode_array_unpacked]. rewrite Kr. cbn [dbind fst snd]. rewrite Hn, Z.eqb_refl. cbn [Z.eqb Pos.eqb negb Typ3ByteLength].
      rewrite slide_app by reflexivity. destruct (skip_empty env info e o (p ++ b ++ rest)).
      + destruct Hp as [-> ->]. cbn [skipn app]. rewrite S2. rewrite <- app_assoc, <- El. reflexivity.
      + rewrite Hp. cbn [dbind]. rewrite slide_app by reflexivity. rewrite S2. rewrite <- app_assoc, <- El. reflexivity.
  Qed.

  Lemma unpacked_end k info e o rest : tail_key (fo_num o) rest -> unpacked_ok k info e o [] rest [].
  Proof.
    intros T. unfold unpacked_ok. cbn [app length]. split.
    - intros K n done HK. destruct T as [->|(kt & m & E & L)].
      + destruct K; cbn [decode_slice_unpacked]; rewrite app_nil_r, Nat.add_0_r; reflexivity.
      + destruct rest as [|y z]; [cbn in E; discriminate E|]. destruct K as [|K]; [cbn in HK; lia|].
        cbn [decode_slice_unpacked]. rewrite E. cbn [dbind]. destruct (Z.ltb_spec (fst kt) (fo_num o)); [lia|]. destruct (Z.ltb_spec (fo_num o) (fst kt)); [|lia].
        rewrite app_nil_r, Nat.add_0_r. reflexivity.
    - intros n done. cbn [length repeat decode_array_unpacked]. rewrite app_nil_r, Nat.add_0_r. reflexivity.
  Qed.

  Lemma a_elems_default cut num e o es l : is_ptr e && is_struct env (deref_type e) && fo_empty_elements o = false -> (cut = true -> es <> []) ->
      PE cut num e o es l -> PE cut num e o ((num, Plen []) :: es) (absent env e :: l).
  Proof.
    intros Hke Hcut IH info Hi Hn Hr b rest M HR T Hz. destruct (cutmsg_cons _ _ _ _ _ M Hcut) as (key & p & b' & -> & K & P & M').
    apply empty_payload in P. subst p. rewrite !zlen_app in Hz. pose proof (zlen_nonneg key). pose proof (zlen_nonneg [0]).
    eapply ev_map; [apply (IH info Hi Hn Hr b' rest M' HR T); lia|]. intros k U. eapply unpacked_step; try eassumption.
    intros _ bz2 _. cbn [app skip_empty]. rewrite (minfo_type _ _ _ _ Hi), Hke. cbn [negb]. split; [reflexivity|]. apply EncFacts.absent_eq.
  Qed.

  Lemma a_elems_cons cut num e o b0 m w es l : b0 <> [] \/ is_ptr e && is_struct env (deref_type e) && fo_empty_elements o = true ->
      direct e = true -> PR (deref_type e) (set_num 1 o) m (Plen b0) w -> (cut = true -> es <> []) -> PE cut num e o es l ->
      PE cut num e o ((num, Plen b0) :: es) (ptrs e w :: l).
  Proof.
    intros Hb0 Hdir Hw Hcut IH info Hi Hn Hr b rest M HR T Hz. destruct (cutmsg_cons _ _ _ _ _ M Hcut) as (key & p & b' & -> & K & P & M').
    rewrite !zlen_app in Hz. pose proof (zlen_nonneg key). pose proof (zlen_nonneg p). pose proof (zlen_nonneg b').
    eapply ev_and; [apply (Hw info (deref_info _ _ Hi) (deref_idem e)); eapply small_payload; [exact P|lia]|apply (IH info Hi Hn Hr b' rest M' HR T); lia|].
    intros k (A1 & _ & _) U. eapply unpacked_step; try eassumption. intros _ bz2 _.
    assert (SE : skip_empty env info e o (p ++ bz2) = false).
    { inversion P as [| | |lb bb Hlb]; subst. destruct ((lb ++ b0) ++ bz2) as [|y z] eqn:E; [reflexivity|]. cbn [skip_empty]. destruct (Z.eqb_spec y 0) as [->|Ny]; [|destruct y; auto; contradiction].
      destruct Hb0 as [Hb0|Hb0].
      - exfalso. destruct lb as [|y' lb]; [eapply leb_nonnil; eauto|]. cbn in E. inversion E; subst y'. apply leb_head in Hlb. destruct b0; [contradiction|]. unfold zlen in Hlb. cbn in Hlb. lia.
      - rewrite (minfo_type _ _ _ _ Hi), Hb0. reflexivity. }
    rewrite SE. apply lift_ptr; auto. apply base_zero.
  Qed.

  Lemma a_elems_cut num e o m w : byte_slice env (deref_type e) -> PR (deref_type e) (set_num 1 o) m (Plen []) w ->
      PE true num e o [(num, Plen [])] [ptrs e w].
  Proof.
    intros B Hw info Hi Hn Hr b rest M HR T Hz. specialize (HR eq_refl). subst rest. apply cutmsg_last in M.
    eapply ev_map; [apply (Hw info (deref_info _ _ Hi) (deref_idem e)); reflexivity|]. intros k (_ & _ & A3).
    replace b with (b ++ [] ++ []) by (rewrite !app_nil_r; reflexivity). eapply unpacked_step; try eassumption.
    - intros _ bz2 ->. cbn [app skip_empty]. apply lift_ptr; auto; [apply byte_slice_direct; exact B|apply base_zero].
    - apply unpacked_end. left. reflexivity.
  Qed.

  (** The list in a buffer. *)
  Lemma decode_elems k info t e ei o b rest l v bare : minfo env c info t -> deref_type t = t -> plainly_read env t -> list_of env t e -> is_uint8 env e = false ->
    delimited env e = true -> get_type_info env c e = EOk ei -> minfo env c ei e -> filled env t l v -> unpacked_ok k ei e o b rest l -> tail_key (fo_num o) rest ->
    exists F, (forall bz, exists v0 : value, D (S k) bz info t (zero env t) o bare = enter v0 bare bz F) /\
      forall n0, F (b ++ rest) n0 = DRet v (n0 + length b) None.
  Proof.
    intros Hi Hd Hp Hl Hu Hdl Eg Hie Hf [S1 S2] T. pose proof (minfo_type _ _ _ _ Hi) as Ety. rewrite Hd in Ety. pose proof (minfo_type _ _ _ _ Hie) as Eet.
    destruct (filled_list _ _ _ Hf) as [(e' & E & ->)|(e' & E & ->)].
    - pose proof (list_of_slice _ _ _ Hl E) as ->. eexists. split.
      + intros bz. exists (zero env t). rewrite plain_switch by assumption. unfold decode_switch. rewrite Ety, E, Hu. unfold decode_slice. rewrite Hu, Eg. cbn [eget]. reflexivity.
      + intros n0. cbv beta. rewrite Eet, (typ3_delimited _ _ _ Hdl). cbn [eget Z.eqb Pos.eqb negb Typ3ByteLength]. rewrite S1 by lia. reflexivity.
    - pose proof (list_of_array _ _ _ _ Hl E) as ->. eexists. split.
      + intros bz. exists (zero env t). rewrite plain_switch by assumption. unfold decode_switch. rewrite Ety, E, Hu. unfold decode_array. rewrite Hu, (zero_array _ _ _ _ We E), Eg. cbn [eget]. reflexivity.
      + intros n0. cbv beta. rewrite Eet, (typ3_delimited _ _ _ Hdl). cbn [eget Z.eqb Pos.eqb negb Typ3ByteLength]. rewrite S2. cbn [dbind app].
        destruct T as [->|(kt & m & Ek & L)]; [reflexivity|]. destruct rest as [|y z]; [reflexivity|]. rewrite Ek. cbn [dbind]. destruct (Z.leb_spec (fst kt) (fo_num o)); [lia|reflexivity].
  Qed.

  Lemma a_list t e o cut es l b v : plainly_read env t -> list_of env t e -> is_uint8 env e = false -> delimited env e = true -> known env c e = true ->
      0 <= fo_num o < 2 ^ 29 -> PE cut (fo_num o) e o es l -> cutmsg cut es b -> filled env t l v -> PR t o true (Plen b) v.
  Proof.
    intros Hp Hl Hu Hdl Hk Hr HE M Hf info Hi Hd Hz.
    destruct (known_info _ Hk) as (ei & Eg & Hie).
    eapply ev_up; [apply (HE ei Hie eq_refl Hr b [] M); [reflexivity|left; reflexivity|exact Hz]|]. intros k U.
    pose proof (decode_elems k info t e ei o b [] l v) as DE. rewrite app_nil_r in DE. unfold acc. splits.
    - intros p rest P. destruct (DE false Hi Hd Hp Hl Hu Hdl Eg Hie Hf U (or_introl eq_refl)) as (F & F1 & F2). destruct (F1 (p ++ rest)) as [v0 ->].
      destruct (enter_len v0 b p rest F P Hz) as (n0 & -> & En). rewrite F2, En. reflexivity.
    - intros p X. inversion X; subst p. destruct (DE true Hi Hd Hp Hl Hu Hdl Eg Hie Hf U (or_introl eq_refl)) as (F & F1 & F2). destruct (F1 b) as [v0 ->]. cbn [enter]. rewrite F2. reflexivity.
    - intros B. exfalso. eapply list_bytes_not; eassumption.
  Qed.

  (** ** Structs *)

  Lemma unknown_increasing : forall es lo last, unknown lo es -> 0 <= last < lo -> increasing last es.
  Proof.
    induction es as [|[n q] es IH]; intros lo last H L; [exact I|]. destruct H as (H1 & H2 & H3). cbn [increasing fst]. splits; try lia.
    apply (IH (n + 1)); [exact H3|lia].
  Qed.
  Lemma unknown_payloads : forall es lo b, unknown lo es -> message es b -> zlen b < 2 ^ 63 -> Forall (fun e => payload_ok (snd e)) es.
  Proof.
    induction es as [|[n q] es IH]; intros lo b H M Z; constructor.
    - destruct H as (H1 & H2 & H3). apply message_inv in M. destruct M as (key & p & b' & -> & _ & P & _). rewrite !zlen_app in Z.
      pose proof (zlen_nonneg key). pose proof (zlen_nonneg b'). cbn [snd]. pose proof (small_payload q p P ltac:(lia)) as S.
      destruct q; cbn in *; auto. split; [|assumption]. apply varint_payload in P. eapply leb_pos. exact P.
    - destruct H as (H1 & H2 & H3). apply message_inv in M. destruct M as (key & p & b' & -> & _ & _ & M). rewrite !zlen_app in Z.
      pose proof (zlen_nonneg key). pose proof (zlen_nonneg p). eapply IH; [exact H3|exact M|lia].
  Qed.

  Lemma a_fields_nil num es : unknown num es -> PF false num [] es [].
  Proof.
    intros U numn i infos Hn Hp b [M _] Hz. cbn [parse_fields] in Hp. apply EOk_inj in Hp. subst infos. apply ev_now. intros k donel n last Hl Hla.
    exists b, last, n. split; [reflexivity|]. apply consume_message with (es := es); [exact M|lia|eapply unknown_increasing; eassumption|eapply unknown_payloads; eassumption].
  Qed.

  Lemma a_fields_hidden cut num f fs es l : field_opts num f = None -> PF cut num fs es l -> PF cut num (f :: fs) es (zero env (sf_type f) :: l).
  Proof.
    intros Ho IH numn i infos Hn Hp b M Hz. apply parse_step in Hp. rewrite <- Hn, Ho in Hp.
    eapply ev_map; [apply (IH numn (S i) infos Hn Hp b M Hz)|]. intros k S donel n last Hl Hla.
    destruct (S (donel ++ [zero env (sf_type f)]) n last) as (bu & last' & n' & S1 & S2); [rewrite app_length; cbn; lia|exact Hla|].
    exists bu, last', n'. rewrite <- !app_assoc in S1. split; assumption.
  Qed.

  (** A field whose number is [num]: [b] is what it takes. *)
  Lemma fields_step num f fs o cut es l b1 b2 v : field_opts num f = Some o -> num < 2 ^ 29 -> known env c (sf_type f) = true -> PF cut (num + 1) fs es l ->
    cutmsg cut es b2 -> zlen (b1 ++ b2) < 2 ^ 63 -> 
    (forall fi info, fi_type fi = sf_type f -> fi_unpacked fi = entries env (sf_type f) -> fi_opts fi = o -> fo_num o = num ->
       get_type_info env c (sf_type f) = EOk info -> minfo env c info (sf_type f) ->
       Ev (fun k => forall donel todo last n, length donel = fi_index fi -> 0 <= last < num ->
         exists last', 0 <= last' <= num /\ decode_field env c (D k) fi (donel ++ zero env (sf_type f) :: todo) (b1 ++ b2) last n = DRet (donel ++ v :: todo, b2, last') (n + length b1) None)) ->
    forall numn i infos, num = Z.of_nat numn + 1 -> parse_fields env (f :: fs) i numn = EOk infos -> Ev (fun k =>
      forall donel n last, length donel = i -> 0 <= last < num -> exists bu last' n',
        decode_fields env c (D k) infos (donel ++ map (fun f => zero env (sf_type f)) (f :: fs)) (b1 ++ b2) last n = DRet (donel ++ v :: l, bu, last') n' None /\
        consume_rest (length bu) bu last' n' = DRet tt (n + length (b1 ++ b2)) None).
  Proof.
    intros Ho Hlt Hk IH M Hz Hf numn i infos Hn Hp. apply parse_step in Hp. rewrite <- Hn, Ho in Hp.
    destruct Hp as (fi & rest & -> & Hix & Hty & Hup & Hopt & _ & Hp).
    assert (Eo : fo_num o = num). { unfold field_opts in Ho. destruct (sf_exported f); [|discriminate]. destruct (parse_field_options f) as [o'|]; [|discriminate]. inversion Ho. reflexivity. }
    assert (Eo' : fi_opts fi = o).
    { rewrite Hopt. unfold u32, uwrap. rewrite Z.mod_small by lia. unfold field_opts in Ho. destruct (sf_exported f); [|discriminate].
      destruct (parse_field_options f) as [o'|]; [|discriminate]. inversion Ho. reflexivity. }
    destruct (known_info _ Hk) as (info & Eg & Hi). rewrite zlen_app in Hz. pose proof (zlen_nonneg b1).
    eapply ev_and; [apply (Hf fi info Hty Hup Eo' Eo Eg Hi)|apply (IH (S numn) (S i) rest ltac:(lia) Hp b2 M ltac:(lia))|].
    intros k F S donel n last Hl Hla. destruct (F donel (map (fun f => zero env (sf_type f)) fs) last n) as (last1 & L1 & E1); [lia|exact Hla|].
    destruct (S (donel ++ [v]) (n + length b1)%nat last1) as (bu & last' & n' & S1 & S2); [rewrite app_length; cbn; lia|lia|].
    exists bu, last', n'. cbn [decode_fields map]. rewrite E1. cbn [dbind]. rewrite <- !app_assoc in S1. cbn [app] in S1. split; [exact S1|]. rewrite S2, app_length, Nat.add_assoc. reflexivity.
  Qed.

  Lemma upd_here {A} (x y : A) a b : upd (length a) x (a ++ y :: b) = a ++ x :: b.
  Proof. rewrite upd_mid, <- app_assoc. reflexivity. Qed.

  Lemma a_fields_absent cut num f fs o es l : field_opts num f = Some o -> num < 2 ^ 29 -> known env c (sf_type f) = true ->
      entries env (sf_type f) = false \/ es = [] -> Forall (fun x => num + 1 <= fst x < 2 ^ 29) es -> PF cut (num + 1) fs es l ->
      PF cut num (f :: fs) es (absent env (sf_type f) :: l).
  Proof.
    intros Ho Hlt Hk He Hes IH numn i infos Hn Hp b M Hz.
    eapply (fields_step num f fs o cut es l [] b (absent env (sf_type f)) Ho Hlt Hk IH M Hz); [|exact Hn|exact Hp].
    intros fi info Hty Hup Hopt Eo Eg Hi. apply ev_now. intros k donel todo last n Hl Hla. exists last. split; [lia|]. cbn [app].
    unfold decode_field. rewrite Hty, Eg, Hup, Hopt, Eo. cbn [eget length]. rewrite Nat.add_0_r.
    destruct (tail_cutmsg num cut es b M Hes ltac:(lia)) as [->|(kt & m & Ek & Lk)].
    - rewrite <- Hl, (EncFacts.absent_eq env (sf_type f)). cbv iota. rewrite upd_here. reflexivity.
    - destruct b as [|y z]; [rewrite <- Hl, (EncFacts.absent_eq env (sf_type f)); cbv iota; rewrite upd_here; reflexivity|]. destruct He as [He|He].
      + rewrite He, Ek. cbn [dbind]. destruct kt as [a bb]. cbn [fst] in Lk. destruct (Z.ltb_spec num a); [|lia]. rewrite <- Hl, (EncFacts.absent_eq env (sf_type f)), upd_here. reflexivity.
      + subst es. apply cutmsg_nil in M. destruct M as [_ M]. discriminate M.
  Qed.

  Lemma one_field k fi info o num t todo donel last n key p b2 q w : fi_type fi = t -> fi_unpacked fi = false -> fi_opts fi = o -> fo_num o = num ->
    get_type_info env c t = EOk info -> minfo env c info t -> direct t = true -> num < 2 ^ 29 -> 
    type_wire env (deref_type t) o = Some (wire_type q) -> leb128_min key (num * 8 + wire_type q) -> length donel = fi_index fi -> 0 <= last < num ->
    D k (p ++ b2) info (deref_type t) (zero env (deref_type t)) o false = DRet w (length p) None ->
    decode_field env c (D k) fi (donel ++ zero env t :: todo) ((key ++ p) ++ b2) last n = DRet (donel ++ ptrs t w :: todo, b2, num) (n + length (key ++ p)) None.
  Proof.
    intros Hty Hup Hopt Eo Eg Hi Hdir Hlt Hw Hk Hl Hla HD. unfold decode_field. rewrite Hty, Eg, Hup, Hopt, Eo. cbn [eget].
    pose proof (leb_nonnil _ _ Hk) as Nk. rewrite <- app_assoc. destruct (key ++ p ++ b2) as [|y z] eqn:E; [destruct key; [contradiction|discriminate]|].
    rewrite <- E. rewrite (key_reads key num q (p ++ b2) Hk) by lia. cbn [dbind]. rewrite Z.ltb_irrefl. destruct (Z.leb_spec num last); [lia|].
    rewrite slide_app by reflexivity. rewrite Z.eqb_refl. cbn [negb]. rewrite (minfo_type _ _ _ _ Hi), (typ3_of_wire _ _ _ _ Hw). cbn [eget]. rewrite Z.eqb_refl. cbn [negb].
    rewrite <- Hl, nth_mid. rewrite (lift_ptr k (p ++ b2) info t (zero env t) o false w (length p)); auto; [|apply base_zero].
    cbn [dbind]. rewrite slide_app by reflexivity. rewrite upd_here, app_length, Nat.add_assoc. reflexivity.
  Qed.

  Lemma a_fields_one cut num f fs o m q w es l : field_opts num f = Some o -> num < 2 ^ 29 -> known env c (sf_type f) = true ->
      entries env (sf_type f) = false -> direct (sf_type f) = true ->
      type_wire env (deref_type (sf_type f)) o = Some (wire_type q) -> PR (deref_type (sf_type f)) o m q w -> (cut = true -> es <> []) ->
      PF cut (num + 1) fs es l -> PF cut num (f :: fs) ((num, q) :: es) (ptrs (sf_type f) w :: l).
  Proof.
    intros Ho Hlt Hk He Hdir Hw HR Hcut IH numn i infos Hn Hp b M Hz.
    destruct (cutmsg_cons _ _ _ _ _ M Hcut) as (key & p & b2 & -> & K & P & M2). rewrite app_assoc in *.
    eapply (fields_step num f fs o cut es l (key ++ p) b2 (ptrs (sf_type f) w) Ho Hlt Hk IH M2 Hz); [|exact Hn|exact Hp].
    intros fi info Hty Hup Hopt Eo Eg Hi. rewrite !zlen_app in Hz. pose proof (zlen_nonneg key). pose proof (zlen_nonneg b2).
    eapply ev_map; [apply (HR info (deref_info _ _ Hi) (deref_idem _)); eapply small_payload; [exact P|lia]|].
    intros k (A1 & _) donel todo last n Hl Hla. exists num. split; [lia|]. rewrite He in Hup. eapply one_field; eauto.
  Qed.
  Lemma a_fields_cut num f fs o m w l : field_opts num f = Some o -> num < 2 ^ 29 -> known env c (sf_type f) = true ->
      entries env (sf_type f) = false -> byte_slice env (deref_type (sf_type f)) ->
      type_wire env (deref_type (sf_type f)) o = Some 2 -> PR (deref_type (sf_type f)) o m (Plen []) w ->
      PF false (num + 1) fs [] l -> PF true num (f :: fs) [(num, Plen [])] (ptrs (sf_type f) w :: l).
  Proof.
    intros Ho Hlt Hk He B Hw HR IH numn i infos Hn Hp b M Hz. apply cutmsg_last in M.
    assert (M2 : cutmsg false [] []) by (split; [constructor|discriminate]).
    replace b with ((b ++ []) ++ []) in * by (rewrite !app_nil_r; reflexivity). rewrite app_nil_r in M.
    eapply (fields_step num f fs o false [] l (b ++ []) [] (ptrs (sf_type f) w) Ho Hlt Hk IH M2 Hz); [|exact Hn|exact Hp].
    rewrite !app_nil_r in M.
    intros fi info Hty Hup Hopt Eo Eg Hi. eapply ev_map; [apply (HR info (deref_info _ _ Hi) (deref_idem _)); reflexivity|].
    intros k (_ & _ & A3) donel todo last n Hl Hla. exists num. split; [lia|]. rewrite He in Hup.
    eapply one_field with (q := Plen []); eauto. apply byte_slice_direct. exact B.
  Qed.

  Lemma a_fields_list cut cut' num f fs o e es' es vs v l : field_opts num f = Some o -> num < 2 ^ 29 -> known env c (sf_type f) = true ->
      entries env (sf_type f) = true -> plainly_read env (sf_type f) -> list_of env (sf_type f) e -> known env c e = true ->
      PE cut' num e o es' vs -> filled env (sf_type f) vs v -> es' <> [] \/ es <> [] -> (cut' = true -> es = []) ->
      Forall (fun x => num + 1 <= fst x < 2 ^ 29) es -> (cut = true -> es <> []) -> (cut' = true -> es' <> []) ->
      PF cut (num + 1) fs es l -> PF (cut || cut') num (f :: fs) (es' ++ es) (v :: l).
  Proof.
    intros Ho Hlt Hk He Hpl Hl Hke HE Hf Hne Hce Hes Hcut Hcut' IH numn i infos Hn Hp b M Hz.
    assert (SP : exists b1 b2, b = b1 ++ b2 /\ cutmsg cut' es' b1 /\ cutmsg cut es b2 /\ (cut' = true -> b2 = [])).
    { destruct cut'.
      - rewrite (Hce eq_refl) in *. assert (cut = false) by (destruct cut; [exfalso; apply Hcut; reflexivity|reflexivity]). subst cut. cbn [orb] in M. rewrite app_nil_r in M.
        exists b, []. rewrite app_nil_r. splits; auto. split; [constructor|discriminate].
      - rewrite orb_false_r in M. destruct (cutmsg_split _ _ _ _ M Hcut) as (b1 & b2 & -> & M1 & M2). exists b1, b2. splits; auto; [|discriminate]. split; [exact M1|discriminate]. }
    destruct SP as (b1 & b2 & -> & M1 & M2 & Hb2).
    eapply (fields_step num f fs o cut es l b1 b2 v Ho Hlt Hk IH M2 Hz); [|exact Hn|exact Hp].
    intros fi info Hty Hup Hopt Eo Eg Hi. destruct (known_info _ Hke) as (ei & Ege & Hie).
    pose proof (tail_cutmsg num cut es b2 M2 Hes ltac:(lia)) as T.
    rewrite zlen_app in Hz. pose proof (zlen_nonneg b2).
    assert (Ex : exists e', elem_type env (sf_type f) = Some e' /\ delimited env e' = true /\ is_uint8 env e' = false).
    { unfold entries in He. unfold elem_type. destruct (resolve env (sf_type f)); try discriminate He; (eexists; split; [reflexivity|]; destruct (is_uint8 env _); try discriminate He; auto). }
    destruct Ex as (e' & Ee & Hdl & Hu). assert (e' = e). { unfold elem_type in Ee. destruct Hl as [Hl|[nn Hl]]; rewrite Hl in Ee; inversion Ee; reflexivity. }
    subst e'. assert (Np : deref_type (sf_type f) = sf_type f). { apply deref_nonptr. unfold elem_type in Ee. destruct (sf_type f); try reflexivity. discriminate Ee. }
    eapply ev_up; [apply (HE ei Hie Eo ltac:(lia) b1 b2 M1 Hb2 T ltac:(lia))|].
    intros k U donel todo last n Hlen Hla. exists last. split; [lia|].
    unfold decode_field. rewrite Hty, Eg, Hup, Hopt, He. cbn [eget].
    assert (NN : b1 ++ b2 <> []).
    { intros X. apply app_eq_nil in X. destruct X as [-> ->]. destruct Hne as [Hne|Hne].
      - destruct es' as [|[x1 x2] es']; [contradiction|]. apply cutmsg_some in M1. destruct M1 as (key & p & E & K). symmetry in E. apply app_eq_nil in E. destruct E as [-> _]. eapply leb_nonnil; eauto.
      - destruct es as [|[x1 x2] es]; [contradiction|]. apply cutmsg_some in M2. destruct M2 as (key & p & E & K). symmetry in E. apply app_eq_nil in E. destruct E as [-> _]. eapply leb_nonnil; eauto. }
    destruct (b1 ++ b2) as [|y z] eqn:E; [contradiction|]. rewrite <- E in *. rewrite <- Hlen, nth_mid.
    destruct (decode_elems k info (sf_type f) e ei o b1 b2 vs v true Hi Np Hpl Hl Hu Hdl Ege Hie Hf U ltac:(rewrite Eo; exact T)) as (F & F1 & F2).
    destruct (F1 (b1 ++ b2)) as [v0 ->]. cbn [enter]. rewrite F2. cbn [Nat.add dbind]. rewrite slide_app by reflexivity. rewrite upd_here. reflexivity.
  Qed.

  Lemma a_struct t fs o cut es b l : plainly_read env t -> resolve env t = RStruct fs -> PF cut 1 fs es l -> cutmsg cut es b -> PR t o true (Plen b) (VStruct l).
  Proof.
    intros Hp Er HF M info Hi Hd Hz. pose proof (minfo_type _ _ _ _ Hi) as Ety. rewrite Hd in Ety.
    destruct info as [ci|ii]; [|cbn in Ety; subst t; discriminate Er]. cbn [ti_type] in Ety.
    pose proof (info_ok_parts _ _ (proj2 Hi)) as (_ & Hpf & _). unfold parse_struct_info in Hpf. rewrite Ety, Er in Hpf.
    eapply ev_up; [apply (HF 0%nat 0%nat (ci_fields ci) eq_refl Hpf b M Hz)|]. intros k S. eapply acc_frame; try eassumption.
    - intros B. destruct (byte_slice_plain _ B Hp) as (e & E & _). congruence.
    - intros bz bare. exists (zero env t). unfold decode_switch. cbn [ti_type]. rewrite Ety, Er. unfold decode_struct. reflexivity.
    - intros n0. cbv beta. rewrite Ety, Er, (zero_struct _ _ _ We Er). destruct (S [] n0 0 eq_refl ltac:(lia)) as (bu & last' & n' & S1 & S2).
      cbn [app] in S1. rewrite S1. cbn [dbind]. rewrite S2. reflexivity.
  Qed.

  (** ** Interfaces *)

  Lemma implementer_in ii p ci : In ii (cd_ifaces c) ->
    (In ci (impls_of ii p) <-> implementer env c (ii_id ii) p ci).
  Proof.
    intros Hin. rewrite (wc_impls _ _ Hc _ _ Hin), filter_In. unfold implementer, implements. rewrite andb_true_iff, beqb_eq. split.
    - intros (H1 & H2 & H3). splits; try assumption. pose proof (proj2 (sa_conc _ _ Hs _ H1)) as Hr. unfold ci_prefix in H3. destruct (ci_reg ci); [eauto|congruence].
    - intros (H1 & H2 & r' & H3 & H4). splits; try assumption. unfold ci_prefix. rewrite H3. exact H4.
  Qed.
  Lemma impls_nodup ii p : In ii (cd_ifaces c) -> NoDup (map ci_type (impls_of ii p)).
  Proof.
    intros Hin. rewrite (wc_impls _ _ Hc _ _ Hin). set (P := fun ci => _).
    pose proof (wc_nodup _ _ Hc) as N. revert N. clear. induction (cd_concretes c) as [|x l IHl]; cbn [map filter]; [constructor|].
    intros N. inversion N as [|? ? N1 N2]; subst. destruct (P x); [|exact (IHl N2)]. cbn [map]. constructor; [|exact (IHl N2)].
    intros X. apply N1. apply in_map_iff in X. destruct X as (y & Ey & Hy). apply filter_In in Hy. apply in_map_iff. exists y. tauto.
  Qed.
  Lemma unique_impl ii p ci : In ii (cd_ifaces c) -> implementer env c (ii_id ii) p ci ->
    (forall ci', implementer env c (ii_id ii) p ci' -> ci_type ci' = ci_type ci) -> impls_of ii p = [ci].
  Proof.
    intros Hin Hci Hu. apply (implementer_in ii p ci Hin) in Hci. pose proof (impls_nodup ii p Hin) as N.
    assert (A : forall x, In x (impls_of ii p) -> ci_type x = ci_type ci) by (intros x Hx; apply Hu; apply (implementer_in ii p x Hin); exact Hx).
    destruct (impls_of ii p) as [|a [|b l]].
    - destruct Hci.
    - destruct Hci as [->|[]]. reflexivity.
    - exfalso. cbn [map] in N. inversion N as [|? ? N1 _]; subst. apply N1. left. rewrite (A a), (A b); [reflexivity|right; left; reflexivity|left; reflexivity].
  Qed.

  Lemma a_iface i o tag ci r m q body w : tells env c i tag ci r -> struct_like env (ci_type ci) = true ->
      te_impl env (if ri_ptr r then TPtr (ci_type ci) else ci_type ci) i = true ->
      PR (ci_type ci) o m q w -> (if m then q = Plen body else payload_bytes q body) ->
      PR (TIface i) o true (Plen (tag ++ body)) (VIface (Some (if ri_ptr r then (TPtr (ci_type ci), VPtr (Some w)) else (ci_type ci, w)))).
  Proof.
    intros (Hci & Hr & Htag) Hsl Him HR Hq info Hi Hd Hz. destruct info as [ci0|ii].
    { destruct Hi as [E Hok]. pose proof (conc_nonptr env ci0 Hok) as X. rewrite E in X. destruct X. }
    pose proof Hi as Hi'. destruct Hi' as [Hin Hid]. cbn [deref_type] in Hid. inversion Hid; subst i; clear Hid.
    pose proof (conc_ok env c ci Hc Hci) as Hok. destruct (reg_shape _ _ _ Hok Hr) as (Ld & Lp & Np). pose proof (conc_nonptr env ci Hok) as Hnp.
    assert (Hdc : deref_type (ci_type ci) = ci_type ci) by (destruct (ci_type ci); try reflexivity; contradiction).
    assert (Hzb : zlen body < 2 ^ 63) by (cbn [small] in Hz; rewrite zlen_app in Hz; pose proof (zlen_nonneg tag); lia).
    assert (Hsq : small q). { destruct m; [subst q; exact Hzb|]. eapply small_payload; eassumption. }
    assert (Hmi : minfo env c (TIConc ci) (ci_type ci)) by (split; [symmetry; exact Hdc|exact Hok]).
    eapply ev_up; [apply (HR (TIConc ci) Hmi Hdc Hsq)|]. intros k (_ & A2 & _).
    eapply acc_frame; try eassumption; [intros id X; discriminate X|intros B; inversion B; discriminate| |].
    - intros bz bare. exists (zero env (TIface (ii_id ii))). unfold decode_switch. cbn [ti_type resolve]. reflexivity.
    - intros n0. cbv beta.
      assert (Hpre : exists dp n1, decode_disamb_prefix (tag ++ body) = DRet dp n1 None /\ n1 = length tag /\
        match fst dp with Some d => type_info_from_disfix c (to_disfix d (snd dp)) | None => type_info_from_prefix ii (snd dp) end = EOk ci).
      { unfold decode_disamb_prefix. destruct Htag as [->|(-> & Himp & Huq)].
        - exists (Some (ri_disamb r), ri_prefix r), 8%nat.
          assert (L8 : length ((0 :: ri_disamb r ++ ri_prefix r) ++ body) = (8 + length body)%nat) by (rewrite !app_length; cbn [length]; rewrite app_length; lia).
          assert (F1 : firstn 3 (skipn 1 ((0 :: ri_disamb r ++ ri_prefix r) ++ body)) = ri_disamb r).
          { change (firstn 3 ((ri_disamb r ++ ri_prefix r) ++ body) = ri_disamb r). rewrite <- app_assoc. apply firstn_app_exact. exact Ld. }
          assert (F2 : firstn 4 (skipn 4 ((0 :: ri_disamb r ++ ri_prefix r) ++ body)) = ri_prefix r).
          { change (firstn 4 (skipn 3 ((ri_disamb r ++ ri_prefix r) ++ body)) = ri_prefix r). rewrite <- app_assoc.
            rewrite skipn_app_exact by exact Ld. apply firstn_app_exact. exact Lp. }
          rewrite L8, F1, F2. change (8 + length body <? 4)%nat with false. change (8 + length body <? 8)%nat with false.
          cbv iota. splits; try reflexivity.
          + cbn [length]. rewrite app_length, Ld, Lp. reflexivity.
          + cbn [fst snd]. unfold type_info_from_disfix.
            assert (D : assoc beqb (to_disfix (ri_disamb r) (ri_prefix r)) (cd_disfix c) = Some ci).
            { apply (wc_disfix _ _ Hc). split; [assumption|]. unfold ci_disfix. rewrite Hr. reflexivity. }
            rewrite D. reflexivity.
        - exists (None, ri_prefix r), 4%nat.
          assert (L4 : length (ri_prefix r ++ body) = (4 + length body)%nat) by (rewrite !app_length; lia).
          rewrite L4. change (4 + length body <? 4)%nat with false. cbv iota.
          assert (F4 : firstn 4 (ri_prefix r ++ body) = ri_prefix r) by (apply firstn_app_exact; exact Lp).
          splits; [|symmetry; exact Lp|].
          + rewrite F4. destruct (ri_prefix r) as [|x y]; [discriminate Lp|]. cbn [app]. cbn in Np. destruct x; [contradiction| |]; reflexivity.
          + cbn [fst snd]. unfold type_info_from_prefix. pose proof (unique_impl ii _ ci Hin Himp Huq) as I1.
            unfold impls_of in I1. destruct (assoc beqb (ri_prefix r) (ii_impls ii)) as [li|]; [|discriminate]. rewrite I1. reflexivity. }
      destruct Hpre as (dp & n1 & -> & -> & Hti). cbn [dbind]. rewrite slide_app by reflexivity. cbv zeta. rewrite Hti. cbn [eget].
      assert (WK : wants_key env ci body o = false).
      { unfold wants_key, is_struct_or_repeated_struct. unfold struct_like in Hsl. rewrite Hsl. reflexivity. }
      rewrite WK. rewrite (A2 body Hq). cbn [dbind]. rewrite slide_le by lia. rewrite skipn_all. unfold set_iface. rewrite Hr.
      destruct (ri_ptr r); rewrite Him; rewrite app_length; f_equal; lia.
  Qed.

  (** ** UnmarshalAmino *)

  Lemma a_method id r g o m q w v : te_unmarshal env id = Some (UOk r g) -> known env c r = true -> PR r o m q w ->
      g (zero env (TNamed id)) w = EOk (v, None) -> PR (TNamed id) o m q v.
  Proof.
    intros Hu Hk HR Hg info Hi Hd Hz. destruct (known_info _ Hk) as (ri & Eg & Hri). destruct info as [ci|ii]; [|destruct Hi; discriminate].
    pose proof (minfo_unmethod _ _ _ (proj1 Hi) (proj2 Hi)) as U. destruct Hi as [Hct Hok]. destruct ci as [ct cf cm cu cr]. cbn [ci_unmarshal ci_type deref_type] in *.
    destruct cu as [r'|]; [|rewrite (U id eq_refl) in Hu; discriminate]. destruct U as (id' & g' & X & U & Hdr). inversion X; subst id'. rewrite Hu in U. inversion U; subst r' g'.
    eapply ev_up; [apply (HR ri Hri Hdr Hz)|]. intros k (A1 & A2 & A3).
    assert (G : forall bz n bare, D k bz ri r (zero env r) o bare = DRet w n None -> (n <= length bz)%nat ->
      D (S k) bz (TIConc {| ci_type := ct; ci_fields := cf; ci_marshal := cm; ci_unmarshal := Some r; ci_reg := cr |}) (TNamed id) (zero env (TNamed id)) o bare = DRet v n None).
    { intros bz n bare H L. cbn [decode_reflect base_of]. rewrite Eg. cbn [eget]. rewrite H. cbn [dbind]. rewrite slide_le by exact L. subst ct. cbn [from_repr]. rewrite Hu, Hg. reflexivity. }
    unfold acc. splits.
    - intros p rest P. apply G; [apply A1; exact P|rewrite app_length; lia].
    - intros p P. apply G; [apply A2; exact P|lia].
    - intros B E. apply G; [|lia]. apply A3; [|exact E]. inversion B as [t e Hp E1 E2|id' r' g' E1 E2]; subst.
      + rewrite (Hp id eq_refl) in Hu. discriminate.
      + rewrite Hu in E1. inversion E1; subst. exact E2.
  Qed.

  (** ** The whole *)

  Theorem accept : (forall t o m q v, reads env c t o m q v -> PR t o m q v) /\
    (forall e o b l, packed_reads env c e o b l -> PK e o b l) /\
    (forall cut num e o es l, elems_read env c cut num e o es l -> PE cut num e o es l) /\
    (forall cut num fs es l, fields_read env c cut num fs es l -> PF cut num fs es l).
  Proof.
    destruct (read_numbers env c) as (N1 & _ & N3 & N4).
    apply reads_mut; intros.
    - eapply a_prim; eassumption.
    - eapply a_time; eassumption.
    - eapply a_bytes; eassumption.
    - eapply a_packed; eassumption.
    - eapply a_list; try eassumption. split; [assumption|]. eapply N3. eassumption.
    - eapply a_struct; try eassumption. split; [assumption|]. eapply N4. eassumption.
    - eapply a_iface; eassumption.
    - eapply a_method; eassumption.
    - intros info Hi Hz. apply ev_now. intros k. split; intros; [destruct K|]; cbn; rewrite app_nil_r, Nat.add_0_r; reflexivity.
    - eapply a_packed_cons; eassumption.
    - intros info Hi Hn Hr b rest M HR T Hz. apply cutmsg_nil in M. destruct M as [_ ->]. apply ev_now. intros k. apply unpacked_end. rewrite Hn. exact T.
    - apply a_elems_default; try assumption. eapply N3. eassumption.
    - eapply a_elems_cons; try eassumption. eapply N3. eassumption.
    - eapply a_elems_cut; eassumption.
    - apply a_fields_nil. assumption.
    - apply a_fields_hidden; assumption.
    - eapply a_fields_absent; try eassumption. eapply N4. eassumption.
    - eapply a_fields_one; try eassumption. eapply N4. eassumption.
    - eapply a_fields_cut; eassumption.
    - eapply a_fields_list; try eassumption; try (eapply N4; eassumption); try (eapply N3; eassumption).
  Qed.
End Accept.
