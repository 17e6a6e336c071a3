(** What is read and written again is no longer than it was. *)
From Coq Require Import ZArith String List Bool Lia.
From Coq Require Import ZifyBool ZifyNat.
From Verif Require Import Base Prims SpecWire PrimFacts PrimProps Types Codec BinEnc BinDec Amino FuelFacts DecFacts DecProps
  ValueInd Typing Registry SpecRegistry RegistryFacts Sane DecSafe SpecNorm EncFacts RoundTrip TopFacts ProtoFacts SpecLean BulkFacts.
Import ListNotations.
Local Open Scope Z_scope.
Local Open Scope amino_scope.

(** ** Numbers *)
Lemma put_mono : forall k a b, 0 <= a <= b -> (length (put_uvarint k a) <= length (put_uvarint k b))%nat.
Proof.
  induction k as [|k IH]; intros a b H; cbn [put_uvarint]; [cbn; lia|].
  destruct (Z.ltb_spec a 128), (Z.ltb_spec b 128); cbn [length]; try lia.
  apply le_n_S, IH. rewrite !Z.shiftr_div_pow2 by lia. split; [apply Z.div_pos; lia|apply Z.div_le_mono; lia].
Qed.
Lemma uv_mono a b : 0 <= a <= b -> (length (encode_uvarint a) <= length (encode_uvarint b))%nat.
Proof. apply put_mono. Qed.
Lemma uv_pos a : (1 <= length (encode_uvarint a))%nat.
Proof. unfold encode_uvarint. cbn [put_uvarint]. destruct (_ <? _); cbn [length]; lia. Qed.
Lemma uv_read bz u n a : bytes_ok bz -> decode_uvarint bz = DRet u n None -> 0 <= a <= u -> (length (encode_uvarint a) <= n)%nat.
Proof. intros Hok H Ha. destruct (decode_uvarint_minimal _ _ _ Hok H) as (_ & L & _). pose proof (uv_mono a u Ha). lia. Qed.
Lemma slice_size (b b' : bytes) : (length b <= length b')%nat -> zlen b' < 2 ^ 64 ->
  (length (encode_byte_slice b) <= Z.to_nat (uvarint_size (zlen b')) + length b)%nat.
Proof.
  intros L Hz. unfold encode_byte_slice. rewrite app_length.
  pose proof (uv_mono (zlen b) (zlen b') ltac:(unfold zlen; lia)). pose proof (encode_uvarint_length (zlen b') ltac:(unfold zlen in *; lia)) as E.
  unfold zlen in *. lia.
Qed.
Lemma slice_read bz b n : bytes_ok bz -> decode_byte_slice bz = DRet b n None -> zlen b < 2 ^ 64 /\ (length (encode_byte_slice b) <= n)%nat /\ (n <= length bz)%nat.
Proof.
  intros Hok H. destruct (byte_slice_frame _ _ _ Hok H) as (A & B & _). destruct (decode_byte_slice_some _ _ _ H) as (u & m & Hu & _ & _ & _ & Hl & _).
  assert (Hz : zlen b < 2 ^ 64) by (rewrite <- Hl; pose proof (iwrap_range 64 u ltac:(lia)); unfold i64; change (2 ^ (64 - 1)) with (2 ^ 63) in *; lia).
  splits; try assumption. pose proof (slice_size b b (le_n _) Hz). lia.
Qed.
Lemma key_read bz num typ n key : bytes_ok bz -> decode_field_key bz = DRet (num, typ) n None -> encode_field_key num typ = EOk key -> (length key <= n)%nat.
Proof.
  intros Hok H E. destruct (decode_field_key_some _ _ _ _ Hok H) as (Hu & Hn & Ht). destruct (key_ok_inv num typ key ltac:(lia) Ht E) as [_ ->].
  eapply uv_read; [exact Hok|exact Hu|lia].
Qed.

Lemma fixed_read size conv msg bz v n : decode_fixed size conv msg bz = DRet v n None -> n = size /\ (size <= length bz)%nat.
Proof. unfold decode_fixed. destruct (Nat.ltb_spec (length bz) size) as [L|L]; intros X; inversion X; subst; auto. Qed.
Lemma set_scalar_inv {A} v0 bz (r : dres A) f v n : set_scalar v0 bz r f = DRet v n None ->
  exists a m, r = DRet a n None /\ f a = DRet v m None /\ (n <= length bz)%nat.
Proof.
  unfold set_scalar. destruct r as [a m e| |]; cbn [dbind]; try discriminate. unfold slide. destruct (Nat.ltb_spec (length bz) m); [discriminate|].
  destruct e; [discriminate|]. destruct (f a) as [w m' e'| |] eqn:F; cbn [dbind]; try discriminate. intros X. inversion X; subst. eauto.
Qed.

Lemma prim_lean p v0 bz o v n : bytes_ok bz -> decode_prim p v0 bz o = DRet v n None ->
  (n <= length bz)%nat /\ (1 <= n)%nat /\ val_is_ptr v = false /\ (forall b, encode_prim p v o = EOk b -> (length b <= n)%nat) /\
  (defaultv v = true -> v = zero_prim p).
Proof.
  intros Hok H.
  assert (G : (n <= length bz)%nat /\ (1 <= n)%nat).
  { pose proof (good_prim false p v0 bz o) as G. rewrite H in G. cbn [good dspec] in G. unfold good in G. cbn [dspec] in G. destruct G as [G1 G2]. split; [exact G1|].
    apply G2; auto. intros ->. clear - H. destruct p; cbn in H; try destruct (fo_fixed64 o); try destruct (fo_fixed32 o); try destruct (fo_unsafe o); cbn in H; discriminate H. }
  destruct G as [G1 G2]. split; [exact G1|]. split; [exact G2|].
  assert (S8 : forall u w, decode_uvarint bz = DRet u n None -> 0 <= w <= u -> (length (encode_uvarint w) <= n)%nat) by (intros u w Hu Hw; eapply uv_read; eassumption).
  destruct p; cbn [decode_prim] in H; try destruct (fo_fixed64 o) eqn:F6; try destruct (fo_fixed32 o) eqn:F3; try destruct (negb (fo_unsafe o)) eqn:Fu; try discriminate H;
    apply set_scalar_inv in H; destruct H as (a & m & Hr & Hf & _); try (destruct (_ || _); [discriminate Hf|]); inversion Hf; subst v m; clear Hf;
    (split; [reflexivity|]); (split; [intros b Hb; cbn [encode_prim] in Hb; rewrite ?F6, ?F3 in Hb; try (destruct (fo_unsafe o); [|discriminate Hb]); apply EOk_inj in Hb; subst b|cbn; intros D; try discriminate D; try reflexivity; try (f_equal; lia)]).
  all: try (unfold encode_int64, encode_int32, encode_uint64, encode_uint32, encode_float64, encode_float32, encode_uint64, encode_uint32, encode_float64, encode_float32; rewrite PrimFacts.put_le_length; apply fixed_read in Hr; lia).
  all: try (destruct a; reflexivity || (cbn in D; discriminate D)).
  all: try (match goal with a : bool |- _ => destruct a; cbn; lia end).
  all: try (apply slice_read in Hr; [unfold encode_string; lia|exact Hok]).
  all: try (pose proof (decode_uvarint_range _ _ _ Hok Hr); rewrite ?u64_i64 by assumption; apply (S8 a); [exact Hr|unfold u32, uwrap; lia]).
  all: try (first [apply decode_uint8_iff in Hr|apply decode_uint16_iff in Hr]; destruct Hr as [Hr Hra]; unfold encode_uint8, encode_uint16; apply (S8 a); [exact Hr|unfold uwrap; rewrite Z.mod_small by lia; lia]).
  all: first [apply decode_int8_iff in Hr|apply decode_int16_iff in Hr]; destruct Hr as [Hr Hra]; apply decode_varint_uvarint in Hr; destruct Hr as (w & Hr & ->);
    pose proof (decode_uvarint_range _ _ _ Hok Hr) as Hw; rewrite iwrap_small by (cbn; lia); unfold encode_int8, encode_int16, encode_varint; rewrite put_varint_u_zigzag by lia;
    rewrite zigzag_unzigzag by exact Hw; apply (S8 w); [exact Hr|lia].
Qed.

Lemma seconds_lean bz s bz1 n : bytes_ok bz -> decode_seconds bz = DRet (s, bz1) n None ->
  bytes_ok bz1 /\ (length (if (s =? 0)%Z then [] else 8%Z :: encode_uvarint (u64 s)) <= n)%nat.
Proof.
  intros Hok. unfold decode_seconds. destruct (decode_field_key bz) as [[num typ] n1 [e|]| |] eqn:K; try discriminate.
  pose proof (decode_field_key_pos _ _ _ K) as P.
  destruct (_ && _).
  - rewrite slide_le by lia. pose proof (bytes_ok_skipn n1 bz Hok) as Hok1.
    destruct (decode_uvarint (skipn n1 bz)) as [u n2 [e|]| |] eqn:U; try discriminate; unfold slide; destruct (_ <? _)%nat; try discriminate.
    destruct (_ || _); [discriminate|]. intros X. inversion X; subst. split; [apply bytes_ok_skipn, Hok1|].
    pose proof (decode_uvarint_range _ _ _ Hok1 U) as R. rewrite u64_i64 by exact R.
    pose proof (uv_read _ _ _ u Hok1 U ltac:(lia)). destruct (_ =? 0)%Z; cbn [length]; lia.
  - destruct (_ && _); intros X; inversion X; subst. split; [exact Hok|cbn; lia].
Qed.
Lemma nanos_lean bz n s n' : bytes_ok bz -> decode_nanos bz n = DRet s n' None ->
  (length (if (s =? 0)%Z then [] else 16%Z :: encode_uvarint s) + n <= n')%nat.
Proof.
  intros Hok. unfold decode_nanos. destruct (decode_field_key bz) as [[num typ] n1 [e|]| |] eqn:K; try discriminate.
  pose proof (decode_field_key_pos _ _ _ K) as P.
  destruct (_ && _); [|intros X; inversion X; subst; cbn; lia].
  rewrite slide_le by lia. pose proof (bytes_ok_skipn n1 bz Hok) as Hok1.
  destruct (decode_uvarint (skipn n1 bz)) as [u n2 [e|]| |] eqn:U; try discriminate; unfold slide; destruct (_ <? _)%nat; try discriminate.
  destruct (Z.ltb_spec max_nanos u) as [L|L]; [discriminate|]. intros X. inversion X; subst. unfold max_nanos in L.
  pose proof (decode_uvarint_range _ _ _ Hok1 U) as R. rewrite i32_small by lia.
  pose proof (uv_read _ _ _ u Hok1 U ltac:(lia)). destruct (_ =? 0)%Z; cbn [length]; lia.
Qed.
Lemma time_lean bz s ns n : bytes_ok bz -> decode_time bz = DRet (s, ns) n None ->
  (n <= length bz)%nat /\ forall buf, encode_time s ns = EOk (buf, None) -> (length buf <= n)%nat.
Proof.
  intros Hok H. destruct (decode_time_ret bz Hok) as (s' & ns' & n' & e' & E & L & T). rewrite H in E. inversion E; subst s' ns' n' e'. clear E.
  split; [exact L|]. rewrite encode_time_ok by exact T. intros buf X. apply EOk_inj in X. injection X as <-. rewrite app_length.
  change (key_bytes 1 0) with [8]. change (key_bytes 2 0) with [16]. cbn [app].
  destruct bz as [|x bz]; [inversion H; subst; cbn; lia|].
  rewrite decode_time_nonnil in H by (cbn; lia). destruct (decode_seconds (x :: bz)) as [[s1 bz1] n1 [e|]| |] eqn:S; try discriminate.
  destruct (seconds_lean _ _ _ _ Hok S) as [Hok1 L1].
  destruct bz1 as [|y bz1]; [inversion H; subst; cbn [length Z.eqb] in *; lia|].
  rewrite decode_time_nanos_nonnil in H by (cbn; lia). destruct (decode_nanos (y :: bz1) n1) as [s2 n2 [e|]| |] eqn:N; try discriminate.
  pose proof (nanos_lean _ _ _ _ Hok1 N). inversion H; subst. lia.
Qed.

Lemma enter_inv {A} (v0 : A) bare bz k v n : bytes_ok bz -> enter v0 bare bz k = DRet v n None ->
  exists b n0, bytes_ok b /\ k b n0 = DRet v n None /\ (n0 + length b <= length bz)%nat /\ (bare = false -> (1 <= n0)%nat) /\
    forall buf m, (length buf <= m)%nat -> (m <= length b)%nat -> (length (finish bare buf) <= n0 + m)%nat.
Proof.
  intros Hok. unfold enter. destruct bare.
  - intros H. exists bz, 0%nat. splits; try assumption; try lia; try discriminate. cbn [finish]. intros; lia.
  - destruct (decode_byte_slice bz) as [b m e| |] eqn:E; cbn [dbind]; try discriminate. unfold slide. destruct (_ <? _)%nat; [discriminate|].
    destruct e as [e|]; [discriminate|]. intros H. destruct (byte_slice_frame _ _ _ Hok E) as (A1 & A2 & A3 & A4 & A5). destruct (slice_read _ _ _ Hok E) as (Hz & _).
    exists b, (Z.to_nat (uvarint_size (zlen b))). splits; try assumption; try lia. intros buf k' L1 L2. cbn [finish].
    pose proof (slice_size buf b ltac:(lia) Hz). lia.
Qed.

Section L.
  Variable env : tenv.
  Hypothesis We : wf_env env.
  Variable c : codec.
  Hypothesis Wc : wf_codec env c.
  Hypothesis Hs : sane_codec env c.
  Variables mem hol : gotype -> bool.
  Hypothesis Hl : lean env c mem hol.
  Notation Enc k := (encode_reflect k env c).

  Lemma zero_shape t :
    match resolve env t with
    | RPrim p => zero env t = zero_prim p
    | RSlice _ => zero env t = VSlice None
    | RPtr _ => zero env t = VPtr None
    | RIface _ => zero env t = VIface None
    | RStruct fs => zero env t = VStruct (map (fun f => zero env (sf_type f)) fs)
    | RMap _ _ => zero env t = VMap None
    | RFunc => zero env t = VFunc true
    | _ => True
    end.
  Proof.
    refine (zero_ind env (fun t v => match resolve env t with
    | RPrim p => v = zero_prim p
    | RSlice _ => v = VSlice None
    | RPtr _ => v = VPtr None
    | RIface _ => v = VIface None
    | RStruct fs => v = VStruct (map (fun f => zero env (sf_type f)) fs)
    | RMap _ _ => v = VMap None
    | RFunc => v = VFunc true
    | _ => True
    end) We _ _ _ _ _ _ _ _ _ _ _ t); try reflexivity.
    all: try (intros; exact I).
    - intros id fs Hd _. cbn [resolve]. rewrite Hd. reflexivity.
    - intros id t' Hd Hn H. cbn [resolve]. rewrite Hd. destruct t'; try exact H; exact I.
  Qed.

  Lemma no_method t : has_method env t = false -> forall info, minfo env c info t -> deref_type t = t ->
    match info with TIConc ci => ci_marshal ci = None /\ ci_unmarshal ci = None | _ => True end.
  Proof.
    intros Hm info Hi D. destruct info as [ci|ii]; [|exact I]. destruct Hi as [H1 H2]. rewrite D in H1.
    pose proof (minfo_method _ _ _ H1 H2) as M. pose proof (minfo_unmethod _ _ _ H1 H2) as U. split.
    - destruct (ci_marshal ci); [|reflexivity]. destruct M as (id & f & -> & M & _). cbn in Hm. rewrite M in Hm. discriminate Hm.
    - destruct (ci_unmarshal ci); [|reflexivity]. destruct U as (id & f & -> & U & _). cbn in Hm. rewrite U in Hm. destruct (te_marshal env id); discriminate Hm.
  Qed.
  Lemma plain_inv k info t w o bare b : minfo env c info t -> deref_type t = t -> has_method env t = false ->
    Enc k info w o bare = EOk b -> exists k', k = S k' /\ encode_switch env c (Enc k') k info w o bare = EOk b.
  Proof.
    intros Hi D Hm H. destruct k as [|k]; [discriminate|]. exists k. split; [reflexivity|]. apply encode_reflect_inv in H.
    pose proof (no_method t Hm info Hi D) as N. destruct info as [ci|ii]; [|exact H]. destruct N as [N _]. rewrite N in H. exact H.
  Qed.

  Lemma hol_type t : hol t = true -> hollow_type env hol t.
  Proof. apply (proj2 Hl). Qed.
  Lemma hollow_zero : forall k t info o b, hol t = true -> minfo env c info t -> deref_type t = t -> defaultv (zero env t) = false ->
    Enc k info (zero env t) o false = EOk b -> b = [0].
  Proof.
    induction k as [|k IH]; intros t info o b Hh Hi D Hd H; [discriminate|].
    pose proof (hol_type t Hh) as Ht. unfold hollow_type in Ht. destruct (has_method env t) eqn:Hm; [congruence|].
    destruct (plain_inv _ _ _ _ _ _ _ Hi D Hm H) as (k' & Ek & H'). injection Ek as <-. clear H. rename H' into H.
    unfold encode_switch in H. pose proof (minfo_type _ _ _ _ Hi) as Ety. rewrite D in Ety. rewrite Ety in H.
    pose proof (zero_shape t) as Zs. destruct (resolve env t) as [p| |n e|e|e|kt e| | |i|fs|] eqn:Er; try contradiction; try discriminate H; rewrite Zs in *; try discriminate Hd.
    - destruct p; try contradiction; try discriminate Hd. cbn in H. apply EOk_inj in H. subst. reflexivity.
    - destruct info as [ci|]; [|discriminate]. cbn [ti_type] in Ety. unfold encode_struct in H. rewrite Ety, Er in H. einv H. apply EOk_inj in H. subst b.
      assert (a = []); [|subst; reflexivity]. destruct Hi as [Hi1 Hi2]. destruct (info_ok_parts _ _ Hi2) as (_ & Hp & _). unfold parse_struct_info in Hp. rewrite Ety, Er in Hp.
      assert (F : forall f, In f (ci_fields ci) -> forall x, encode_field env c (Enc k) f (nth (fi_index f) (map (fun f => zero env (sf_type f)) fs) VInvalid) = EOk x -> x = []).
      { intros f Hf x Hx. destruct (parse_fields_nth _ _ _ _ _ _ Hp Hf) as (sf & o' & _ & H2 & H3 & H4 & _ & H6 & H7 & H8). rewrite Nat.sub_0_r in H2.
        pose proof (map_nth_error (fun f => zero env (sf_type f)) _ _ H2) as Hn. rewrite (nth_error_nth _ _ VInvalid Hn) in Hx. rewrite <- H6 in Hx.
        rewrite forallb_forall in Ht. specialize (Ht sf (nth_error_In _ _ H2)). unfold hollow_field, field_opts in Ht. rewrite H3, H4 in Ht. cbn [option_map] in Ht.
        apply andb_true_iff in Ht. destruct Ht as [Ht1 Ht2]. rewrite <- H6 in Ht2. change (fo_write_empty (set_num 1 o')) with (fo_write_empty o') in Ht1.
        assert (We' : fo_write_empty (fi_opts f) = false) by (rewrite H8; apply negb_true_iff in Ht1; exact Ht1).
        unfold encode_field in Hx. einv Hx. rewrite default_pair in Hx. rewrite We' in Hx. cbn [negb orb] in Hx. rewrite andb_true_r in Hx.
        destruct (defaultv (zero env (fi_type f))) eqn:Df; [apply EOk_inj in Hx; auto|].
        destruct (is_ptr (fi_type f)) eqn:Pt.
        { exfalso. destruct (fi_type f); discriminate || (cbn in Df; discriminate). }
        cbn [orb] in Ht2. pose proof (deref_nonptr _ Pt) as Dn. pose proof (gti_minfo _ _ _ _ Hs E0) as Hi'.
        assert (Np : under (zero env (fi_type f)) = Some (zero env (fi_type f)) /\ val_is_ptr (zero env (fi_type f)) = false).
        { pose proof (val_ptr_typed env (zero env (fi_type f)) (fi_type f) We (has_type_zero env (fi_type f) We)) as V. rewrite Pt in V. split; [|exact V].
          destruct (zero env (fi_type f)); try reflexivity. discriminate V. }
        destruct Np as [Np1 Np2]. rewrite Np1, Np2 in Hx.
        destruct (fi_unpacked f) eqn:Up.
        - exfalso. pose proof (unpacked_entries _ _ _ _ H7) as En. rewrite <- H6 in En. unfold entries in En.
          pose proof (hol_type _ Ht2) as Q. unfold hollow_type in Q. pose proof (zero_shape (fi_type f)) as Zf.
          destruct (has_method env (fi_type f)); [congruence|]. destruct (resolve env (fi_type f)); try discriminate En; [contradiction|]. rewrite Zf in Df. discriminate Df.
        - unfold write_field in Hx. einv Hx. einv Hx. einv Hx. rewrite (IH _ _ _ _ Ht2 Hi' Dn Df E3) in Hx. cbn in Hx. apply EOk_inj in Hx. auto. }
      revert a E. generalize (ci_fields ci) F. induction l as [|f l IHl]; intros Fl a Ea; cbn [encode_fields] in Ea; [apply EOk_inj in Ea; auto|].
      einv Ea. einv Ea. apply EOk_inj in Ea. subst a. rewrite (Fl f (or_introl eq_refl) _ E), (IHl (fun g Hg => Fl g (or_intror Hg)) _ E0). reflexivity.
  Qed.

  Lemma under_wrap t w : val_is_ptr w = false -> under (wrap_ptrs t w) = Some w.
  Proof. clear. intros H. induction t; cbn [wrap_ptrs under]; auto; destruct w; try reflexivity; discriminate H. Qed.
  Lemma default_wrap t w : defaultv (wrap_ptrs t w) = defaultv w.
  Proof. clear. induction t; cbn [wrap_ptrs defaultv]; auto. Qed.

  Definition fits (t : gotype) (info : tinfo) (w : value) (o : fopts) (bare : bool) (n : nat) : Prop :=
    (forall k b, Enc k info w o bare = EOk b -> (length b <= n)%nat \/
       n = 0%nat /\ b = [0] /\ payload env (deref_type t) = false /\ (has_method env (deref_type t) = false -> defaultv w = true)) /\
    (has_method env (deref_type t) = false -> forall k b, encode_list env c (Enc k) info w o bare = EOk b -> (length b <= n)%nat).
  Definition solid (t : gotype) : Prop := has_method env (deref_type t) = false /\ no_bytes env (deref_type t) = true.
  Definition done (info : tinfo) (t : gotype) (o : fopts) (bare : bool) (bz : bytes) (w : value) (n : nat) : Prop :=
    (n <= length bz)%nat /\ (bare = false -> solid t -> (1 <= n)%nat) /\ val_is_ptr w = false /\ fits t info w o bare n /\
    (defaultv w = true -> has_method env (deref_type t) = false -> forall p, resolve env (deref_type t) = RPrim p -> w = zero_prim p).
  Lemma solid_payload t : solid t -> payload env (deref_type t) = true.
  Proof. intros [S1 S2]. unfold payload. rewrite S1. exact S2. Qed.
  Lemma fits_solid t info w o bare n k b : solid t -> fits t info w o bare n -> Enc k info w o bare = EOk b -> (length b <= n)%nat.
  Proof. intros S [F _] H. destruct (F _ _ H) as [L|(_ & _ & P & _)]; [exact L|]. rewrite (solid_payload _ S) in P. discriminate P. Qed.

  Lemma time0 j einfo t o b : minfo env c einfo t -> deref_type t = TTime -> Enc j einfo (VTime 0 0) o false = EOk b -> b = [0].
  Proof.
    intros Hi D H. apply minfo_deref in Hi. rewrite D in Hi. destruct (plain_inv j einfo TTime (VTime 0 0) o false b Hi eq_refl eq_refl H) as (j' & -> & H').
    unfold encode_switch in H'. pose proof (minfo_type _ _ _ _ Hi) as Ety. cbn [deref_type] in Ety. rewrite Ety in H'. cbn [resolve] in H'. destruct einfo as [ci|]; [|discriminate].
    cbn [ti_type] in Ety. unfold encode_struct in H'. rewrite Ety in H'. cbn in H'. apply EOk_inj in H'. auto.
  Qed.
  Lemma default_shape e : is_time (deref_type e) = false -> default_value env e = zero env e.
  Proof. unfold default_value. destruct (deref_type e); try reflexivity. discriminate. Qed.
  Lemma time_shape e : is_time (deref_type e) = true -> deref_type e = TTime /\ default_value env e = wrap_ptrs e (VTime 0 0).
  Proof. unfold default_value. destruct (deref_type e); try discriminate. split; reflexivity. Qed.
  Lemma zero_nonptr e : is_ptr e = false -> under (zero env e) = Some (zero env e) /\ val_is_ptr (zero env e) = false.
  Proof.
    intros Pt. pose proof (val_ptr_typed env (zero env e) e We (has_type_zero env e We)) as V. rewrite Pt in V. split; [|exact V].
    destruct (zero env e); try reflexivity. discriminate V.
  Qed.
  Lemma zero_ptr e : is_ptr e = true -> zero env e = VPtr None.
  Proof. destruct e; try discriminate. reflexivity. Qed.

  (** An element that was not there. *)
  Definition entry_bytes (j : nat) (einfo : tinfo) (e : gotype) (o : fopts) (v : value) : eres bytes :=
    if defaultv v then if is_ptr e && is_struct env (ti_type einfo) && fo_empty_elements o
           then EErr "nil struct pointers not supported when empty_elements field tag is set"%string
           else EOk (encode_byte 0)
    else Enc j einfo (match under v with Some w => w | None => VInvalid end) (set_num 1 o) false.
  Lemma absent_entry j einfo e o b : minfo env c einfo e -> is_ptr e || is_time e || hol e = true ->
    entry_bytes j einfo e o (default_value env e) = EOk b -> (length b <= 1)%nat.
  Proof.
    intros Hi Ha H. unfold entry_bytes in H. destruct (defaultv (default_value env e)) eqn:Dv.
    { destruct (_ && _); [discriminate|]. apply EOk_inj in H. subst. cbn. lia. }
    destruct (is_time (deref_type e)) eqn:T.
    - destruct (time_shape e T) as [De Q]. rewrite Q, under_wrap in H by reflexivity. rewrite (time0 _ _ _ _ _ Hi De H). cbn. lia.
    - rewrite (default_shape e T) in *. destruct (is_ptr e) eqn:Pt; [rewrite (zero_ptr e Pt) in Dv; discriminate Dv|].
      pose proof (deref_nonptr _ Pt) as Dn. rewrite Dn in T. rewrite T in Ha. cbn [orb] in Ha. destruct (zero_nonptr e Pt) as [U _]. rewrite U in H.
      rewrite (hollow_zero _ _ _ _ _ Ha Hi Dn Dv H). cbn. lia.
  Qed.
  Lemma unpacked_cons j e einfo v l o b : encode_unpacked env (Enc j) e einfo (v :: l) o = EOk b ->
    exists key b1 b2, encode_field_key (fo_num o) Typ3ByteLength = EOk key /\ entry_bytes j einfo e o v = EOk b1 /\
      encode_unpacked env (Enc j) e einfo l o = EOk b2 /\ b = key ++ b1 ++ b2.
  Proof.
    intros H. cbn [encode_unpacked] in H. einv H. rewrite default_pair in H. einv H. einv H. apply EOk_inj in H. eexists _, _, _. splits; try reflexivity; try eassumption. auto.
  Qed.
  Lemma packed_cons j e einfo v l o b : encode_packed env (Enc j) e einfo (v :: l) o = EOk b ->
    exists b1 b2, Enc j einfo (deref_pointers_zero env e v) o false = EOk b1 /\
      encode_packed env (Enc j) e einfo l o = EOk b2 /\ b = b1 ++ b2.
  Proof. intros H. cbn [encode_packed] in H. einv H. einv H. apply EOk_inj in H. eexists _, _. splits; try eassumption. auto. Qed.

  Lemma dbind_ok {A B} (r : dres A) (k : A -> nat -> option error -> dres B) b n e : dbind r k = DRet b n e ->
    exists a m e', r = DRet a m e' /\ k a m e' = DRet b n e.
  Proof. destruct r; cbn [dbind]; intros H; try discriminate. eexists _, _, _. split; [reflexivity|exact H]. Qed.
  Lemma slide_ok {A} bz m (k : bytes -> dres A) b n e : slide bz m k = DRet b n e -> (m <= length bz)%nat /\ k (skipn m bz) = DRet b n e.
  Proof. unfold slide. destruct (Nat.ltb_spec (length bz) m); intros X; [discriminate|]. split; [lia|exact X]. Qed.
  Lemma eget_ok {A B} (r : eres A) kerr (k : A -> dres B) b n : eget r kerr k = DRet b n None ->
    (forall e b n, kerr e <> DRet b n None) -> exists a, r = EOk a /\ k a = DRet b n None.
  Proof. destruct r; cbn [eget]; intros H K; try discriminate; [eexists; split; [reflexivity|exact H]|exfalso; exact (K _ _ _ H)]. Qed.

  Section Step.
    Variable rec : bytes -> tinfo -> gotype -> value -> fopts -> bool -> dres value.
    Hypothesis Hrec : forall bz info t v0 o bare v n, bytes_ok bz -> minfo env c info t -> mem (deref_type t) = true ->
      rec bz info t v0 o bare = DRet v n None -> exists w, v = wrap_ptrs t w /\ done info t o bare bz w n.

    (** ** Lists *)
    Section Elem.
      Variables (e : gotype) (einfo : tinfo) (o : fopts).
      Hypothesis Hi : minfo env c einfo e.
      Hypothesis Hm : mem (deref_type e) = true.
      Hypothesis Hn : has_method env (deref_type e) = false.
      Lemma read_entry bz v0 v n : bytes_ok bz -> no_bytes env (deref_type e) = true -> rec bz einfo e v0 (set_num 1 o) false = DRet v n None ->
        (1 <= n <= length bz)%nat /\ forall j b, entry_bytes j einfo e o v = EOk b -> (length b <= n)%nat.
      Proof.
        intros Hok Nb H. destruct (Hrec _ _ _ _ _ _ _ _ Hok Hi Hm H) as (w & -> & D1 & D2 & D3 & D4 & _).
        assert (S : solid e) by (split; assumption). specialize (D2 eq_refl S). split; [lia|]. intros j b Hb. unfold entry_bytes in Hb.
        destruct (defaultv _); [destruct (_ && _); [discriminate|]; apply EOk_inj in Hb; subst; cbn; lia|].
        rewrite under_wrap in Hb by exact D3. eapply fits_solid; eassumption.
      Qed.
      Lemma read_packed bz v0 v n : bytes_ok bz -> delimited env e = false -> (exists z, type_to_typ3 env (ti_type einfo) o = EOk z) -> rec bz einfo e v0 o false = DRet v n None ->
        (n <= length bz)%nat /\ forall j b, Enc j einfo (deref_pointers_zero env e (prefer_nil env e v)) o false = EOk b -> (length b <= n)%nat.
      Proof.
        intros Hok Nd [z Hz] H. destruct (Hrec _ _ _ _ _ _ _ _ Hok Hi Hm H) as (w & -> & D1 & D2 & D3 & D4 & D5).
        assert (S : solid e). { split; [exact Hn|]. unfold no_bytes. unfold delimited in Nd. destruct (resolve env (deref_type e)); try reflexivity; discriminate Nd. }
        split; [exact D1|]. intros j b Hb. unfold prefer_nil in Hb. rewrite default_pair in Hb. cbn [snd] in Hb. rewrite default_wrap in Hb.
        assert (G : deref_pointers_zero env e (if is_ptr e && defaultv w then zero env e else wrap_ptrs e w) = w).
        { destruct (is_ptr e && defaultv w) eqn:P; [|rewrite deref_zero_under, under_wrap by exact D3; reflexivity].
          apply andb_true_iff in P. destruct P as [P1 P2]. rewrite deref_zero_under, (zero_ptr e P1). cbn [under].
          pose proof (zero_shape (deref_type e)) as Zs. rewrite (minfo_type _ _ _ _ Hi) in Hz. unfold type_to_typ3 in Hz. unfold delimited in Nd.
          destruct (resolve env (deref_type e)) eqn:Er; try discriminate Nd; try discriminate Hz. rewrite Zs. symmetry. apply D5; auto. }
        rewrite G in Hb. eapply fits_solid; eassumption.
      Qed.
      Lemma slice_unpacked_lean : no_bytes env (deref_type e) = true -> is_ptr e || is_time e || hol e = true -> forall k bz n dn l n', bytes_ok bz ->
        decode_slice_unpacked env rec k bz n einfo e o dn = DRet l n' None ->
        exists l2, l = dn ++ l2 /\ (n <= n' <= n + length bz)%nat /\ forall j b, encode_unpacked env (Enc j) e einfo l2 o = EOk b -> (length b + n <= n')%nat.
      Proof.
        intros Nb Ha. induction k as [|k IH]; intros bz n dn l n' Hok H; (destruct bz as [|x bz]; cbn [decode_slice_unpacked] in H; [inversion H; subst; exists []; rewrite app_nil_r; splits; try lia; try reflexivity; intros j b Hb; cbn in Hb; apply EOk_inj in Hb; subst; cbn; lia|try discriminate H]).
        set (bz0 := x :: bz) in *. apply dbind_ok in H. destruct H as ([num typ] & m & er & K & H). cbn [fst snd] in H.
        destruct (num <? fo_num o) eqn:N1; [discriminate|]. destruct (fo_num o <? num) eqn:N2.
        { inversion H; subst. exists []. rewrite app_nil_r. splits; try lia; try reflexivity. intros j b Hb; cbn in Hb; apply EOk_inj in Hb; subst; cbn; lia. }
        destruct (typ =? Typ3ByteLength) eqn:Nt; [|discriminate]. cbn [negb] in H. apply slide_ok in H. destruct H as [Lm H]. destruct er as [er|]; [discriminate|].
        assert (num = fo_num o) by lia. assert (typ = Typ3ByteLength) by lia. subst num typ. pose proof (bytes_ok_skipn m bz0 Hok) as Hok1.
        assert (Lk := fun key => key_read _ _ _ _ key Hok K).
        destruct (skip_empty env einfo e o (skipn m bz0)) eqn:Sk.
        - destruct (IH _ _ _ _ _ (bytes_ok_skipn 1 _ Hok1) H) as (l2 & -> & L2 & E2). rewrite !skipn_length in L2.
          assert (1 <= length (skipn m bz0))%nat by (destruct (skipn m bz0); [discriminate Sk|cbn; lia]). rewrite skipn_length in *.
          exists (default_value env e :: l2). rewrite <- app_assoc. splits; try reflexivity; try lia.
          intros j b Hb. destruct (unpacked_cons _ _ _ _ _ _ _ Hb) as (key & b1 & b2 & H1 & H2 & H3 & ->). rewrite !app_length. specialize (Lk _ H1).
          pose proof (absent_entry _ _ _ _ _ Hi Ha H2). specialize (E2 _ _ H3). lia.
        - apply dbind_ok in H. destruct H as (w & m2 & er & R & H). apply slide_ok in H. destruct H as [L3 H]. destruct er as [er|]; [discriminate|].
          destruct (read_entry _ _ _ _ Hok1 Nb R) as [L4 E4].
          destruct (IH _ _ _ _ _ (bytes_ok_skipn m2 _ Hok1) H) as (l2 & -> & L2 & E2). rewrite !skipn_length in *.
          exists (w :: l2). rewrite <- app_assoc. splits; try reflexivity; try lia.
          intros j b Hb. destruct (unpacked_cons _ _ _ _ _ _ _ Hb) as (key & b1 & b2 & H1 & H2 & H3 & ->). rewrite !app_length. specialize (Lk _ H1).
          specialize (E4 _ _ H2). specialize (E2 _ _ H3). lia.
      Qed.
      Lemma array_unpacked_lean : no_bytes env (deref_type e) = true -> is_ptr e || is_time e || hol e = true -> forall todo bz n dn l bz' n', bytes_ok bz ->
        decode_array_unpacked env rec bz n einfo e o dn todo = DRet (l, bz') n' None ->
        exists l2, l = dn ++ l2 /\ (n <= n' <= n + length bz)%nat /\ forall j b, encode_unpacked env (Enc j) e einfo l2 o = EOk b -> (length b + n <= n')%nat.
      Proof.
        intros Nb Ha. induction todo as [|w0 todo IH]; intros bz0 n dn l bz' n' Hok H; cbn [decode_array_unpacked] in H.
        { inversion H; subst. exists []. rewrite app_nil_r. splits; try lia; try reflexivity. intros j b Hb; cbn in Hb; apply EOk_inj in Hb; subst; cbn; lia. }
        apply dbind_ok in H. destruct H as ([num typ] & m & er & K & H). cbn [fst snd] in H.
        destruct (num =? fo_num o) eqn:N1; [|discriminate]. cbn [negb] in H.
        destruct (typ =? Typ3ByteLength) eqn:Nt; [|discriminate]. cbn [negb] in H. apply slide_ok in H. destruct H as [Lm H]. destruct er as [er|]; [discriminate|].
        assert (num = fo_num o) by lia. assert (typ = Typ3ByteLength) by lia. subst num typ. pose proof (bytes_ok_skipn m bz0 Hok) as Hok1.
        assert (Lk := fun key => key_read _ _ _ _ key Hok K).
        destruct (skip_empty env einfo e o (skipn m bz0)) eqn:Sk.
        - destruct (IH _ _ _ _ _ _ (bytes_ok_skipn 1 _ Hok1) H) as (l2 & -> & L2 & E2). rewrite !skipn_length in L2.
          assert (1 <= length (skipn m bz0))%nat by (destruct (skipn m bz0); [discriminate Sk|cbn; lia]). rewrite skipn_length in *.
          exists (default_value env e :: l2). rewrite <- app_assoc. splits; try reflexivity; try lia.
          intros j b Hb. destruct (unpacked_cons _ _ _ _ _ _ _ Hb) as (key & b1 & b2 & H1 & H2 & H3 & ->). rewrite !app_length. specialize (Lk _ H1).
          pose proof (absent_entry _ _ _ _ _ Hi Ha H2). specialize (E2 _ _ H3). lia.
        - apply dbind_ok in H. destruct H as (w & m2 & er & R & H). apply slide_ok in H. destruct H as [L3 H]. destruct er as [er|]; [discriminate|].
          destruct (read_entry _ _ _ _ Hok1 Nb R) as [L4 E4].
          destruct (IH _ _ _ _ _ _ (bytes_ok_skipn m2 _ Hok1) H) as (l2 & -> & L2 & E2). rewrite !skipn_length in *.
          exists (w :: l2). rewrite <- app_assoc. splits; try reflexivity; try lia.
          intros j b Hb. destruct (unpacked_cons _ _ _ _ _ _ _ Hb) as (key & b1 & b2 & H1 & H2 & H3 & ->). rewrite !app_length. specialize (Lk _ H1).
          specialize (E4 _ _ H2). specialize (E2 _ _ H3). lia.
      Qed.
      Lemma slice_packed_lean : delimited env e = false -> (exists z, type_to_typ3 env (ti_type einfo) o = EOk z) -> forall k bz n dn l n', bytes_ok bz ->
        decode_slice_packed env rec k bz n einfo e o dn = DRet l n' None ->
        exists l2, l = dn ++ l2 /\ (n <= n' <= n + length bz)%nat /\ forall j b, encode_packed env (Enc j) e einfo l2 o = EOk b -> (length b + n <= n')%nat.
      Proof.
        intros Nd Hz. induction k as [|k IH]; intros bz n dn l n' Hok H; (destruct bz as [|x bz]; cbn [decode_slice_packed] in H; [inversion H; subst; exists []; rewrite app_nil_r; splits; try lia; try reflexivity; intros j b Hb; cbn in Hb; apply EOk_inj in Hb; subst; cbn; lia|try discriminate H]).
        set (bz0 := x :: bz) in *. apply dbind_ok in H. destruct H as (w & m & er & K & H). apply slide_ok in H. destruct H as [Lm H]. destruct er as [er|]; [discriminate|].
        destruct (read_packed _ _ _ _ Hok Nd Hz K) as [L4 E4]. destruct (IH _ _ _ _ _ (bytes_ok_skipn m _ Hok) H) as (l2 & -> & L2 & E2). rewrite !skipn_length in *.
        exists (prefer_nil env e w :: l2). rewrite <- app_assoc. splits; try reflexivity; try lia.
        intros j b Hb. destruct (packed_cons _ _ _ _ _ _ _ Hb) as (b1 & b2 & H2 & H3 & ->). rewrite !app_length. specialize (E4 _ _ H2). specialize (E2 _ _ H3). lia.
      Qed.
      Lemma array_packed_lean : delimited env e = false -> (exists z, type_to_typ3 env (ti_type einfo) o = EOk z) -> forall todo bz n dn l bz' n', bytes_ok bz ->
        decode_array_packed env rec bz n einfo e o dn todo = DRet (l, bz') n' None ->
        exists l2, l = dn ++ l2 /\ (n <= n' <= n + length bz)%nat /\ forall j b, encode_packed env (Enc j) e einfo l2 o = EOk b -> (length b + n <= n')%nat.
      Proof.
        intros Nd Hz. induction todo as [|w0 todo IH]; intros bz0 n dn l bz' n' Hok H; cbn [decode_array_packed] in H.
        { inversion H; subst. exists []. rewrite app_nil_r. splits; try lia; try reflexivity. intros j b Hb; cbn in Hb; apply EOk_inj in Hb; subst; cbn; lia. }
        apply dbind_ok in H. destruct H as (w & m & er & K & H). apply slide_ok in H. destruct H as [Lm H]. destruct er as [er|]; [discriminate|].
        destruct (read_packed _ _ _ _ Hok Nd Hz K) as [L4 E4]. destruct (IH _ _ _ _ _ _ (bytes_ok_skipn m _ Hok) H) as (l2 & -> & L2 & E2). rewrite !skipn_length in *.
        exists (prefer_nil env e w :: l2). rewrite <- app_assoc. splits; try reflexivity; try lia.
        intros j b Hb. destruct (packed_cons _ _ _ _ _ _ _ Hb) as (b1 & b2 & H2 & H3 & ->). rewrite !app_length. specialize (E4 _ _ H2). specialize (E2 _ _ H3). lia.
      Qed.
    End Elem.

    Lemma list_fits t info w o bare n e einfo z l : minfo env c info t -> has_method env (deref_type t) = false ->
      elem_type env (deref_type t) = Some e -> get_type_info env c e = EOk einfo -> type_to_typ3 env (ti_type einfo) o = EOk z ->
      list_elems w = Some l -> is_uint8 env e = false ->
      (forall j b, (if z =? Typ3ByteLength then encode_unpacked env (Enc j) e einfo l o else encode_packed env (Enc j) e einfo l o) = EOk b -> (length (finish bare b) <= n)%nat) ->
      fits t info w o bare n.
    Proof.
      intros Hi Nm He Hg Hz Hw Hu Hb. assert (G : forall k b, encode_list env c (Enc k) info w o bare = EOk b -> (length b <= n)%nat).
      { intros k b H. destruct (encode_list_inv _ _ _ _ _ _ _ _ H) as (e' & ei' & l' & buf & X1 & _ & X2 & X3 & -> & _ & X4).
        rewrite (minfo_type _ _ _ _ Hi), He in X1. injection X1 as <-. rewrite Hg in X2. injection X2 as <-. rewrite Hw in X3. injection X3 as <-. eapply Hb, X4, Hz. }
      split; [|intros _; exact G]. intros k b H. left.
      destruct (plain_inv k info (deref_type t) w o bare b (minfo_deref _ _ _ _ Hi) (deref_idem t) Nm H) as (k' & -> & H').
      unfold encode_switch in H'. rewrite (minfo_type _ _ _ _ Hi) in H'. unfold elem_type in He.
      destruct (resolve env (deref_type t)); try discriminate He; injection He as ->; rewrite Hu in H';
        (destruct (is_list_kind env e); [destruct (multidim_bytes _ _ _) as [[|]|]; try discriminate H'; apply EOk_inj in H'; subst; cbn; lia|eapply G, H']).
    Qed.

    Lemma lean_elem e : lean_list env mem hol e = true -> is_uint8 env e = false ->
      mem (deref_type e) = true /\ has_method env (deref_type e) = false /\
      (delimited env e = true -> no_bytes env (deref_type e) = true /\ is_ptr e || is_time e || hol e = true).
    Proof.
      unfold lean_list. intros H Hu. rewrite Hu in H. cbn [orb] in H. apply andb_true_iff in H. destruct H as [H H3]. apply andb_true_iff in H. destruct H as [H1 H2].
      splits; [exact H1|apply negb_true_iff, H2|]. intros D. rewrite D in H3. apply andb_true_iff in H3. exact H3.
    Qed.
    Lemma slice_lean t info e v0 o bare bz v n : bytes_ok bz -> minfo env c info t -> has_method env (deref_type t) = false ->
      resolve env (deref_type t) = RSlice e -> lean_list env mem hol e = true -> decode_slice env c rec bz e v0 o bare = DRet v n None ->
      done info t o bare bz v n.
    Proof.
      intros Hok Hi Nm Er Hle H. unfold decode_slice in H. destruct (is_uint8 env e) eqn:Hu; [discriminate|].
      destruct (lean_elem e Hle Hu) as (M1 & M2 & M3).
      apply eget_ok in H; [|discriminate]. destruct H as (einfo & Hg & H). apply enter_inv in H; [|exact Hok]. destruct H as (b & n0 & Hb & H & L1 & L2 & Fin).
      apply eget_ok in H; [|discriminate]. destruct H as (z & Hz & H). apply dbind_ok in H. destruct H as (l & m & er & K & H). destruct er as [er|]; [discriminate|].
      inversion H; subst v m. clear H. pose proof (gti_minfo _ _ _ _ Hs Hg) as Hie. pose proof Hz as Hz'. rewrite (minfo_type _ _ _ _ Hie) in Hz'. pose proof (typ3_delimited _ _ _ _ Hz') as Hd.
      assert (G : (n0 <= n <= n0 + length b)%nat /\ forall j x, (if z =? Typ3ByteLength then encode_unpacked env (Enc j) e einfo l o else encode_packed env (Enc j) e einfo l o) = EOk x -> (length x + n0 <= n)%nat).
      { rewrite Hd in *. destruct (delimited env e) eqn:De; cbn [negb] in K.
        - destruct (M3 eq_refl) as [M4 M5]. destruct (slice_unpacked_lean e einfo o Hie M1 M2 M4 M5 _ _ _ _ _ _ Hb K) as (l2 & -> & A & B). cbn [app] in *. split; assumption.
        - destruct (slice_packed_lean e einfo o Hie M1 M2 De (ex_intro _ z Hz) _ _ _ _ _ _ Hb K) as (l2 & -> & A & B). cbn [app] in *. split; assumption. }
      destruct G as [G1 G2]. unfold done. splits; try lia.
      - destruct l; reflexivity.
      - apply (list_fits t info _ o bare n e einfo z l); try assumption; [unfold elem_type; rewrite Er; reflexivity|destruct l; reflexivity|].
        intros j x Hx. specialize (G2 _ _ Hx). pose proof (Fin x (n - n0)%nat ltac:(lia) ltac:(lia)). lia.
      - intros _ _ p X. rewrite Er in X. discriminate X.
    Qed.
    Lemma array_lean t info len e v0 o bare bz v n : bytes_ok bz -> minfo env c info t -> has_method env (deref_type t) = false ->
      resolve env (deref_type t) = RArray len e -> lean_list env mem hol e = true -> decode_array env c rec bz e v0 o bare = DRet v n None ->
      done info t o bare bz v n.
    Proof.
      intros Hok Hi Nm Er Hle H. unfold decode_array in H. destruct (is_uint8 env e) eqn:Hu; [discriminate|].
      destruct (lean_elem e Hle Hu) as (M1 & M2 & M3). destruct v0 as [| | | | | |l0| | | | | | | |]; try discriminate H.
      apply eget_ok in H; [|discriminate]. destruct H as (einfo & Hg & H). apply enter_inv in H; [|exact Hok]. destruct H as (b & n0 & Hb & H & L1 & L2 & Fin).
      apply eget_ok in H; [|discriminate]. destruct H as (z & Hz & H).
      pose proof (gti_minfo _ _ _ _ Hs Hg) as Hie. pose proof Hz as Hz'. rewrite (minfo_type _ _ _ _ Hie) in Hz'. pose proof (typ3_delimited _ _ _ _ Hz') as Hd.
      assert (G : exists l, v = VArr l /\ (n0 <= n <= n0 + length b)%nat /\ forall j x, (if z =? Typ3ByteLength then encode_unpacked env (Enc j) e einfo l o else encode_packed env (Enc j) e einfo l o) = EOk x -> (length x + n0 <= n)%nat).
      { rewrite Hd in *. destruct (delimited env e) eqn:De; cbn [negb] in H; apply dbind_ok in H; destruct H as ([l bz'] & m & er & K & H); (destruct er as [er|]; [discriminate|]).
        - assert (X : v = VArr l /\ n = m).
          { destruct bz' as [|x bz']; [inversion H; auto|]. apply dbind_ok in H. destruct H as (kt & m' & [er|] & _ & H); [discriminate|]. destruct (_ <=? _); [discriminate|]. inversion H; auto. }
          destruct X as [-> ->]. exists l. split; [reflexivity|].
          destruct (M3 eq_refl) as [M4 M5]. destruct (array_unpacked_lean e einfo o Hie M1 M2 M4 M5 _ _ _ _ _ _ _ Hb K) as (l2 & -> & A & B). cbn [app] in *. split; assumption.
        - assert (X : v = VArr l /\ n = m) by (destruct bz' as [|x bz']; inversion H; auto).
          destruct X as [-> ->]. exists l. split; [reflexivity|].
          destruct (array_packed_lean e einfo o Hie M1 M2 De (ex_intro _ z Hz) _ _ _ _ _ _ _ Hb K) as (l2 & -> & A & B). cbn [app] in *. split; assumption. }
      destruct G as (l & -> & G1 & G2). unfold done. splits; try lia.
      - reflexivity.
      - apply (list_fits t info _ o bare n e einfo z l); try assumption; [unfold elem_type; rewrite Er; reflexivity|reflexivity|].
        intros j x Hx. specialize (G2 _ _ Hx). pose proof (Fin x (n - n0)%nat ltac:(lia) ltac:(lia)). lia.
      - intros _ _ p X. rewrite Er in X. discriminate X.
    Qed.

    (** Bytes. *)
    Lemma no_list_bytes k info w o bare b e : elem_type env (ti_type info) = Some e -> is_uint8 env e = true -> encode_list env c (Enc k) info w o bare <> EOk b.
    Proof.
      intros He Hu H. destruct (encode_list_inv _ _ _ _ _ _ _ _ H) as (e' & ei' & l' & buf & X1 & X2 & _). rewrite He in X1. injection X1 as <-. congruence.
    Qed.
    Lemma bytes_again b : val_bytes (bytes_val b) = b.
    Proof. clear. induction b as [|x b IH]; [reflexivity|]. cbn [bytes_val val_bytes map] in *. f_equal; assumption. Qed.
    Lemma byte_array_lean t info len e v0 o bare bz v n : bytes_ok bz -> minfo env c info t -> has_method env (deref_type t) = false ->
      resolve env (deref_type t) = RArray len e -> is_uint8 env e = true -> decode_byte_array bz len e v0 = DRet v n None ->
      done info t o bare bz v n.
    Proof.
      intros Hok Hi Nm Er Hu H. unfold decode_byte_array in H. destruct (_ <? _)%nat; [discriminate|]. apply dbind_ok in H. destruct H as (b & m & er & K & H).
      apply slide_ok in H. destruct H as [L H]. destruct er as [er|]; [discriminate|]. destruct (negb _); [discriminate|]. destruct (gotype_eqb e _); [|discriminate]. inversion H; subst v m.
      destruct (slice_read _ _ _ Hok K) as (_ & L1 & L2). assert (1 <= length (encode_byte_slice b))%nat by (unfold encode_byte_slice; rewrite app_length; pose proof (uv_pos (zlen b)); lia).
      unfold done. splits; try lia; [reflexivity| |intros _ _ p X; rewrite Er in X; discriminate X].
      split; [|intros _ k x Hx; exfalso; revert Hx; eapply no_list_bytes; [rewrite (minfo_type _ _ _ _ Hi); unfold elem_type; rewrite Er; reflexivity|exact Hu]].
      intros k x Hx. left. destruct (plain_inv k info (deref_type t) _ o bare x (minfo_deref _ _ _ _ Hi) (deref_idem t) Nm Hx) as (k' & -> & H').
      unfold encode_switch in H'. rewrite (minfo_type _ _ _ _ Hi), Er, Hu in H'. apply EOk_inj in H'. subst x. rewrite bytes_again. exact L1.
    Qed.
    Lemma byte_slice_lean t info e v0 o bare bz v n : bytes_ok bz -> minfo env c info t -> has_method env (deref_type t) = false ->
      resolve env (deref_type t) = RSlice e -> is_uint8 env e = true -> decode_byte_slice_val bz e v0 = DRet v n None ->
      done info t o bare bz v n.
    Proof.
      intros Hok Hi Nm Er Hu H.
      assert (NS : ~ solid t) by (intros [_ S]; unfold no_bytes in S; rewrite Er, Hu in S; discriminate S).
      assert (NP : payload env (deref_type t) = false) by (unfold payload, no_bytes; rewrite Nm, Er, Hu; reflexivity).
      assert (NL : forall w, has_method env (deref_type t) = false -> forall k b, encode_list env c (Enc k) info w o bare = EOk b -> (length b <= n)%nat).
      { intros w _ k x Hx; exfalso; revert Hx; eapply no_list_bytes; [rewrite (minfo_type _ _ _ _ Hi); unfold elem_type; rewrite Er; reflexivity|exact Hu]. }
      assert (EN : forall k w x, Enc k info w o bare = EOk x -> (w = VSlice None -> x = [0]) /\ forall l, w = VSlice (Some l) -> x = encode_byte_slice (val_bytes l)).
      { intros k w x Hx. destruct (plain_inv k info (deref_type t) _ o bare x (minfo_deref _ _ _ _ Hi) (deref_idem t) Nm Hx) as (k' & -> & H').
        unfold encode_switch in H'. rewrite (minfo_type _ _ _ _ Hi), Er, Hu in H'. split; [intros ->|intros l ->]; apply EOk_inj in H'; auto. }
      unfold decode_byte_slice_val in H. destruct bz as [|y bz].
      - inversion H; subst v n. unfold done. splits; try reflexivity; [intros _ S; contradiction| |intros _ _ p X; rewrite Er in X; discriminate X].
        split; [|apply NL]. intros k x Hx. right. destruct (EN _ _ _ Hx) as [X _]. rewrite (X eq_refl). splits; auto.
      - apply dbind_ok in H. destruct H as (b & m & er & K & H). apply slide_ok in H. destruct H as [L H]. destruct er as [er|]; [discriminate|].
        destruct (slice_read _ _ _ Hok K) as (_ & L1 & L2).
        destruct b as [|z b]; [|destruct (gotype_eqb e _); [|discriminate]]; inversion H; subst v m; (unfold done; splits; [exact L|intros _ S; contradiction|reflexivity|split; [|apply NL]|intros _ _ p X; rewrite Er in X; discriminate X]);
          intros k x Hx; left; destruct (EN _ _ _ Hx) as [X1 X2].
        + rewrite (X1 eq_refl). exact L1.
        + rewrite (X2 (bytes_val (z :: b)) eq_refl), bytes_again. exact L1.
    Qed.

    (** ** Structs *)
    Lemma write_fits num info t o w b1 k x : write_field env (Enc k) num info o w b1 false = EOk x -> minfo env c info t ->
      exists z key b, type_to_typ3 env (ti_type info) o = EOk z /\ encode_field_key num z = EOk key /\ Enc k info w o false = EOk b /\
      (x = [] \/ x = key ++ b /\ (b = [0] -> b1 = true)).
    Proof.
      intros H _. unfold write_field in H. einv H. einv H. einv H. eexists _, _, _. splits; try eassumption.
      destruct (negb b1 && beqb a1 [0]) eqn:Q; apply EOk_inj in H; [left; auto|right; split; [auto|]]. intros ->. destruct b1; [reflexivity|discriminate Q].
    Qed.
    Definition field_fine (f : finfo) : Prop :=
      fo_write_empty (fi_opts f) = false /\ mem (deref_type (fi_type f)) = true /\ fi_unpacked f = entries env (fi_type f) /\
      (entries env (fi_type f) = true -> has_method env (fi_type f) = false) /\
      (if is_ptr (fi_type f) then is_time (deref_type (fi_type f)) = false /\ has_method env (deref_type (fi_type f)) = false else is_time (fi_type f) || hol (fi_type f) = true).
    Lemma absent_field f k x : field_fine f -> encode_field env c (Enc k) f (default_value env (fi_type f)) = EOk x -> x = [].
    Proof.
      intros (F1 & _ & F3 & _ & F5) Hx. unfold encode_field in Hx. einv Hx. rewrite default_pair in Hx. rewrite F1 in Hx. cbn [negb orb] in Hx. rewrite andb_true_r in Hx.
      pose proof (gti_minfo _ _ _ _ Hs E) as Hi'.
      destruct (defaultv (default_value env (fi_type f))) eqn:Df; [apply EOk_inj in Hx; auto|].
      destruct (is_ptr (fi_type f)) eqn:Pt.
      { exfalso. rewrite (default_shape _ (proj1 F5)), (zero_ptr _ Pt) in Df. discriminate Df. }
      pose proof (deref_nonptr _ Pt) as Dn.
      assert (NoList : forall e, elem_type env (fi_type f) = Some e -> fi_unpacked f = false).
      { intros e He. exfalso. destruct (is_time (fi_type f)) eqn:T; [destruct (fi_type f); try discriminate T; discriminate He|]. cbn [orb] in F5.
        rewrite default_shape in Df by (rewrite Dn; exact T). pose proof (hol_type _ F5) as Q. unfold hollow_type in Q. pose proof (zero_shape (fi_type f)) as Zf. unfold elem_type in He.
        destruct (has_method env (fi_type f)); [congruence|]. destruct (resolve env (fi_type f)); try discriminate He; [contradiction|]. rewrite Zf in Df. discriminate Df. }
      assert (Up : fi_unpacked f = false).
      { destruct (fi_unpacked f) eqn:Up; [|reflexivity]. rewrite <- (NoList (match elem_type env (fi_type f) with Some e => e | None => TOther end)); [reflexivity|].
        symmetry in F3. unfold entries in F3. unfold elem_type. destruct (resolve env (fi_type f)); try discriminate F3; reflexivity. }
      rewrite Up in Hx. destruct (write_fits _ _ _ _ _ _ _ _ Hx Hi') as (z & key & b & W1 & W2 & W3 & [W4|[_ W4]]); [exact W4|]. exfalso.
      destruct (is_time (fi_type f)) eqn:T.
      - destruct (time_shape (fi_type f)) as [De Q]; [rewrite Dn; exact T|]. rewrite Q, under_wrap in W3 by reflexivity. specialize (W4 (time0 _ _ _ _ _ Hi' De W3)).
        rewrite Q in W4. destruct (fi_type f); try discriminate T. discriminate W4.
      - rewrite default_shape in * by (rewrite Dn; exact T). destruct (zero_nonptr (fi_type f) Pt) as [U V]. rewrite U in W3. rewrite V in W4. cbn [orb] in F5.
        specialize (W4 (hollow_zero _ _ _ _ _ F5 Hi' Dn Df W3)). discriminate W4.
    Qed.
    Lemma field_lean f l bz last n l' bz' last' n' : field_fine f -> bytes_ok bz -> decode_field env c rec f l bz last n = DRet (l', bz', last') n' None ->
      exists v, l' = upd (fi_index f) v l /\ bytes_ok bz' /\ (n' + length bz' = n + length bz)%nat /\ (n <= n')%nat /\
        forall k x, encode_field env c (Enc k) f v = EOk x -> (length x + n <= n')%nat.
    Proof.
      intros Hf Hok H. unfold decode_field in H. apply eget_ok in H; [|discriminate]. destruct H as (info & Hg & H). pose proof (gti_minfo _ _ _ _ Hs Hg) as Hi.
      pose proof Hf as (F1 & F2 & F3 & F4 & F5).
      assert (Ab : forall bz1 last1, DRet (upd (fi_index f) (default_value env (fi_type f)) l, bz, last) n None = DRet (l', bz1, last1) n' None -> bz1 = bz' ->
        exists v, l' = upd (fi_index f) v l /\ bytes_ok bz' /\ (n' + length bz' = n + length bz)%nat /\ (n <= n')%nat /\
        forall k x, encode_field env c (Enc k) f v = EOk x -> (length x + n <= n')%nat).
      { intros bz1 last1 X Y. inversion X; subst. eexists. splits; try reflexivity; try assumption; try lia. intros k x Hx. rewrite (absent_field _ _ _ Hf Hx). cbn. lia. }
      destruct bz as [|y bz]; [eapply Ab; [exact H|reflexivity]|]. set (bz0 := y :: bz) in *.
      destruct (fi_unpacked f) eqn:Up.
      - apply dbind_ok in H. destruct H as (v & m & er & R & H). apply slide_ok in H. destruct H as [L H]. inversion H; subst l' bz' last' n' er. clear H.
        destruct (Hrec _ _ _ _ _ _ _ _ Hok Hi F2 R) as (w & -> & D1 & _ & D3 & [_ D4] & _). eexists. splits; try reflexivity; try (rewrite skipn_length; lia); try lia; [apply bytes_ok_skipn, Hok|].
        symmetry in F3. specialize (F4 F3). assert (Pt : is_ptr (fi_type f) = false) by (unfold entries in F3; destruct (fi_type f); try reflexivity; discriminate F3).
        rewrite (deref_nonptr _ Pt) in D4. intros k x Hx. unfold encode_field in Hx. rewrite Hg in Hx. cbn [ebind] in Hx. rewrite default_pair, default_wrap, under_wrap, Up in Hx by exact D3.
        destruct (_ && _); [apply EOk_inj in Hx; subst; cbn; lia|]. specialize (D4 F4 _ _ Hx). lia.
      - apply dbind_ok in H. destruct H as ([num typ] & m & er & K & H). destruct (fo_num (fi_opts f) <? num); [eapply Ab; [exact H|reflexivity]|].
        destruct (num <=? last); [discriminate|]. apply slide_ok in H. destruct H as [L H]. destruct er as [er|]; [discriminate|].
        destruct (fo_num (fi_opts f) =? num) eqn:Nn; [|discriminate]. cbn [negb] in H. apply eget_ok in H; [|discriminate]. destruct H as (tw & Htw & H).
        destruct (typ =? tw) eqn:Nt; [|discriminate]. cbn [negb] in H. assert (num = fo_num (fi_opts f)) by lia. assert (typ = tw) by lia. subst num typ.
        assert (Lk := fun key => key_read _ _ _ _ key Hok K). pose proof (bytes_ok_skipn m bz0 Hok) as Hok1.
        apply dbind_ok in H. destruct H as (v & m2 & er & R & H). apply slide_ok in H. destruct H as [L2 H]. inversion H; subst l' bz' last' n' er. clear H.
        destruct (Hrec _ _ _ _ _ _ _ _ Hok1 Hi F2 R) as (w & -> & D1 & _ & D3 & [D4 _] & _). eexists. splits; try reflexivity; try (rewrite !skipn_length in *; lia); try lia; [apply bytes_ok_skipn, Hok1|].
        intros k x Hx. unfold encode_field in Hx. rewrite Hg in Hx. cbn [ebind] in Hx. rewrite default_pair, default_wrap, under_wrap, Up, F1 in Hx by exact D3. cbn [negb orb] in Hx. rewrite andb_true_r in Hx.
        destruct (defaultv w) eqn:Dw; [apply EOk_inj in Hx; subst; cbn; lia|].
        destruct (write_fits _ _ _ _ _ _ _ _ Hx Hi) as (z & key & b & W1 & W2 & W3 & [->|[-> W4]]); [cbn; lia|]. rewrite Htw in W1. injection W1 as <-. specialize (Lk _ W2). rewrite app_length.
        destruct (D4 _ _ W3) as [D|(_ & -> & _ & D)]; [lia|]. exfalso. specialize (W4 eq_refl). destruct (is_ptr (fi_type f)) eqn:Pt.
        + discriminate (D (proj2 F5)).
        + destruct (fi_type f); try discriminate Pt; cbn [wrap_ptrs] in W4; rewrite D3 in W4; discriminate W4.
    Qed.
    Lemma upd_same v : forall l i, nth i (upd i v l) VInvalid = v \/ nth i (upd i v l) VInvalid = VInvalid.
    Proof. clear. induction l as [|y l IH]; intros [|i]; cbn [upd nth]; auto. Qed.
    Lemma upd_other v : forall (l : list value) i j, i <> j -> nth j (upd i v l) VInvalid = nth j l VInvalid.
    Proof. clear. induction l as [|y l IH]; intros [|i] [|j] H; cbn [upd nth]; auto; try congruence. Qed.
    Lemma invalid_field f k x : encode_field env c (Enc k) f VInvalid = EOk x -> x = [].
    Proof.
      intros H. unfold encode_field in H. einv H. rewrite default_pair in H. cbn [under defaultv] in H.
      destruct (_ && _); [apply EOk_inj in H; auto|]. destruct (fi_unpacked f).
      - destruct (encode_list_inv _ _ _ _ _ _ _ _ H) as (? & ? & ? & ? & _ & _ & _ & L & _). discriminate L.
      - unfold write_field in H. einv H. einv H. einv H. destruct k; discriminate.
    Qed.
    Lemma fields_lean : forall fs l bz last n l' bz' last' n', Forall field_fine fs -> NoDup (map fi_index fs) -> bytes_ok bz ->
      decode_fields env c rec fs l bz last n = DRet (l', bz', last') n' None ->
      bytes_ok bz' /\ (n' + length bz' = n + length bz)%nat /\ (n <= n')%nat /\ (forall i, ~ In i (map fi_index fs) -> nth i l' VInvalid = nth i l VInvalid) /\
      forall k x, encode_fields env c (Enc k) fs l' = EOk x -> (length x + n <= n')%nat.
    Proof.
      induction fs as [|f fs IH]; intros l bz last n l' bz' last' n' Hf Hd Hok H; cbn [decode_fields] in H.
      { inversion H; subst. splits; auto. intros k x Hx. cbn in Hx. apply EOk_inj in Hx. subst. cbn. lia. }
      apply dbind_ok in H. destruct H as ([[l1 bz1] last1] & n1 & er & K & H). destruct er as [er|]; [discriminate|].
      inversion Hf as [|? ? Hf1 Hf2]; subst. cbn [map] in Hd. inversion Hd as [|? ? Hd1 Hd2]; subst.
      destruct (field_lean _ _ _ _ _ _ _ _ _ Hf1 Hok K) as (v & -> & A1 & A2 & A3 & A4). destruct (IH _ _ _ _ _ _ _ _ Hf2 Hd2 A1 H) as (B1 & B2 & B3 & B4 & B5).
      splits; try assumption; try lia.
      - intros i Hi. cbn [map In] in Hi. rewrite B4 by tauto. apply upd_other. tauto.
      - intros k x Hx. cbn [encode_fields] in Hx. einv Hx. einv Hx. apply EOk_inj in Hx. subst x. rewrite app_length. specialize (B5 _ _ E0). rewrite B4 in E by exact Hd1.
        assert (G : (length a + n <= n1)%nat).
        { destruct (upd_same v l (fi_index f)) as [Q|Q]; rewrite Q in E; [exact (A4 _ _ E)|]. rewrite (invalid_field _ _ _ E). cbn. lia. }
        lia.
    Qed.

    Lemma no_list t info w o bare k b : minfo env c info t -> elem_type env (deref_type t) = None -> encode_list env c (Enc k) info w o bare <> EOk b.
    Proof.
      intros Hi He H. destruct (encode_list_inv _ _ _ _ _ _ _ _ H) as (e' & ei' & l' & buf & X1 & X2 & _). rewrite (minfo_type _ _ _ _ Hi), He in X1. discriminate X1.
    Qed.
    Lemma parse_indices : forall fs i num l, parse_fields env fs i num = EOk l -> NoDup (map fi_index l) /\ forall f, In f l -> (i <= fi_index f)%nat.
    Proof.
      clear. induction fs as [|f fs IH]; intros i num l H; [apply EOk_inj in H; subst; split; [constructor|contradiction]|].
      apply parse_step in H. destruct (field_opts _ f).
      - destruct H as (fi & rest & -> & H1 & _ & _ & _ & _ & H2). destruct (IH _ _ _ H2) as [N B]. split.
        + cbn [map]. constructor; [|exact N]. intros X. apply in_map_iff in X. destruct X as (g & Eg & Hg). apply B in Hg. lia.
        + intros g [<-|Hg]; [lia|]. apply B in Hg. lia.
      - destruct (IH _ _ _ H) as [N B]. split; [exact N|]. intros g Hg. apply B in Hg. lia.
    Qed.
    Lemma struct_lean t ci v0 o bare bz v n : bytes_ok bz -> minfo env c (TIConc ci) t -> has_method env (deref_type t) = false ->
      lean_plain env c mem hol (deref_type t) -> elem_type env (deref_type t) = None -> decode_struct env c rec bz ci v0 bare = DRet v n None ->
      done (TIConc ci) t o bare bz v n.
    Proof.
      intros Hok Hi Nm Hp Ne H. unfold decode_struct in H. apply enter_inv in H; [|exact Hok]. destruct H as (b & n0 & Hb & H & L1 & L2 & Fin).
      destruct Hi as [Hi1 Hi2]. assert (Hi : minfo env c (TIConc ci) t) by (split; assumption).
      assert (G : (n0 <= n <= n0 + length b)%nat /\ val_is_ptr v = false /\ (forall p, resolve env (deref_type t) <> RPrim p) /\ no_bytes env (deref_type t) = true /\
        forall k x, encode_struct env c (Enc k) ci v bare = EOk x -> (length x <= n)%nat).
      { rewrite Hi1 in H. destruct (resolve env (deref_type t)) as [p| |len e|e|e|kt e| | |i|fs|] eqn:Er; try discriminate H.
        - apply dbind_ok in H. destruct H as ([s ns] & m & er & K & H). apply slide_ok in H. destruct H as [L H]. destruct er as [er|]; [discriminate|]. inversion H; subst v n.
          destruct (time_lean _ _ _ _ Hb K) as [T1 T2]. splits; try lia; [reflexivity|discriminate|unfold no_bytes; rewrite Er; reflexivity|].
          intros k x Hx. unfold encode_struct in Hx. rewrite Hi1, Er in Hx. cbn [fst snd] in Hx. einv Hx. destruct a as [buf [er|]]; [discriminate|]. apply EOk_inj in Hx. subst x.
          apply Fin; [apply T2; assumption|exact T1].
        - destruct v0 as [| | | | | | | | |l0| | | | |]; try discriminate H. apply dbind_ok in H. destruct H as ([[l bz1] last] & m & er & K & H). destruct er as [er|]; [discriminate|].
          apply dbind_ok in H. destruct H as (u & m2 & er & C & H). inversion H; subst v n er.
          unfold lean_plain in Hp. rewrite Er in Hp. rewrite forallb_forall in Hp.
          destruct (info_ok_parts _ _ Hi2) as (_ & Hps & _). unfold parse_struct_info in Hps. rewrite Hi1, Er in Hps.
          assert (FF : Forall field_fine (ci_fields ci)).
          { apply Forall_forall. intros f Hf. destruct (parse_fields_nth _ _ _ _ _ _ Hps Hf) as (sf & o' & _ & H2 & H3 & H4 & _ & H6 & H7 & H8). rewrite Nat.sub_0_r in H2.
            specialize (Hp sf (nth_error_In _ _ H2)). unfold lean_field, field_opts in Hp. rewrite H3, H4 in Hp. cbn [option_map] in Hp. rewrite <- H6 in Hp.
            change (fo_write_empty (set_num 1 o')) with (fo_write_empty o') in Hp. apply andb_true_iff in Hp. destruct Hp as [Hp Hp4]. apply andb_true_iff in Hp. destruct Hp as [Hp Hp3].
            apply andb_true_iff in Hp. destruct Hp as [Hp1 Hp2]. apply negb_true_iff in Hp1, Hp3. unfold field_fine. splits.
            - rewrite H8. exact Hp1.
            - exact Hp2.
            - rewrite H6. eapply unpacked_entries, H7.
            - intros X. rewrite X in Hp3. exact Hp3.
            - destruct (is_ptr (fi_type f)); [|exact Hp4]. apply andb_true_iff in Hp4. destruct Hp4 as [A B]. apply negb_true_iff in A, B. split; assumption. }
          destruct (fields_lean _ _ _ _ _ _ _ _ _ FF (proj1 (parse_indices _ _ _ _ Hps)) Hb K) as (B1 & B2 & B3 & _ & B5).
          pose proof (good_consume_rest (fun _ _ _ _ _ _ => DFuel) (fun _ _ _ _ _ _ _ => I) (length bz1) bz1 last m B1) as Q. rewrite C in Q. cbn [dspec] in Q. destruct Q as [Q1 Q2].
          splits; try lia; [reflexivity|discriminate|unfold no_bytes; rewrite Er; reflexivity|].
          intros k x Hx. unfold encode_struct in Hx. rewrite Hi1, Er in Hx. einv Hx. apply EOk_inj in Hx. subst x. specialize (B5 _ _ E).
          pose proof (Fin a (m2 - n0)%nat ltac:(lia) ltac:(lia)). lia. }
      destruct G as (G1 & G2 & G3 & G4 & G5). unfold done. splits; try lia; try assumption.
      - split; [|intros _ k x Hx; exfalso; revert Hx; eapply no_list; eassumption].
        intros k x Hx. left. destruct (plain_inv k _ (deref_type t) _ o bare x (minfo_deref _ _ _ _ Hi) (deref_idem t) Nm Hx) as (k' & -> & H').
        unfold encode_switch in H'. cbn [ti_type] in H'. rewrite Hi1 in H'. unfold elem_type in Ne. destruct (resolve env (deref_type t)) eqn:Er; try discriminate Ne; try discriminate H';
          try (eapply G5, H'). exfalso. eapply G3. reflexivity.
      - intros _ _ p X. exfalso. eapply G3, X.
    Qed.

    (** ** Interfaces *)
    Lemma conc_info ci : In ci (cd_concretes c) -> deref_type (ci_type ci) = ci_type ci /\ minfo env c (TIConc ci) (ci_type ci) /\
      get_type_info env c (ci_type ci) = EOk (TIConc ci) /\ exists r, ci_reg ci = Some r.
    Proof.
      intros Hin. pose proof (proj1 (wc_conc _ _ Wc ci) Hin) as [Ha Hr].
      destruct (wc_types _ _ Wc _ _ Ha) as [_ Hok]. destruct (info_ok_parts _ _ Hok) as (K & _).
      assert (D : deref_type (ci_type ci) = ci_type ci) by (destruct (ci_type ci); try reflexivity; discriminate).
      splits; [exact D|split; [symmetry; exact D|exact Hok]| |destruct (ci_reg ci) as [r|]; [exists r; reflexivity|contradiction]].
      unfold get_type_info. rewrite D, Ha. destruct (ci_type ci); try reflexivity; discriminate.
    Qed.
    Lemma iface_lean t ii v0 o bare bz v n : bytes_ok bz -> minfo env c (TIFace ii) t -> lean_plain env c mem hol (deref_type t) ->
      decode_interface env c rec bz ii v0 o bare = DRet v n None -> done (TIFace ii) t o bare bz v n.
    Proof.
      intros Hok Hi Hp H. pose proof Hi as [Hin Dt]. unfold lean_plain in Hp. rewrite Dt in Hp. cbn [resolve] in Hp. destruct Hp as [Hp1 Hp2]. specialize (Hp2 ii Hin eq_refl).
      unfold decode_interface in H. destruct v0 as [| | | | | | | | | |[|]| | | |]; try discriminate H. apply enter_inv in H; [|exact Hok]. destruct H as (b & n0 & Hb & H & L1 & L2 & Fin).
      apply dbind_ok in H. destruct H as ([d pb] & n1 & er & K & H). apply slide_ok in H. destruct H as [Ln1 H]. destruct er as [er|]; [discriminate|]. cbn [fst snd] in H.
      apply eget_ok in H; [|discriminate]. destruct H as (ci & Hci & H).
      pose proof (bytes_ok_skipn n1 b Hb) as Hb1.
      assert (Q : In ci (cd_concretes c) /\ forall r, ci_reg ci = Some r ->
        (length ((if (ii_always ii || (1 <? length match assoc beqb (ri_prefix r) (ii_impls ii) with Some l => l | None => [] end)%nat)%bool then 0%Z :: ri_disamb r else []) ++ ri_prefix r) <= n1)%nat /\ (4 <= n1)%nat).
      { assert (Hcc : In ci (cd_concretes c)).
        { destruct d as [d|]; [unfold type_info_from_disfix in Hci; destruct (assoc beqb (to_disfix d pb) (cd_disfix c)) eqn:A; [|discriminate]; apply EOk_inj in Hci; subst; apply (wc_disfix _ _ Wc) in A; apply A|].
          unfold type_info_from_prefix in Hci. destruct (assoc beqb pb (ii_impls ii)) as [[|x [|]]|] eqn:A; try discriminate. apply EOk_inj in Hci. subst x.
          pose proof (wc_impls _ _ Wc ii pb Hin) as W. unfold impls_of in W. rewrite A in W. assert (X : In ci [ci]) by (left; reflexivity). rewrite W in X. apply filter_In in X. apply X. }
        split; [exact Hcc|]. intros r Hr. destruct (conc_info ci Hcc) as (_ & [_ Hinfo] & _). destruct (reg_shape _ _ _ Hinfo Hr) as (S1 & S2 & _). rewrite Hp2. cbn [orb].
        unfold decode_disamb_prefix in K. destruct (length b <? 4)%nat eqn:B4; [discriminate|].
        assert (KK : (exists d', d = Some d' /\ n1 = 8%nat) \/ d = None /\ n1 = 4%nat).
        { destruct b as [|[|y|y] b]; [discriminate B4| |..]; [destruct (_ <? 8)%nat; [discriminate|]|..]; inversion K; subst; eauto. }
        destruct KK as [(d' & -> & ->)|[-> ->]].
        - rewrite app_length, S2. destruct (1 <? _)%nat; cbn [length]; lia.
        - unfold type_info_from_prefix in Hci. destruct (assoc beqb pb (ii_impls ii)) as [[|x [|]]|] eqn:A; try discriminate. apply EOk_inj in Hci. subst x.
          pose proof (wc_impls _ _ Wc ii pb Hin) as W. unfold impls_of in W. rewrite A in W. assert (X : In ci [ci]) by (left; reflexivity). rewrite W in X. apply filter_In in X. destruct X as [_ X].
          apply andb_true_iff in X. destruct X as [_ X]. apply beqb_eq in X. unfold ci_prefix in X. rewrite Hr in X. subst pb. rewrite A. cbn [length Nat.ltb Nat.leb app]. lia. }
      destruct Q as [Hcc Q]. destruct (conc_info ci Hcc) as (Dc & Mi & Gi & r & Hr). specialize (Q r Hr). destruct Q as [Q1 Q2]. destruct (Hp1 ci Hcc) as [Mc Pc].
      (* the contents *)
      assert (Go : forall bz2 n2, bytes_ok bz2 -> (n0 + n1 <= n2)%nat -> (n2 + length bz2 <= n0 + length b)%nat ->
        dbind (rec bz2 (TIConc ci) (ci_type ci) (zero env (ci_type ci)) o true) (fun v n3 e =>
              slide bz2 n3 (fun bz3 =>
              let n3 := (n2 + n3)%nat in
              match e with
              | Some e => set_iface env ii ci v (fun r => DRet r n3 (Some e))
              | None =>
                  match bz3 with
                  | _ :: _ => DRet (VIface None) n3 (Some "bytes left over after reading interface contents"%string)
                  | [] => set_iface env ii ci v (fun r => DRet r n3 None)
                  end
              end)) = DRet v n None ->
        (n0 + 4 <= n <= n0 + length b)%nat /\ exists ct cv w m, v = VIface (Some (ct, cv)) /\ deref_type ct = ci_type ci /\ deref_pointers cv = (w, false) /\
          (n0 + n1 + m <= n)%nat /\ forall k x, Enc k (TIConc ci) w o true = EOk x -> (length x <= m)%nat).
      { intros bz2 n2 Hb2 B1 B2 X. apply dbind_ok in X. destruct X as (u & n3 & er & R & X). apply slide_ok in X. destruct X as [L3 X]. cbv zeta in X. destruct er as [er|].
        { unfold set_iface in X. destruct (match ci_reg ci with Some r => ri_ptr r | None => false end); destruct (te_impl env _ _); discriminate X. }
        destruct (skipn n3 bz2) as [|]; [|discriminate].
        rewrite <- Dc in Mc. destruct (Hrec _ _ _ _ _ _ _ _ Hb2 Mi Mc R) as (w & -> & D1 & _ & D3 & [D4 _] & _). rewrite <- Dc in Pc.
        assert (Ew : wrap_ptrs (ci_type ci) w = w) by (destruct (ci_type ci); try reflexivity; rewrite <- Dc in *; exfalso; pose proof (deref_is_ptr (TPtr g)) as Z1; cbn [deref_type] in *; rewrite Dc in Z1; discriminate Z1).
        rewrite Ew in X. assert (Dw : deref_pointers w = (w, false)) by (destruct w; try reflexivity; discriminate D3).
        unfold set_iface in X. destruct (match ci_reg ci with Some r => ri_ptr r | None => false end); destruct (te_impl env _ _); try discriminate X; inversion X; subst v n;
          (split; [lia|]); eexists _, _, w, n3; (splits; [reflexivity|cbn [deref_type]; exact Dc|exact Dw|lia|]);
          intros k x Hx; destruct (D4 _ _ Hx) as [D|(_ & _ & D & _)]; try exact D; rewrite Pc in D; discriminate D. }
      assert (G : (n0 + 4 <= n <= n0 + length b)%nat /\ exists ct cv w m, v = VIface (Some (ct, cv)) /\ deref_type ct = ci_type ci /\ deref_pointers cv = (w, false) /\
          (n0 + n1 + m <= n)%nat /\ forall k x, Enc k (TIConc ci) w o true = EOk x -> (length x <= m)%nat).
      { cbv zeta in H. destruct (wants_key env ci (skipn n1 b) o).
        - apply dbind_ok in H. destruct H as (kt & nk & er & Kk & H). destruct er as [er|]; [discriminate|]. destruct (negb _); [discriminate|]. apply eget_ok in H; [|discriminate].
          destruct H as (tw & _ & H). destruct (negb _); [discriminate|]. apply slide_ok in H. destruct H as [Lk H]. rewrite skipn_length in Lk.
          apply (Go (skipn nk (skipn n1 b)) (n0 + n1 + nk)%nat); [apply bytes_ok_skipn, Hb1|lia|rewrite !skipn_length; lia|exact H].
        - apply (Go (skipn n1 b) (n0 + n1)%nat); [exact Hb1|lia|rewrite skipn_length; lia|exact H]. }
      destruct G as (G1 & ct & cv & w & m & -> & Dct & Dcv & G2 & G3). unfold done. splits; try lia; [reflexivity| |intros _ _ p X; rewrite Dt in X; discriminate X].
      split; [|intros _ k x Hx; exfalso; revert Hx; eapply no_list; [exact Hi|rewrite Dt; reflexivity]].
      intros k x Hx. left. destruct k as [|k]; [discriminate|]. apply encode_reflect_inv in Hx. unfold encode_switch in Hx. cbn [ti_type resolve] in Hx.
      unfold encode_interface in Hx. rewrite Dcv, Dct, Gi in Hx. cbn [ebind] in Hx. rewrite Hr in Hx.
      assert (Hx' : exists body, Enc k (TIConc ci) w o true = EOk body /\ x = finish bare ((if (ii_always ii || (1 <? length match assoc beqb (ri_prefix r) (ii_impls ii) with Some l => l | None => [] end)%nat)%bool then 0%Z :: ri_disamb r else []) ++ ri_prefix r ++ body)).
      { destruct w; try discriminate Hx; einv Hx; apply EOk_inj in Hx; eexists; (split; [eassumption|auto]). }
      destruct Hx' as (body & Hbody & ->). specialize (G3 _ _ Hbody). rewrite app_assoc.
      pose proof (Fin (((if (ii_always ii || (1 <? length match assoc beqb (ri_prefix r) (ii_impls ii) with Some l => l | None => [] end)%nat)%bool then 0%Z :: ri_disamb r else []) ++ ri_prefix r) ++ body) (n - n0)%nat) as FF.
      rewrite app_length in FF. specialize (FF ltac:(lia) ltac:(lia)). lia.
    Qed.
    Lemma switch_lean t info v0 o bare bz v n : bytes_ok bz -> minfo env c info t -> has_method env (deref_type t) = false ->
      lean_plain env c mem hol (deref_type t) -> decode_switch env c rec bz info v0 o bare = DRet v n None -> done info t o bare bz v n.
    Proof.
      intros Hok Hi Nm Hp H. unfold decode_switch in H. rewrite (minfo_type _ _ _ _ Hi) in H. pose proof Hp as Hp'. unfold lean_plain in Hp'.
      destruct (resolve env (deref_type t)) as [p| |len e|e|e|kt e| | |i|fs|] eqn:Er; try discriminate H.
      - destruct (prim_lean p _ _ _ _ _ Hok H) as (P1 & P2 & P3 & P4 & P5). unfold done. splits; try lia; try assumption.
        + split; [|intros _ k x Hx; exfalso; revert Hx; eapply no_list; [exact Hi|unfold elem_type; rewrite Er; reflexivity]].
          intros k x Hx. left. destruct (plain_inv k _ (deref_type t) _ o bare x (minfo_deref _ _ _ _ Hi) (deref_idem t) Nm Hx) as (k' & -> & H').
          unfold encode_switch in H'. rewrite (minfo_type _ _ _ _ Hi), Er in H'. apply P4, H'.
        + intros Dw _ p' X. rewrite Er in X. injection X as <-. apply P5, Dw.
      - destruct info as [ci|]; [|discriminate]. eapply struct_lean; try eassumption. unfold elem_type. rewrite Er. reflexivity.
      - destruct (is_uint8 env e) eqn:Hu; [eapply byte_array_lean; eassumption|eapply array_lean; eassumption].
      - destruct (is_uint8 env e) eqn:Hu; [eapply byte_slice_lean; eassumption|eapply slice_lean; eassumption].
      - destruct info as [ci|ii]; [discriminate|]. eapply iface_lean; eassumption.
      - destruct info as [ci|]; [|discriminate]. eapply struct_lean; try eassumption. unfold elem_type. rewrite Er. reflexivity.
    Qed.
  End Step.

  Theorem read_lean : forall k bz info t v0 o bare v n, bytes_ok bz -> minfo env c info t -> mem (deref_type t) = true ->
    decode_reflect k env c bz info t v0 o bare = DRet v n None -> exists w, v = wrap_ptrs t w /\ done info t o bare bz w n.
  Proof.
    induction k as [|k IH]; intros bz info t v0 o bare v n Hok Hi Hm H; [discriminate|]. cbn [decode_reflect] in H.
    pose proof (proj1 Hl _ Hm) as Ht. unfold lean_type in Ht.
    assert (Hd : exists w, v = wrap_ptrs t w /\
      match info with
             | TIConc {| ci_type := ct; ci_unmarshal := Some r |} =>
                 eget (get_type_info env c r) (fun e => DRet (base_of env t v0) 0 (Some e)) (fun rinfo =>
                 dbind (decode_reflect k env c bz rinfo r (zero env r) o bare) (fun rv n e =>
                 slide bz n (fun _ =>
                 match e with
                 | Some e => DRet (base_of env t v0) n (Some e)
                 | None => eget (from_repr env ct (base_of env t v0) rv) (fun e => DRet (base_of env t v0) n (Some e))
                                (fun r => DRet (fst r) n (snd r))
                 end)))
             | _ => decode_switch env c (decode_reflect k env c) bz info (base_of env t v0) o bare
             end = DRet w n None).
    { destruct info as [ci|ii], t; try discriminate H; unfold dmap in H; apply dbind_ok in H; destruct H as (w & m & e & H & X); injection X as <- <- ->; exists w; (split; [reflexivity|exact H]). }
    clear H. destruct Hd as (w & -> & H). exists w. split; [reflexivity|].
    assert (Plain : has_method env (deref_type t) = false -> lean_plain env c mem hol (deref_type t) -> decode_switch env c (decode_reflect k env c) bz info (base_of env t v0) o bare = DRet w n None ->
      done info t o bare bz w n) by (intros N L X; eapply switch_lean; eassumption).
    destruct info as [ci|ii].
    - pose proof Hi as [Hi1 Hi2]. pose proof (minfo_unmethod _ _ _ Hi1 Hi2) as U. pose proof (minfo_method _ _ _ Hi1 Hi2) as M.
      destruct ci as [ct fs mr ur rg]. cbn [ci_type ci_marshal ci_unmarshal] in *. destruct ur as [r|].
      + destruct U as (id & g & Et & Eu & Dr). rewrite Et, Eu in Ht. destruct Ht as (Mr & f & Em & Inv).
        assert (Emr : mr = Some r). { destruct mr as [r'|]; [destruct M as (id' & f' & X & Y & _); rewrite Et in X; injection X as <-; rewrite Em in Y; injection Y as -> _; reflexivity|specialize (M id Et); congruence]. }
        subst mr. apply eget_ok in H; [|discriminate]. destruct H as (rinfo & Hr & H). apply dbind_ok in H. destruct H as (rv & m & er & R & H). apply slide_ok in H. destruct H as [L H].
        destruct er as [er|]; [discriminate|]. pose proof (gti_minfo _ _ _ _ Hs Hr) as Hir.
        apply eget_ok in H; [|discriminate]. destruct H as ([v' er] & Fr & H). cbn [fst snd] in H. inversion H; subst v' m er. clear H.
        rewrite Hi1, Et in Fr. unfold from_repr in Fr. rewrite Eu in Fr. destruct (Inv _ _ _ Fr) as [I1 I2].
        pose proof Mr as Mr'. rewrite <- Dr in Mr'. destruct (IH _ _ _ _ _ _ _ _ Hok Hir Mr' R) as (u & -> & D1 & D2 & D3 & [D4 _] & D5).
        assert (Hm2 : has_method env (deref_type t) = true) by (rewrite Et; unfold has_method; rewrite Em; reflexivity).
        assert (Wr : wrap_ptrs r u = u).
        { destruct r; try reflexivity. pose proof (deref_is_ptr (TPtr r)) as Q. rewrite Dr in Q. discriminate Q. }
        rewrite Wr in *. unfold done, solid. rewrite Hm2. splits; try lia; try assumption; try discriminate.
        unfold fits. split; [|intros X; rewrite Hm2 in X; discriminate X].
        intros j b Hb. destruct j as [|j]; [discriminate|]. apply encode_reflect_inv in Hb. cbn [ci_marshal ci_type] in Hb. destruct Hb as (w2 & ri2 & X1 & X2 & X3).
        rewrite Hr in X2. injection X2 as <-. rewrite Hi1, Et in X1. unfold to_repr in X1. rewrite Em, I2 in X1. apply EOk_inj in X1. subst w2.
        destruct (D4 _ _ X3) as [D|(Q1 & Q2 & Q3 & Q4)]; [left; exact D|right]. splits; try assumption; [|intros X; rewrite Hm2 in X; discriminate X].
        unfold payload. rewrite Hm2, Et, Eu. unfold payload in Q3. rewrite Dr in Q3. destruct (has_method env r); [reflexivity|]. exact Q3.
      + assert (Q : has_method env (deref_type t) = false /\ lean_plain env c mem hol (deref_type t)).
        { destruct (deref_type t) as [| | | | | | | | |id] eqn:Et; try (split; [reflexivity|exact Ht]). rewrite (U id eq_refl) in Ht. destruct Ht as [Ht1 Ht2]. split; [|exact Ht2].
          unfold has_method. rewrite Ht1, (U id eq_refl). reflexivity. }
        destruct Q as [Q1 Q2]. exact (Plain Q1 Q2 H).
    - pose proof Hi as [Hin Dt]. rewrite Dt in Ht. apply Plain; [rewrite Dt; reflexivity|rewrite Dt; exact Ht|exact H].
  Qed.

  (** ** Unmarshal, then Marshal *)
  Lemma relay_lean fd k bz t v0 v bz' : bytes_ok bz -> mem (deref_type t) = true -> payload env (deref_type t) = true -> struct_like env (deref_type t) = true ->
    unmarshal_bare fd env c bz t v0 = URet v None -> marshal_bare k env c t v = EOk bz' -> (length bz' <= length bz)%nat.
  Proof.
    intros Hok Hm Hp Hsl Hu Hw. rewrite unmarshal_eq in Hu. rewrite marshal_eq in Hw. destruct (get_type_info env c t) as [info| | |] eqn:Hg; try discriminate Hu.
    pose proof (gti_minfo _ _ _ _ Hs Hg) as Hi. destruct (struct_like_conc env c t info Hsl Hi) as [ci ->].
    assert (Q : forall b, bytes_ok b -> um_body env (fun b bare => decode_reflect fd env c b (TIConc ci) t v0 top_opts bare) (ti_type (TIConc ci)) t v0 b = URet v None ->
      exists w, v = wrap_ptrs t w /\ done (TIConc ci) t top_opts true b w (length b)).
    { intros b Hb H. unfold um_body in H. rewrite (minfo_type _ _ _ _ Hi), <- struct_like_eq, Hsl in H. cbn [negb andb] in H.
      unfold um_finish in H. destruct (decode_reflect _ _ _ _ _ _ _ _ _) as [u n [e|]| |] eqn:D; try discriminate H.
      destruct (n =? length b)%nat eqn:N; [|discriminate H]. inversion H; subst u. apply Nat.eqb_eq in N. subst n. eapply read_lean; eassumption. }
    assert (P : forall b, bytes_ok b -> (length (prefix_of (TIConc ci)) + length b <= length bz)%nat ->
      um_body env (fun b bare => decode_reflect fd env c b (TIConc ci) t v0 top_opts bare) (ti_type (TIConc ci)) t v0 b = URet v None -> (length bz' <= length bz)%nat).
    { intros b Hb L H. destruct (Q b Hb H) as (w & -> & D1 & _ & D3 & [D4 _] & _). rewrite under_wrap in Hw by exact D3. cbn [ebind] in Hw.
      rewrite (minfo_type _ _ _ _ Hi), Hsl in Hw. cbn [negb] in Hw. einv Hw. apply EOk_inj in Hw. subst bz'. rewrite app_length.
      destruct (D4 _ _ E) as [X|(_ & _ & X & _)]; [lia|]. rewrite Hp in X. discriminate X. }
    cbv zeta in Hu. destruct (ci_reg ci) as [r|] eqn:Er; [|apply (P bz); [exact Hok|cbn [prefix_of]; rewrite Er; cbn; lia|exact Hu]].
    destruct (Nat.ltb_spec (length bz) 4) as [|Lb]; [discriminate Hu|]. destruct (negb _); [discriminate Hu|].
    apply (P (skipn 4 bz)); [apply bytes_ok_skipn, Hok| |exact Hu]. cbn [prefix_of]. rewrite Er. destruct Hi as [_ Hi2]. destruct (reg_shape _ _ _ Hi2 Er) as (_ & L & _). rewrite L, skipn_length. lia.
  Qed.
  Lemma relay_lp_lean fd k bz t v0 v bz' : bytes_ok bz -> zlen bz < 2 ^ 63 -> mem (deref_type t) = true -> payload env (deref_type t) = true -> struct_like env (deref_type t) = true ->
    unmarshal_length_prefixed fd env c bz t v0 = URet v None -> marshal_length_prefixed k env c t v = EOk bz' -> (length bz' <= length bz)%nat.
  Proof.
    intros Hok Hz Hm Hp Hsl Hu Hw. unfold unmarshal_length_prefixed in Hu. destruct bz as [|x bz]; [discriminate Hu|]. set (bz0 := x :: bz) in *.
    destruct (uvarint bz0) as [u n] eqn:U. destruct (n <? 0) eqn:Nn; [discriminate|]. destruct (u64 (zlen bz0 - n) <? u) eqn:N1; [discriminate|]. destruct (u <? u64 (zlen bz0 - n)) eqn:N2; [discriminate|].
    pose proof (uvarint_count _ _ _ U) as C. unfold marshal_length_prefixed in Hw. einv Hw. apply EOk_inj in Hw. subst bz'.
    pose proof (relay_lean _ _ _ _ _ _ _ (bytes_ok_skipn (Z.to_nat n) bz0 Hok) Hm Hp Hsl Hu E) as L. rewrite skipn_length in L. rewrite app_length.
    assert (P0 : (0 < length bz0)%nat) by (cbn; lia).
    assert (D : n <> 0 -> decode_uvarint bz0 = DRet u (Z.to_nat n) None).
    { intros X. unfold decode_uvarint. rewrite U. destruct (Z.eqb_spec n 0); [contradiction|]. rewrite Nn. reflexivity. }
    assert (Hu64 : 0 <= zlen bz0 - n < 2 ^ 64 -> u = zlen bz0 - n) by (intros X; unfold u64, uwrap in *; rewrite Z.mod_small in * by lia; lia).
    assert (n <> 0 /\ n <= zlen bz0) as [Nz Nl].
    { unfold zlen in *. split; [|lia]. intros ->. specialize (Hu64 ltac:(lia)). lia. }
    specialize (D Nz). specialize (Hu64 ltac:(lia)). pose proof (uv_read _ _ _ (zlen a) Hok D ltac:(unfold zlen in *; lia)) as V. unfold zlen in *. lia.
  Qed.
End L.
