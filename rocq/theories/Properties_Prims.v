(** Property theorems about encoder.go / decoder.go (C01-C10). *)
From Coq Require Import ZArith String List Bool Lia.
From Coq Require Import ZifyBool ZifyNat.
From Verif Require Import Base Prims SpecWire PrimFacts PrimProps.
Import ListNotations.
Local Open Scope Z_scope.

(** C01 *)
Theorem C01_uvarint_roundtrip : forall u rest, 0 <= u < 2 ^ 64 ->
  decode_uvarint (encode_uvarint u ++ rest) = DRet u (length (encode_uvarint u)) None /\
  zlen (encode_uvarint u) = uvarint_size u /\
  1 <= uvarint_size u <= 10 /\
  leb128_min (encode_uvarint u) u.
Proof.
  intros u rest Hu.
  exact (conj (decode_uvarint_encode u rest Hu) (conj (encode_uvarint_length u Hu)
        (conj (uvarint_size_range u Hu) (encode_uvarint_leb u Hu)))).
Qed.
Example C01_example :
  encode_uvarint 300 = [172; 2] /\ decode_uvarint ([172; 2] ++ [7; 7]) = DRet 300 2 None /\
  encode_uvarint (2 ^ 64 - 1) = [255; 255; 255; 255; 255; 255; 255; 255; 255; 1].
Proof. vm_compute. auto. Qed.
Print Assumptions C01_uvarint_roundtrip.

(** C02 *)
Theorem C02_varint_roundtrip : forall i rest, - 2 ^ 63 <= i < 2 ^ 63 ->
  decode_varint (encode_varint i ++ rest) = DRet i (length (encode_varint i)) None /\
  zlen (encode_varint i) = varint_size i /\
  leb128_min (encode_varint i) (zigzag i).
Proof.
  intros i rest Hi. split; [exact (decode_varint_encode i rest Hi)|].
  split; [exact (varint_size_length i Hi)|].
  unfold encode_varint. rewrite (put_varint_u_zigzag i Hi).
  exact (encode_uvarint_leb _ (zigzag_range i Hi)).
Qed.
Example C02_example :
  encode_varint (-1) = [1] /\ encode_varint 1 = [2] /\ encode_varint (-65) = [129; 1] /\
  decode_varint (encode_varint (- 2 ^ 63)) = DRet (- 2 ^ 63) 10 None.
Proof. vm_compute. auto. Qed.
Print Assumptions C02_varint_roundtrip.

(** C03 *)
Theorem C03_narrow_never_truncates : forall bz v n,
  (decode_int8 bz = DRet v n None <-> decode_varint bz = DRet v n None /\ -128 <= v <= 127) /\
  (decode_int16 bz = DRet v n None <-> decode_varint bz = DRet v n None /\ -32768 <= v <= 32767) /\
  (decode_uint8 bz = DRet v n None <-> decode_uvarint bz = DRet v n None /\ 0 <= v <= 255) /\
  (decode_byte bz = DRet v n None <-> decode_uvarint bz = DRet v n None /\ 0 <= v <= 255) /\
  (decode_uint16 bz = DRet v n None <-> decode_uvarint bz = DRet v n None /\ 0 <= v <= 65535).
Proof.
  intros bz v n.
  exact (conj (decode_int8_iff bz v n) (conj (decode_int16_iff bz v n) (conj (decode_uint8_iff bz v n)
        (conj (decode_uint8_iff bz v n) (decode_uint16_iff bz v n))))).
Qed.
Theorem C03_narrow_roundtrip : forall v rest,
  (-128 <= v <= 127 -> decode_int8 (encode_int8 v ++ rest) = DRet v (length (encode_int8 v)) None) /\
  (-32768 <= v <= 32767 -> decode_int16 (encode_int16 v ++ rest) = DRet v (length (encode_int16 v)) None) /\
  (0 <= v <= 255 -> decode_uint8 (encode_uint8 v ++ rest) = DRet v (length (encode_uint8 v)) None) /\
  (0 <= v <= 255 -> decode_byte (encode_byte v ++ rest) = DRet v (length (encode_byte v)) None) /\
  (0 <= v <= 65535 -> decode_uint16 (encode_uint16 v ++ rest) = DRet v (length (encode_uint16 v)) None).
Proof.
  intros v rest; repeat split; intros H.
  - apply decode_int8_iff. split; [apply decode_varint_encode; lia | lia].
  - apply decode_int16_iff. split; [apply decode_varint_encode; lia | lia].
  - apply decode_uint8_iff. split; [apply decode_uvarint_encode; lia | lia].
  - apply decode_uint8_iff. split; [apply decode_uvarint_encode; lia | lia].
  - apply decode_uint16_iff. split; [apply decode_uvarint_encode; lia | lia].
Qed.
Example C03_example :
  decode_int8 (encode_varint (-128)) = DRet (-128) 2 None /\
  decode_int8 (encode_varint 128) = DRet 0 2 (Some "EOF decoding int8"%string) /\
  decode_uint8 [255; 1; 9] = DRet 255 2 None /\
  decode_uint8 [128; 2; 9] = DRet 0 2 (Some "EOF decoding uint8"%string).
Proof. vm_compute. auto. Qed.
Print Assumptions C03_narrow_never_truncates.
Print Assumptions C03_narrow_roundtrip.

(** C04: bytes are least-significant first ([val256]), and nothing else of the
    input matters. *)
Theorem C04_fixed_width : forall rest,
  (forall i, - 2 ^ 31 <= i < 2 ^ 31 ->
     length (encode_int32 i) = 4%nat /\ bytes_ok (encode_int32 i) /\ val256 (encode_int32 i) = i mod 2 ^ 32 /\
     decode_int32 (encode_int32 i ++ rest) = DRet i 4 None) /\
  (forall i, - 2 ^ 63 <= i < 2 ^ 63 ->
     length (encode_int64 i) = 8%nat /\ bytes_ok (encode_int64 i) /\ val256 (encode_int64 i) = i mod 2 ^ 64 /\
     decode_int64 (encode_int64 i ++ rest) = DRet i 8 None) /\
  (forall u, 0 <= u < 2 ^ 32 ->
     length (encode_uint32 u) = 4%nat /\ bytes_ok (encode_uint32 u) /\ val256 (encode_uint32 u) = u /\
     decode_uint32 (encode_uint32 u ++ rest) = DRet u 4 None /\
     decode_float32 (encode_float32 u ++ rest) = DRet u 4 None) /\
  (forall u, 0 <= u < 2 ^ 64 ->
     length (encode_uint64 u) = 8%nat /\ bytes_ok (encode_uint64 u) /\ val256 (encode_uint64 u) = u /\
     decode_uint64 (encode_uint64 u ++ rest) = DRet u 8 None /\
     decode_float64 (encode_float64 u ++ rest) = DRet u 8 None).
Proof.
  intros rest.
  assert (M32 : forall i, 0 <= i mod 2 ^ 32 < 256 ^ Z.of_nat 4) by (intros; apply Z.mod_pos_bound; lia).
  assert (M64 : forall i, 0 <= i mod 2 ^ 64 < 256 ^ Z.of_nat 8) by (intros; apply Z.mod_pos_bound; lia).
  splits; intros x Hx; splits;
    try apply put_le_length; try apply put_le_ok; try (apply put_le_val; try apply M32; try apply M64; assumption).
  - unfold decode_int32, encode_int32. rewrite decode_fixed_encode by apply M32.
    rewrite i32_u32 by assumption. reflexivity.
  - unfold decode_int64, encode_int64. rewrite decode_fixed_encode by apply M64.
    rewrite i64_u64 by assumption. reflexivity.
  - apply decode_fixed_encode. assumption.
  - apply decode_fixed_encode. assumption.
  - apply decode_fixed_encode. assumption.
  - apply decode_fixed_encode. assumption.
Qed.
Theorem C04_fixed_width_decode : forall bz, bytes_ok bz ->
  (forall v n, decode_int32 bz = DRet v n None <->
     (4 <= length bz)%nat /\ n = 4%nat /\ v = iwrap 32 (val256 (firstn 4 bz))) /\
  (forall v n, decode_int64 bz = DRet v n None <->
     (8 <= length bz)%nat /\ n = 8%nat /\ v = iwrap 64 (val256 (firstn 8 bz))) /\
  (forall v n, decode_uint32 bz = DRet v n None <->
     (4 <= length bz)%nat /\ n = 4%nat /\ v = val256 (firstn 4 bz)) /\
  (forall v n, decode_uint64 bz = DRet v n None <->
     (8 <= length bz)%nat /\ n = 8%nat /\ v = val256 (firstn 8 bz)) /\
  (forall v n, decode_float32 bz = DRet v n None <->
     (4 <= length bz)%nat /\ n = 4%nat /\ v = val256 (firstn 4 bz)) /\
  (forall v n, decode_float64 bz = DRet v n None <->
     (8 <= length bz)%nat /\ n = 8%nat /\ v = val256 (firstn 8 bz)) /\
  ((length bz < 4)%nat -> (exists e, decode_int32 bz = DRet 0 0 (Some e)) /\
     (exists e, decode_uint32 bz = DRet 0 0 (Some e)) /\ (exists e, decode_float32 bz = DRet 0 0 (Some e))) /\
  ((length bz < 8)%nat -> (exists e, decode_int64 bz = DRet 0 0 (Some e)) /\
     (exists e, decode_uint64 bz = DRet 0 0 (Some e)) /\ (exists e, decode_float64 bz = DRet 0 0 (Some e))).
Proof.
  intros bz Hok; splits; intros; splits;
    try (apply decode_fixed_iff; assumption); eexists; apply decode_fixed_short; assumption.
Qed.
Example C04_example :
  encode_int32 (-2) = [254; 255; 255; 255] /\ decode_int32 [254; 255; 255; 255; 1] = DRet (-2) 4 None /\
  encode_uint64 258 = [2; 1; 0; 0; 0; 0; 0; 0].
Proof. vm_compute. auto. Qed.
Print Assumptions C04_fixed_width.
Print Assumptions C04_fixed_width_decode.

(** C05 *)
Theorem C05_bool_strict : forall bz b n,
  (decode_bool bz = DRet b n None <-> n = 1%nat /\ exists rest, bz = encode_bool b ++ rest) /\
  encode_bool true = [1] /\ encode_bool false = [0].
Proof.
  intros bz b n. split; [|split; reflexivity]. split.
  - destruct bz as [|x bz]; cbn [decode_bool]; [discriminate|].
    destruct (x =? 0) eqn:E0; [intros H; inversion H; subst; split; [reflexivity|exists bz; cbn; f_equal; lia]|].
    destruct (x =? 1) eqn:E1; [|discriminate].
    intros H; inversion H; subst; split; [reflexivity|exists bz; cbn; f_equal; lia].
  - intros [-> [rest ->]]. destruct b; reflexivity.
Qed.
Example C05_example :
  decode_bool [1; 9] = DRet true 1 None /\ decode_bool [2] = DRet false 1 (Some "invalid bool"%string).
Proof. vm_compute. auto. Qed.
Print Assumptions C05_bool_strict.

(** C06 *)
Theorem C06_byte_slice_framing : forall b rest, zlen b < 2 ^ 63 ->
  encode_byte_slice b = encode_uvarint (zlen b) ++ b /\
  encode_string b = encode_byte_slice b /\
  zlen (encode_byte_slice b) = byte_slice_size b /\
  decode_byte_slice (encode_byte_slice b ++ rest) = DRet b (length (encode_byte_slice b)) None /\
  decode_string (encode_string b ++ rest) = DRet b (length (encode_string b)) None.
Proof.
  intros b rest Hb. splits; try reflexivity.
  - unfold encode_byte_slice, byte_slice_size. unfold zlen at 1. rewrite app_length, Nat2Z.inj_add.
    fold (zlen (encode_uvarint (zlen b))). rewrite encode_uvarint_length by (unfold zlen in *; lia). reflexivity.
  - apply decode_byte_slice_encode; assumption.
  - apply decode_byte_slice_encode; assumption.
Qed.
Theorem C06_byte_slice_bounded : forall bz b n e, decode_byte_slice bz = DRet b n e ->
  (n <= length bz)%nat /\ (length b <= length bz)%nat /\
  (e = None -> exists pre post, bz = pre ++ b ++ post /\ length (pre ++ b) = n /\
     exists u, decode_uvarint bz = DRet u (length pre) None /\ i64 u = zlen b) /\
  (e <> None -> b = []).
Proof.
  intros bz b n e H. destruct e as [e|].
  - assert (b = [] /\ (n <= length bz)%nat).
    { destruct (decode_byte_slice_ret bz) as (b' & n' & e' & H' & Hn). rewrite H in H'. inversion H'; subst.
      split; [|assumption]. clear H'. revert H. unfold decode_byte_slice.
      destruct (decode_uvarint_ret bz) as (u & m & e2 & -> & Hm). rewrite slide_le by assumption.
      destruct e2; [intros H; inversion H; reflexivity|].
      destruct (_ <? 0); [intros H; inversion H; reflexivity|].
      destruct (zlen _ <? _); [intros H; inversion H; reflexivity|discriminate]. }
    destruct H0 as [-> Hn]. splits; try assumption; try discriminate; try reflexivity. cbn; lia.
  - destruct (decode_byte_slice_some _ _ _ H) as (u & m & Hu & Hm & Hpos & Hn & Hlen & Hbz & Hle).
    splits; try assumption; try congruence.
    + lia.
    + intros _. exists (firstn m bz), (skipn n bz). splits; [assumption| |].
      * rewrite app_length, firstn_length. lia.
      * exists u. rewrite firstn_length. replace (Nat.min m (length bz)) with m by lia. split; assumption.
Qed.
Example C06_example :
  encode_byte_slice [65; 66] = [2; 65; 66] /\
  decode_byte_slice [2; 65; 66; 67] = DRet [65; 66] 3 None /\
  decode_byte_slice [5; 65; 66; 67] = DRet [] 1 (Some "insufficient bytes decoding []byte"%string) /\
  decode_byte_slice [255; 255; 255; 255; 255; 255; 255; 255; 255; 1] =
    DRet [] 10 (Some "invalid negative length decoding []byte"%string).
Proof. vm_compute. auto. Qed.
Print Assumptions C06_byte_slice_framing.
Print Assumptions C06_byte_slice_bounded.

(** C07: instants from 0001-01-01 to 9999-12-31, in seconds since 1970. *)
Definition year1 : Z := -62135596800.
Definition year10000 : Z := 253402300800.
Theorem C07_time_roundtrip : forall s ns, - 2 ^ 63 <= s < 2 ^ 63 -> 0 <= ns <= 999999999 ->
  (year1 <= s < year10000 ->
     exists bz, encode_time s ns = EOk (bz, None) /\ bytes_ok bz /\ decode_time bz = DRet (s, ns) (length bz) None) /\
  (~ (year1 <= s < year10000) -> exists e, encode_time s ns = EOk ([], Some e)).
Proof.
  intros s ns Hs Hns. split.
  - intros Hr. assert (Hok : time_ok s ns) by (split; [exact Hr | exact Hns]).
    pose proof (encode_time_ok s ns Hok) as He. eexists. split; [exact He|].
    split; [|exact (decode_time_encode s ns _ Hok He)].
    apply bytes_ok_app. split.
    + destruct (s =? 0); [constructor|]. apply bytes_ok_app. split; apply encode_uvarint_ok; [lia|apply u64_range].
    + destruct (ns =? 0); [constructor|]. apply bytes_ok_app. split; apply encode_uvarint_ok; lia.
  - intros Hr. exists "invalid time: seconds"%string. apply encode_time_bad_seconds. exact Hr.
Qed.
Theorem C07_time_decode_range : forall bz, bytes_ok bz ->
  exists s ns n e, decode_time bz = DRet (s, ns) n e /\ (n <= length bz)%nat /\
    year1 <= s < year10000 /\ 0 <= ns <= 999999999.
Proof.
  intros bz Hok. destruct (decode_time_ret bz Hok) as (s & ns & n & e & H & Hn & [Hs Hns]).
  exists s, ns, n, e. splits; try assumption; [exact (proj1 Hs)|exact (proj2 Hs)|exact (proj1 Hns)|exact (proj2 Hns)].
Qed.
Theorem C07_time_encoding_injective : forall s ns s' ns' bz,
  year1 <= s < year10000 -> year1 <= s' < year10000 -> 0 <= ns <= 999999999 -> 0 <= ns' <= 999999999 ->
  encode_time s ns = EOk (bz, None) -> encode_time s' ns' = EOk (bz, None) -> s = s' /\ ns = ns'.
Proof.
  intros s ns s' ns' bz Hs Hs' Hns Hns' H H'.
  pose proof (decode_time_encode s ns bz (conj Hs Hns) H) as D.
  pose proof (decode_time_encode s' ns' bz (conj Hs' Hns') H') as D'.
  rewrite D in D'. injection D' as -> ->. split; reflexivity.
Qed.
Example C07_example :
  encode_time 1577836800 5 = EOk ([8; 128; 194; 175; 240; 5; 16; 5], None) /\
  decode_time [8; 128; 194; 175; 240; 5; 16; 5] = DRet (1577836800, 5) 8 None /\
  decode_time [16; 5] = DRet (0, 5) 2 None /\
  encode_time 0 0 = EOk ([], None).
Proof. vm_compute. auto. Qed.
Print Assumptions C07_time_roundtrip.
Print Assumptions C07_time_decode_range.
Print Assumptions C07_time_encoding_injective.

(** C08 *)
Theorem C08_primitive_decoders_well_behaved :
  well_behaved decode_uvarint /\ well_behaved decode_varint /\
  well_behaved decode_int8 /\ well_behaved decode_int16 /\ well_behaved decode_int32 /\
  well_behaved decode_int64 /\ well_behaved decode_byte /\ well_behaved decode_uint8 /\
  well_behaved decode_uint16 /\ well_behaved decode_uint32 /\ well_behaved decode_uint64 /\
  well_behaved decode_float32 /\ well_behaved decode_float64 /\ well_behaved decode_bool /\
  well_behaved decode_byte_slice /\ well_behaved decode_string.
Proof.
  pose proof wb_uvarint as U. pose proof wb_varint as V.
  splits; try assumption; try exact wb_bool; try exact wb_byte_slice;
    try (apply wb_fixed; lia); try exact (wb_narrow _ _ _ _ _ U); exact (wb_narrow _ _ _ _ _ V).
Qed.
(** DecodeTime: total and within the input; zero bytes are a valid time. *)
Theorem C08_decode_time_total : forall bz, bytes_ok bz ->
  exists t n e, decode_time bz = DRet t n e /\ (n <= length bz)%nat.
Proof.
  intros bz Hok. destruct (decode_time_ret bz Hok) as (s & ns & n & e & H & Hn & _).
  exists (s, ns), n, e. split; assumption.
Qed.
(** DecodeTime reads optional fields to the end of what it is given, so it is
    the one decoder whose result depends on the bytes that follow. *)
Theorem C08_decode_time_extension_refuted : exists bz rest t t' n n',
  decode_time bz = DRet t n None /\ decode_time (bz ++ rest) = DRet t' n' None /\ t <> t'.
Proof. exists [8; 1], [16; 5], (1, 0), (1, 5), 2%nat, 4%nat. vm_compute. repeat split; discriminate. Qed.
Example C08_example :
  decode_uvarint [128; 128; 128; 128; 128; 128; 128; 128; 128; 2; 5]
    = DRet 0 10 (Some "EOF decoding uvarint"%string) /\
  decode_uvarint [128; 128] = DRet 0 0 (Some "buffer too small"%string).
Proof. vm_compute. auto. Qed.
Print Assumptions C08_primitive_decoders_well_behaved.
Print Assumptions C08_decode_time_total.
Print Assumptions C08_decode_time_extension_refuted.

(** C09 *)
Theorem C09_uvarint_shortest : forall bz u n, bytes_ok bz -> decode_uvarint bz = DRet u n None ->
  leb128 (firstn n bz) u /\ 0 <= u < 2 ^ 64 /\ (n <= 10)%nat /\
  (length (encode_uvarint u) <= n)%nat /\
  (length (encode_uvarint u) = n -> firstn n bz = encode_uvarint u).
Proof.
  intros bz u n Hok H. destruct (decode_uvarint_minimal bz u n Hok H) as (A & B & C).
  splits; try assumption; try (apply (decode_uvarint_range bz u n Hok H)).
  destruct (decode_uvarint_inv bz u n Hok H) as (ds & last & rest & _ & _ & _ & L & _ & _ & ->). lia.
Qed.
(** ... and every base-128 representation of at most ten bytes is accepted. *)
Theorem C09_uvarint_accepts_all : forall bz rest u, leb128 bz u -> 0 <= u < 2 ^ 64 -> (length bz <= 10)%nat ->
  decode_uvarint (bz ++ rest) = DRet u (length bz) None.
Proof. exact decode_uvarint_leb. Qed.
(** So the decoder is malleable: distinct inputs, same value, all consumed. *)
Theorem C09_canonical_refuted : exists a b u,
  a <> b /\ decode_uvarint a = DRet u (length a) None /\ decode_uvarint b = DRet u (length b) None.
Proof. exists [5], [133; 0], 5. vm_compute. split; [discriminate|auto]. Qed.
(** Both versions of Go's binary.Uvarint accept the same strings with the same result. *)
Theorem C09_go112_uvarint_agrees : forall bz u n, 0 < n -> (uvarint bz = (u, n) <-> uvarint112 bz = (u, n)).
Proof.
  intros bz u n Hn. split; intros H.
  - apply uvarint112_agree_loop; [lia|exact H|exact Hn].
  - apply (uvarint112_agree_loop' bz 0 0 0 u n H). exact Hn.
Qed.
Example C09_example : decode_uvarint [172; 130; 0] = DRet 300 3 None /\ encode_uvarint 300 = [172; 2].
Proof. vm_compute. auto. Qed.
Print Assumptions C09_uvarint_shortest.
Print Assumptions C09_uvarint_accepts_all.
Print Assumptions C09_canonical_refuted.
Print Assumptions C09_go112_uvarint_agrees.

(** C10 *)
Theorem C10_field_key_roundtrip : forall num typ rest, 0 <= num < 2 ^ 29 -> 0 <= typ < 8 ->
  exists k, encode_field_key num typ = EOk k /\ leb128_min k (num * 8 + typ) /\
    decode_field_key (k ++ rest) = DRet (num, typ) (length k) None.
Proof.
  intros num typ rest Hn Ht. exists (key_bytes num typ). split; [exact (encode_field_key_ok num typ Hn Ht)|].
  split; [apply encode_uvarint_leb; lia | exact (decode_field_key_encode num typ rest Hn Ht)].
Qed.
Theorem C10_field_key_injective : forall num typ num' typ' k,
  0 <= num < 2 ^ 29 -> 0 <= typ < 8 -> 0 <= num' < 2 ^ 29 -> 0 <= typ' < 8 ->
  encode_field_key num typ = EOk k -> encode_field_key num' typ' = EOk k -> num = num' /\ typ = typ'.
Proof.
  intros num typ num' typ' k Hn Ht Hn' Ht' H H'.
  rewrite encode_field_key_ok in H by assumption. rewrite encode_field_key_ok in H' by assumption.
  assert (E : encode_uvarint (num * 8 + typ) = encode_uvarint (num' * 8 + typ')) by congruence.
  pose proof (decode_field_key_encode num typ [] Hn Ht) as D.
  pose proof (decode_field_key_encode num' typ' [] Hn' Ht') as D'.
  unfold key_bytes in *. rewrite E in D. rewrite D in D'. injection D' as -> ->. split; reflexivity.
Qed.
Theorem C10_field_key_decode : forall bz num typ n, bytes_ok bz ->
  (decode_field_key bz = DRet (num, typ) n None <->
   0 <= num < 2 ^ 29 /\ 0 <= typ < 8 /\ decode_uvarint bz = DRet (num * 8 + typ) n None).
Proof.
  intros bz num typ n Hok. split.
  - intros H. destruct (decode_field_key_some _ _ _ _ Hok H) as (A & B & C). splits; try assumption; lia.
  - intros (A & B & C). exact (decode_field_key_of _ _ _ _ A B C).
Qed.
Theorem C10_field_key_bad : forall num typ, 0 <= typ < 256 -> 0 <= num < 2 ^ 32 ->
  ~ (num < 2 ^ 29 /\ typ < 8) -> exists p, encode_field_key num typ = EPanic p.
Proof.
  intros num typ Ht Hn H. unfold encode_field_key.
  destruct (Z.land typ 248 =? 0) eqn:E; cbn [negb]; [|eexists; reflexivity].
  destruct (_ <? num) eqn:E2; [eexists; reflexivity|]. exfalso.
  assert (typ < 8); [|lia].
  assert (E' : Z.land typ 248 = 0) by lia.
  assert (D : Z.land typ 255 = typ) by (change 255 with (Z.ones 8); rewrite Z.land_ones by lia; apply Z.mod_small; lia).
  change 255 with (Z.lor 7 248) in D. rewrite Z.land_lor_distr_r, E', Z.lor_0_r in D.
  rewrite land_7 in D. pose proof (Z.mod_pos_bound typ 8). lia.
Qed.
Example C10_example :
  encode_field_key 1 2 = EOk [10] /\ decode_field_key [10; 3] = DRet (1, 2) 1 None /\
  encode_field_key 16 0 = EOk [128; 1].
Proof. vm_compute. auto. Qed.
Print Assumptions C10_field_key_roundtrip.
Print Assumptions C10_field_key_injective.
Print Assumptions C10_field_key_decode.
Print Assumptions C10_field_key_bad.
