(** Facts about the primitive encoders and decoders. *)
From Coq Require Import ZArith String List Bool Lia.
From Coq Require Import ZifyBool ZifyNat.
From Verif Require Import Base Prims SpecWire.
Import ListNotations.
Local Open Scope Z_scope.
Ltac Zify.zify_post_hook ::= Z.div_mod_to_equations.

Ltac splits := repeat match goal with |- _ /\ _ => split end.

(** ** Arithmetic *)

Lemma pow2_pos s : 0 <= s -> 0 < 2 ^ s.
Proof. intros; apply Z.pow_pos_nonneg; lia. Qed.

Lemma lor_disjoint x y s : 0 <= s -> 0 <= x < 2 ^ s -> Z.lor x (y * 2 ^ s) = x + y * 2 ^ s.
Proof.
  intros Hs Hx.
  assert (Hl : Z.land x (y * 2 ^ s) = 0).
  { apply Z.bits_inj'. intros k Hk. rewrite Z.land_spec, Z.bits_0.
    rewrite <- Z.shiftl_mul_pow2 by lia.
    destruct (Z_lt_le_dec k s).
    - rewrite Z.shiftl_spec_low by lia. apply andb_false_r.
    - destruct (Z.eq_dec x 0) as [-> | Hn]; [ rewrite Z.bits_0; reflexivity |].
      rewrite (Z.bits_above_log2 x k); [reflexivity | lia |].
      apply Z.log2_lt_pow2; [lia|]. apply Z.lt_le_trans with (2 ^ s); [lia|].
      apply Z.pow_le_mono_r; lia. }
  rewrite Z.add_nocarry_lxor by exact Hl. rewrite Z.lxor_lor by exact Hl. reflexivity.
Qed.

Lemma land_127 b : Z.land b 127 = b mod 128.
Proof. change 127 with (Z.ones 7). rewrite Z.land_ones by lia. reflexivity. Qed.

Lemma u64_small z : 0 <= z < 2 ^ 64 -> u64 z = z.
Proof. intros. unfold u64, uwrap. apply Z.mod_small; lia. Qed.
Lemma u64_range z : 0 <= u64 z < 2 ^ 64.
Proof. unfold u64, uwrap. apply Z.mod_pos_bound. lia. Qed.
Lemma u32_small z : 0 <= z < 2 ^ 32 -> u32 z = z.
Proof. intros. unfold u32, uwrap. apply Z.mod_small; lia. Qed.

Lemma iwrap_range w z : 0 < w -> - 2 ^ (w - 1) <= iwrap w z < 2 ^ (w - 1).
Proof.
  intros Hw. unfold iwrap. pose proof (pow2_pos (w - 1)).
  assert (2 ^ w = 2 * 2 ^ (w - 1)) by (rewrite <- Z.pow_succ_r by lia; f_equal; lia).
  pose proof (Z.mod_pos_bound z (2 ^ w)).
  destruct (z mod 2 ^ w <? 2 ^ (w - 1)) eqn:E; lia.
Qed.

Lemma iwrap_uwrap w z : 0 < w -> - 2 ^ (w - 1) <= z < 2 ^ (w - 1) -> iwrap w (uwrap w z) = z.
Proof.
  intros Hw Hz. unfold iwrap, uwrap.
  assert (2 ^ w = 2 * 2 ^ (w - 1)) by (rewrite <- Z.pow_succ_r by lia; f_equal; lia).
  rewrite Z.mod_mod by (pose proof (pow2_pos w); lia).
  destruct (Z_lt_le_dec z 0).
  - replace (z mod 2 ^ w) with (z + 2 ^ w).
    2: { symmetry. rewrite <- (Z.mod_small (z + 2 ^ w) (2 ^ w)) by lia.
         rewrite <- Z.add_mod_idemp_r, Z.mod_same by lia. rewrite Z.add_0_r.
         reflexivity. }
    destruct (_ <? _) eqn:E; lia.
  - rewrite Z.mod_small by lia. destruct (_ <? _) eqn:E; lia.
Qed.

Lemma iwrap_small w z : 0 < w -> - 2 ^ (w - 1) <= z < 2 ^ (w - 1) -> iwrap w z = z.
Proof.
  intros Hw Hz. rewrite <- (iwrap_uwrap w z) at 2 by assumption.
  unfold iwrap, uwrap. rewrite Z.mod_mod by (pose proof (pow2_pos w); lia). reflexivity.
Qed.

Lemma i64_u64 z : - 2 ^ 63 <= z < 2 ^ 63 -> i64 (u64 z) = z.
Proof. intros. apply iwrap_uwrap; [lia | exact H]. Qed.
Lemma i64_small z : - 2 ^ 63 <= z < 2 ^ 63 -> i64 z = z.
Proof. intros. apply iwrap_small; [lia | exact H]. Qed.
Lemma i32_small z : - 2 ^ 31 <= z < 2 ^ 31 -> i32 z = z.
Proof. intros. apply iwrap_small; [lia | exact H]. Qed.
Lemma i32_u32 z : - 2 ^ 31 <= z < 2 ^ 31 -> i32 (u32 z) = z.
Proof. intros. apply iwrap_uwrap; [lia | exact H]. Qed.
Lemma i64_neg z : 2 ^ 63 <= z < 2 ^ 64 -> i64 z = z - 2 ^ 64.
Proof. intros. unfold i64, iwrap. rewrite Z.mod_small by lia. destruct (_ <? _) eqn:E; lia. Qed.
Lemma u64_neg z : - 2 ^ 64 <= z < 0 -> u64 z = z + 2 ^ 64.
Proof.
  intros. unfold u64, uwrap. rewrite <- (Z.mod_small (z + 2 ^ 64) (2 ^ 64)) by lia.
  rewrite <- Z.add_mod_idemp_r, Z.mod_same, Z.add_0_r by lia. reflexivity.
Qed.
Lemma u64_i64 z : 0 <= z < 2 ^ 64 -> u64 (i64 z) = z.
Proof.
  intros. destruct (Z_lt_le_dec z (2 ^ 63)).
  - rewrite i64_small by lia. apply u64_small; lia.
  - rewrite i64_neg, u64_neg by lia. lia.
Qed.

(** ** base-128 digits *)

Lemma val128_app a b : val128 (a ++ b) = val128 a + 128 ^ zlen a * val128 b.
Proof.
  unfold zlen. induction a as [|d a IH].
  - cbn [app val128 length]. change (Z.of_nat 0) with 0. rewrite Z.pow_0_r. lia.
  - cbn [app val128 length]. rewrite IH, Nat2Z.inj_succ, Z.pow_succ_r by lia. lia.
Qed.

Lemma val128_bound ds : Forall digit128 ds -> 0 <= val128 ds < 128 ^ zlen ds.
Proof.
  unfold zlen. induction 1 as [|d ds Hd Hds IH].
  - cbn. lia.
  - cbn [val128 length]. rewrite Nat2Z.inj_succ, Z.pow_succ_r by lia.
    unfold digit128 in Hd. lia.
Qed.

Lemma pow128 n : 0 <= n -> 128 ^ n = 2 ^ (7 * n).
Proof. intros. change 128 with (2 ^ 7). rewrite <- Z.pow_mul_r by lia. reflexivity. Qed.

Definition contb (d : Z) : Z := d + 128.

(** The decoding loop on well-formed digits. *)
Lemma uvarint_loop_digits ds last rest : forall i x s,
  Forall digit128 ds -> digit128 last ->
  s = 7 * Z.of_nat i -> 0 <= x < 2 ^ s ->
  (i + length ds <= 9)%nat -> ((i + length ds = 9)%nat -> last <= 1) ->
  uvarint_loop (map contb ds ++ last :: rest) i x s
  = (x + 2 ^ s * val128 (ds ++ [last]), Z.of_nat (i + length ds + 1)).
Proof.
  induction ds as [|d ds IH]; intros i x s Hds Hl Hs Hx Hi H9.
  - cbn [map app length uvarint_loop val128 List.app] in *.
    destruct (i =? 10)%nat eqn:E10; [lia|].
    unfold digit128 in Hl. destruct (last <? 128) eqn:E; [|lia].
    destruct ((i =? 9)%nat && (1 <? last)) eqn:E9; [lia|].
    f_equal; [|lia].
    rewrite Z.shiftl_mul_pow2 by lia.
    rewrite u64_small.
    + rewrite lor_disjoint by lia. lia.
    + pose proof (pow2_pos s). split; [lia|].
      destruct (Nat.eq_dec i 9) as [->|Hn].
      * assert (last <= 1) by (apply H9; lia). subst s. change (7 * Z.of_nat 9) with 63 in *. lia.
      * assert (s <= 56) by lia. assert (2 ^ s <= 2 ^ 56) by (apply Z.pow_le_mono_r; lia).
        replace (2 ^ 64) with (256 * 2 ^ 56) by reflexivity. nia.
  - inversion Hds as [|? ? Hd Hds']; subst.
    cbn [map app length] in *. cbn [uvarint_loop].
    destruct (i =? 10)%nat eqn:E10; [lia|].
    unfold digit128 in Hd.
    destruct (contb d <? 128) eqn:E; [unfold contb in E; lia|].
    rewrite land_127. replace (contb d mod 128) with d by (unfold contb; lia).
    set (s := 7 * Z.of_nat i) in *.
    rewrite Z.shiftl_mul_pow2 by lia.
    pose proof (pow2_pos s). assert (s <= 56) by lia.
    assert (2 ^ s <= 2 ^ 56) by (apply Z.pow_le_mono_r; lia).
    rewrite u64_small. 2: { replace (2 ^ 64) with (256 * 2 ^ 56) by reflexivity. nia. }
    rewrite lor_disjoint by lia.
    assert (Hs7 : 2 ^ (s + 7) = 128 * 2 ^ s) by (rewrite Z.pow_add_r by lia; lia).
    rewrite IH; [ | assumption | assumption | lia | rewrite Hs7; nia | lia | intros; apply H9; lia ].
    cbn [val128]. rewrite Hs7. f_equal; [ring | lia].
Qed.

(** ... and conversely: what a positive count means. *)
Lemma uvarint_loop_inv bz : forall i x s u n,
  bytes_ok bz -> s = 7 * Z.of_nat i -> 0 <= x < 2 ^ s -> (i <= 10)%nat ->
  uvarint_loop bz i x s = (u, n) -> 0 < n ->
  exists ds last rest,
    bz = map contb ds ++ last :: rest /\ Forall digit128 ds /\ digit128 last /\
    (i + length ds <= 9)%nat /\ ((i + length ds = 9)%nat -> last <= 1) /\
    u = x + 2 ^ s * val128 (ds ++ [last]) /\ n = Z.of_nat (i + length ds + 1).
Proof.
  induction bz as [|b bz IH]; intros i x s u n Hok Hs Hx Hi H Hn.
  - cbn in H. inversion H; lia.
  - pose proof (Forall_inv Hok) as Hb. pose proof (Forall_inv_tail Hok) as Hok'. cbn beta in Hb.
    pose proof H as H0. cbn [uvarint_loop] in H.
    destruct (i =? 10)%nat eqn:E10; [inversion H; lia|].
    destruct (b <? 128) eqn:Eb.
    + destruct ((i =? 9)%nat && (1 <? b)) eqn:E9; [inversion H; lia|].
      exists [], b, bz. cbn [map app length].
      assert (Hd : digit128 b) by (unfold digit128; lia).
      split; [reflexivity|]. split; [constructor|]. split; [exact Hd|].
      assert (Hi9 : (i + 0 <= 9)%nat) by lia.
      assert (H9 : (i + 0 = 9)%nat -> b <= 1) by lia.
      split; [exact Hi9|]. split; [exact H9|].
      pose proof (uvarint_loop_digits [] b bz i x s (Forall_nil _) Hd Hs Hx Hi9 H9) as HD.
      cbn [map app length] in HD. rewrite HD in H0. inversion H0; subst. split; reflexivity.
    + destruct (Nat.eq_dec i 9) as [->|Hne].
      { exfalso. destruct bz as [|b' bz']; cbn [uvarint_loop] in H; [inversion H; lia|].
        destruct (10 =? 10)%nat eqn:E; [inversion H; lia | lia]. }
      rewrite land_127 in H.
      assert (Hd : digit128 (b - 128)) by (unfold digit128; lia).
      replace (b mod 128) with (b - 128) in H by lia.
      rewrite Z.shiftl_mul_pow2 in H by lia.
      pose proof (pow2_pos s). assert (s <= 56) by lia.
      assert (2 ^ s <= 2 ^ 56) by (apply Z.pow_le_mono_r; lia).
      rewrite u64_small in H. 2: { replace (2 ^ 64) with (256 * 2 ^ 56) by reflexivity. nia. }
      rewrite lor_disjoint in H by lia.
      assert (Hs7 : 2 ^ (s + 7) = 128 * 2 ^ s) by (rewrite Z.pow_add_r by lia; lia).
      apply IH in H; [ | assumption | lia | rewrite Hs7; nia | lia | assumption].
      destruct H as (ds & last & rest & -> & Hds & Hl & Hi9 & H9 & -> & ->).
      exists ((b - 128) :: ds), last, rest. cbn [map app length].
      split; [unfold contb at 2; f_equal; lia|].
      split; [constructor; assumption|]. split; [assumption|].
      split; [lia|]. split; [intros; apply H9; lia|].
      split; [rewrite Hs7; cbn [val128 List.app]; lia | lia].
Qed.

Lemma uvarint_digits ds last rest :
  Forall digit128 ds -> digit128 last -> (length ds <= 9)%nat ->
  (length ds = 9%nat -> last <= 1) ->
  uvarint (map contb ds ++ last :: rest) = (val128 (ds ++ [last]), Z.of_nat (length ds) + 1).
Proof.
  intros. unfold uvarint. rewrite uvarint_loop_digits; try assumption; try lia.
  f_equal; lia.
Qed.

Lemma uvarint_inv bz u n :
  bytes_ok bz -> uvarint bz = (u, n) -> 0 < n ->
  exists ds last rest,
    bz = map contb ds ++ last :: rest /\ Forall digit128 ds /\ digit128 last /\
    (length ds <= 9)%nat /\ (length ds = 9%nat -> last <= 1) /\
    u = val128 (ds ++ [last]) /\ n = Z.of_nat (length ds) + 1.
Proof.
  intros Hok H Hn. apply uvarint_loop_inv in H; try assumption; try lia.
  destruct H as (ds & last & rest & -> & ? & ? & ? & ? & -> & ->).
  exists ds, last, rest. splits; try reflexivity; try assumption; lia.
Qed.

(** Sign and size of the count, on every input. *)
Lemma uvarint_loop_count bz : forall i x s u n,
  (i <= 10)%nat -> uvarint_loop bz i x s = (u, n) ->
  (n = 0 /\ u = 0) \/ (n < 0 /\ u = 0 /\ Z.of_nat i < - n <= Z.of_nat (i + length bz)) \/
  (Z.of_nat i < n <= Z.of_nat (i + length bz)).
Proof.
  induction bz as [|b bz IH]; intros i x s u n Hi H; cbn [uvarint_loop length] in *.
  - inversion H; lia.
  - destruct (i =? 10)%nat eqn:E10; [inversion H; lia|].
    destruct (b <? 128).
    + destruct (_ && _); inversion H; lia.
    + apply IH in H; [|lia]. destruct H as [H|[H|H]]; lia.
Qed.

Lemma uvarint_count bz u n : uvarint bz = (u, n) ->
  (n = 0 /\ u = 0) \/ (n < 0 /\ u = 0 /\ - n <= zlen bz) \/ (0 < n <= zlen bz).
Proof.
  intros H. apply uvarint_loop_count in H; [|lia]. unfold zlen. lia.
Qed.

(** ** The encoder *)

Lemma lor_128 x : Z.lor (x mod 256) 128 = x mod 128 + 128.
Proof.
  assert (D : forall y, 0 <= y < 128 -> Z.lor y 128 = y + 128).
  { intros y Hy. exact (lor_disjoint y 1 7 ltac:(lia) Hy). }
  destruct (Z_lt_le_dec (x mod 256) 128).
  - rewrite D by lia. lia.
  - replace (x mod 256) with (Z.lor (x mod 128) 128) by (rewrite D; lia).
    rewrite <- Z.lor_assoc, Z.lor_diag. apply D. lia.
Qed.

Lemma put_uvarint_digits k : forall x,
  0 <= x < 128 ^ Z.of_nat (S k) ->
  exists ds last,
    put_uvarint (S k) x = map contb ds ++ [last] /\ Forall digit128 ds /\ digit128 last /\
    val128 (ds ++ [last]) = x /\ (ds = [] \/ last <> 0) /\ (length ds <= k)%nat.
Proof.
  induction k as [|k IH]; intros x Hx; cbn [put_uvarint]; destruct (x <? 128) eqn:E.
  - exists [], x. cbn [map app val128 length]. unfold digit128.
    splits; try lia; try constructor; reflexivity.
  - change (128 ^ Z.of_nat 1) with 128 in Hx. lia.
  - exists [], x. cbn [map app val128 length]. unfold digit128.
    splits; try lia; try constructor; reflexivity.
  - rewrite Nat2Z.inj_succ, Z.pow_succ_r in Hx by lia.
    rewrite Z.shiftr_div_pow2 by lia. change (2 ^ 7) with 128.
    destruct (IH (x / 128)) as (ds & last & Heq & Hds & Hl & Hv & Hmin & Hlen); [lia|].
    exists (x mod 128 :: ds), last. cbn [put_uvarint] in Heq. rewrite Heq. cbn [map app val128 length].
    splits.
    + rewrite lor_128. reflexivity.
    + constructor; [unfold digit128; lia | assumption].
    + assumption.
    + rewrite Hv. lia.
    + right. destruct Hmin as [-> | ?]; [|assumption]. cbn in Hv. lia.
    + lia.
Qed.

Lemma encode_uvarint_digits u : 0 <= u < 2 ^ 64 ->
  exists ds last,
    encode_uvarint u = map contb ds ++ [last] /\ Forall digit128 ds /\ digit128 last /\
    val128 (ds ++ [last]) = u /\ (ds = [] \/ last <> 0) /\ (length ds <= 9)%nat /\
    (length ds = 9%nat -> last <= 1).
Proof.
  intros Hu. destruct (put_uvarint_digits 9 u) as (ds & last & Heq & Hds & Hl & Hv & Hm & Hlen).
  { split; [lia|]. apply Z.lt_le_trans with (2 ^ 64); [lia|]. vm_compute. discriminate. }
  exists ds, last. splits; try assumption; try lia.
  intros H9. rewrite val128_app in Hv. unfold zlen in Hv. rewrite H9 in Hv. cbn [val128] in Hv.
  pose proof (val128_bound ds Hds).
  change (128 ^ Z.of_nat 9) with (2 ^ 63) in Hv. lia.
Qed.

Lemma encode_uvarint_length u : 0 <= u < 2 ^ 64 ->
  zlen (encode_uvarint u) = uvarint_size u.
Proof.
  intros Hu. destruct (encode_uvarint_digits u Hu) as (ds & last & Heq & Hds & Hl & Hv & Hm & _).
  rewrite Heq. unfold zlen. rewrite app_length, map_length. cbn [length].
  unfold uvarint_size. destruct (u =? 0) eqn:E.
  - destruct Hm as [-> | Hn]; [reflexivity|]. exfalso.
    rewrite val128_app in Hv. cbn [val128] in Hv. pose proof (val128_bound ds Hds).
    unfold digit128 in Hl. assert (0 < 128 ^ zlen ds) by (apply Z.pow_pos_nonneg; unfold zlen; lia).
    nia.
  - unfold len64. rewrite E.
    rewrite val128_app in Hv. cbn [val128] in Hv. pose proof (val128_bound ds Hds) as Hb.
    unfold digit128 in Hl. assert (Hz : 0 <= zlen ds) by (unfold zlen; lia).
    assert (Hp : 0 < 128 ^ zlen ds) by (apply Z.pow_pos_nonneg; lia).
    assert (Hlast : last <> 0) by (destruct Hm as [-> | ?]; [change (128 ^ zlen (@nil Z)) with 1 in Hv; cbn [val128] in Hv; lia | assumption]).
    assert (Hb2 : 128 ^ zlen ds <= u < 128 ^ zlen ds * 128).
    { revert Hv Hb Hp Hl Hlast. generalize (128 ^ zlen ds), (val128 ds). clear. intros P v Hv Hb Hp Hl Hlast.
      subst u. nia. }
    destruct Hb2 as [Hlow Hhigh].
    rewrite pow128 in Hlow, Hhigh by lia.
    change 128 with (2 ^ 7) in Hhigh. rewrite <- Z.pow_add_r in Hhigh by lia.
    apply Z.log2_le_pow2 in Hlow; [|lia]. apply Z.log2_lt_pow2 in Hhigh; [|lia].
    replace (Z.of_nat (length ds + 1)) with (zlen ds + 1) by (unfold zlen; lia).
    lia.
Qed.

Lemma bytes_ok_app a b : bytes_ok (a ++ b) <-> bytes_ok a /\ bytes_ok b.
Proof. unfold bytes_ok. apply Forall_app. Qed.

Lemma bytes_ok_digits ds last : Forall digit128 ds -> digit128 last -> bytes_ok (map contb ds ++ [last]).
Proof.
  intros Hds Hl. apply bytes_ok_app. split.
  - unfold bytes_ok. apply Forall_map. eapply Forall_impl; [|exact Hds].
    intros a Ha. unfold digit128, contb in *. lia.
  - constructor; [unfold digit128 in Hl; lia|constructor].
Qed.

Lemma encode_uvarint_ok u : 0 <= u < 2 ^ 64 -> bytes_ok (encode_uvarint u).
Proof.
  intros Hu. destruct (encode_uvarint_digits u Hu) as (ds & last & Heq & Hds & Hl & _).
  rewrite Heq. apply bytes_ok_digits; assumption.
Qed.

(** ** Round trips *)

Lemma uvarint_encode u rest : 0 <= u < 2 ^ 64 ->
  uvarint (encode_uvarint u ++ rest) = (u, zlen (encode_uvarint u)).
Proof.
  intros Hu. destruct (encode_uvarint_digits u Hu) as (ds & last & Heq & Hds & Hl & Hv & _ & Hlen & H9).
  rewrite Heq, <- app_assoc. cbn [app]. rewrite uvarint_digits by assumption.
  rewrite Hv. f_equal. unfold zlen. rewrite app_length, map_length. cbn [length]. lia.
Qed.

Lemma encode_uvarint_nonnil u : 0 <= u < 2 ^ 64 -> (0 < length (encode_uvarint u))%nat.
Proof.
  intros Hu. destruct (encode_uvarint_digits u Hu) as (ds & last & Heq & _).
  rewrite Heq, app_length. cbn. lia.
Qed.

Lemma decode_uvarint_encode u rest : 0 <= u < 2 ^ 64 ->
  decode_uvarint (encode_uvarint u ++ rest) = DRet u (length (encode_uvarint u)) None.
Proof.
  intros Hu. unfold decode_uvarint. rewrite uvarint_encode by assumption.
  pose proof (encode_uvarint_nonnil u Hu). unfold zlen.
  destruct (_ =? 0) eqn:E0; [lia|]. destruct (_ <? 0) eqn:E1; [lia|].
  rewrite Nat2Z.id. reflexivity.
Qed.

Lemma put_varint_u_zigzag i : - 2 ^ 63 <= i < 2 ^ 63 -> put_varint_u i = zigzag i.
Proof.
  intros Hi. unfold put_varint_u, zigzag.
  rewrite Z.shiftl_mul_pow2 by lia. change (2 ^ 1) with 2.
  destruct (i <? 0) eqn:E.
  - assert (H : u64 (u64 i * 2) = 2 * i + 2 ^ 64).
    { rewrite (u64_neg i) by lia. unfold u64, uwrap.
      replace ((i + 2 ^ 64) * 2) with ((2 * i + 2 ^ 64) + 1 * 2 ^ 64) by lia.
      rewrite Z.mod_add by lia. apply Z.mod_small; lia. }
    rewrite H. change (2 ^ 64 - 1) with (Z.ones 64).
    rewrite Z.lxor_comm. 
    replace (Z.lxor (Z.ones 64) (2 * i + 2 ^ 64)) with (Z.lnot (2 * i + 2 ^ 64) mod 2 ^ 64).
    2: { rewrite <- Z.land_ones by lia. apply Z.bits_inj'. intros m Hm.
         rewrite Z.land_spec, Z.lxor_spec, Z.lnot_spec by lia.
         rewrite Z.testbit_ones_nonneg by lia.
         destruct (m <? 64) eqn:Em.
         - rewrite andb_true_r. destruct (Z.testbit _ m); reflexivity.
         - rewrite andb_false_r. rewrite (Z.bits_above_log2 (2 * i + 2 ^ 64) m); [reflexivity|lia|].
           destruct (Z.eq_dec (2 * i + 2 ^ 64) 0) as [->|]; [cbn; lia|].
           apply Z.log2_lt_pow2; [lia|]. apply Z.lt_le_trans with (2 ^ 64); [lia|].
           apply Z.pow_le_mono_r; lia. }
    unfold Z.lnot. rewrite <- (Z.mod_small (-2 * i - 1) (2 ^ 64)) by lia.
    replace (Z.pred (- (2 * i + 2 ^ 64))) with (-2 * i - 1 + (-1) * 2 ^ 64) by lia.
    rewrite Z.mod_add by lia. reflexivity.
  - rewrite !u64_small; [lia | lia | ]. rewrite u64_small; lia.
Qed.

Lemma zigzag_range i : - 2 ^ 63 <= i < 2 ^ 63 -> 0 <= zigzag i < 2 ^ 64.
Proof. intros. unfold zigzag. destruct (i <? 0) eqn:E; lia. Qed.

(** The inverse of zigzag as computed by [varint]. *)
Definition unzigzag (u : Z) : Z :=
  let x := i64 (Z.shiftr u 1) in if negb (Z.land u 1 =? 0) then Z.lnot x else x.

Lemma land_1 u : Z.land u 1 = u mod 2.
Proof. change 1 with (Z.ones 1) at 1. rewrite Z.land_ones by lia. reflexivity. Qed.

Lemma unzigzag_val u : 0 <= u < 2 ^ 64 ->
  unzigzag u = if u mod 2 =? 0 then u / 2 else - (u / 2) - 1.
Proof.
  intros Hu. unfold unzigzag. rewrite land_1, Z.shiftr_div_pow2 by lia. change (2 ^ 1) with 2.
  rewrite i64_small by lia. unfold Z.lnot. destruct (u mod 2 =? 0) eqn:E; cbn [negb]; lia.
Qed.

Lemma unzigzag_zigzag i : - 2 ^ 63 <= i < 2 ^ 63 -> unzigzag (zigzag i) = i.
Proof.
  intros Hi. rewrite unzigzag_val by (apply zigzag_range; assumption).
  unfold zigzag. destruct (i <? 0) eqn:E.
  - destruct (_ =? 0) eqn:E2; lia.
  - destruct (_ =? 0) eqn:E2; lia.
Qed.

Lemma unzigzag_range u : 0 <= u < 2 ^ 64 -> - 2 ^ 63 <= unzigzag u < 2 ^ 63.
Proof. intros. rewrite unzigzag_val by assumption. destruct (_ =? 0); lia. Qed.

Lemma zigzag_unzigzag u : 0 <= u < 2 ^ 64 -> zigzag (unzigzag u) = u.
Proof.
  intros. rewrite unzigzag_val by assumption. unfold zigzag.
  destruct (u mod 2 =? 0) eqn:E; destruct (_ <? 0) eqn:E2; lia.
Qed.

Lemma varint_uvarint bz : varint bz = (unzigzag (fst (uvarint bz)), snd (uvarint bz)).
Proof. unfold varint. destruct (uvarint bz). reflexivity. Qed.

Lemma decode_varint_encode i rest : - 2 ^ 63 <= i < 2 ^ 63 ->
  decode_varint (encode_varint i ++ rest) = DRet i (length (encode_varint i)) None.
Proof.
  intros Hi. unfold encode_varint. rewrite put_varint_u_zigzag by assumption.
  fold (encode_uvarint (zigzag i)). pose proof (zigzag_range i Hi) as Hz.
  unfold decode_varint. rewrite varint_uvarint, uvarint_encode by assumption.
  cbn [fst snd]. rewrite unzigzag_zigzag by assumption.
  pose proof (encode_uvarint_nonnil _ Hz). unfold zlen.
  destruct (_ =? 0) eqn:E0; [lia|]. destruct (_ <? 0) eqn:E1; [lia|].
  rewrite Nat2Z.id. reflexivity.
Qed.

Lemma varint_size_length i : - 2 ^ 63 <= i < 2 ^ 63 -> zlen (encode_varint i) = varint_size i.
Proof.
  intros Hi. unfold encode_varint. rewrite put_varint_u_zigzag by assumption.
  fold (encode_uvarint (zigzag i)). rewrite encode_uvarint_length by (apply zigzag_range; assumption).
  unfold varint_size. f_equal. rewrite <- put_varint_u_zigzag by assumption.
  unfold put_varint_u. rewrite Z.shiftr_div_pow2 by lia.
  destruct (i <? 0) eqn:E.
  - replace (i / 2 ^ 63) with (-1) by lia. reflexivity.
  - replace (i / 2 ^ 63) with 0 by lia. change (u64 0) with 0. rewrite Z.lxor_0_r. reflexivity.
Qed.

(** ** Behaviour of the varint decoders on arbitrary input *)

Lemma decode_uvarint_ret bz : exists u n e, decode_uvarint bz = DRet u n e /\ (n <= length bz)%nat.
Proof.
  unfold decode_uvarint. destruct (uvarint bz) as [u n] eqn:E.
  apply uvarint_count in E. unfold zlen in E.
  destruct (n =? 0) eqn:E0; [eexists _, _, _; split; [reflexivity|lia]|].
  destruct (n <? 0) eqn:E1; eexists _, _, _; (split; [reflexivity|lia]).
Qed.

Lemma decode_uvarint_some bz u n : decode_uvarint bz = DRet u n None ->
  uvarint bz = (u, Z.of_nat n) /\ (0 < n <= length bz)%nat.
Proof.
  unfold decode_uvarint. destruct (uvarint bz) as [u' n'] eqn:E. intros H.
  apply uvarint_count in E. unfold zlen in E.
  destruct (n' =? 0) eqn:E0; [discriminate|]. destruct (n' <? 0) eqn:E1; [discriminate|].
  inversion H; subst. split; [f_equal; lia | lia].
Qed.

Lemma decode_uvarint_inv bz u n : bytes_ok bz -> decode_uvarint bz = DRet u n None ->
  exists ds last rest,
    bz = map contb ds ++ last :: rest /\ Forall digit128 ds /\ digit128 last /\
    (length ds <= 9)%nat /\ (length ds = 9%nat -> last <= 1) /\
    u = val128 (ds ++ [last]) /\ n = S (length ds).
Proof.
  intros Hok H. apply decode_uvarint_some in H. destruct H as [H Hn].
  apply uvarint_inv in H; [|assumption|lia].
  destruct H as (ds & last & rest & -> & ? & ? & ? & ? & -> & ?).
  exists ds, last, rest. splits; try reflexivity; try assumption; lia.
Qed.

Lemma digits_value_range ds last : Forall digit128 ds -> digit128 last ->
  (length ds <= 9)%nat -> (length ds = 9%nat -> last <= 1) -> 0 <= val128 (ds ++ [last]) < 2 ^ 64.
Proof.
  intros Hds Hl Hlen H9. rewrite val128_app. cbn [val128]. pose proof (val128_bound ds Hds).
  unfold digit128, zlen in *. destruct (Nat.eq_dec (length ds) 9) as [He|Hne].
  - specialize (H9 He). rewrite He in *. change (128 ^ Z.of_nat 9) with (2 ^ 63) in *. lia.
  - assert (128 ^ Z.of_nat (length ds) <= 128 ^ 8) by (apply Z.pow_le_mono_r; lia).
    replace (2 ^ 64) with (256 * 128 ^ 8) by reflexivity. nia.
Qed.

Lemma decode_uvarint_range bz u n : bytes_ok bz -> decode_uvarint bz = DRet u n None -> 0 <= u < 2 ^ 64.
Proof.
  intros Hok H. apply decode_uvarint_inv in H; [|assumption].
  destruct H as (ds & last & rest & -> & Hds & Hl & Hlen & H9 & -> & _).
  apply digits_value_range; assumption.
Qed.

Lemma uvarint_loop_ext bz : forall i x s u n rest,
  uvarint_loop bz i x s = (u, n) -> n <> 0 -> uvarint_loop (bz ++ rest) i x s = (u, n).
Proof.
  induction bz as [|b bz IH]; intros i x s u n rest H Hn; cbn [uvarint_loop app] in *.
  - inversion H; lia.
  - destruct (i =? 10)%nat; [assumption|]. destruct (b <? 128); [assumption|]. apply IH; assumption.
Qed.

Lemma decode_uvarint_ext bz u n rest :
  decode_uvarint bz = DRet u n None -> decode_uvarint (bz ++ rest) = DRet u n None.
Proof.
  intros H. apply decode_uvarint_some in H. destruct H as [H Hn].
  unfold decode_uvarint, uvarint in *. erewrite uvarint_loop_ext by (eassumption || lia).
  destruct (_ =? 0) eqn:E0; [lia|]. destruct (_ <? 0) eqn:E1; [lia|].
  rewrite Nat2Z.id. reflexivity.
Qed.

Lemma decode_varint_uvarint bz u n : 
  decode_varint bz = DRet u n None <->
  exists w, decode_uvarint bz = DRet w n None /\ u = unzigzag w.
Proof.
  unfold decode_varint, decode_uvarint. rewrite varint_uvarint.
  destruct (uvarint bz) as [w m]. cbn [fst snd].
  destruct (m =? 0); [split; [discriminate | intros (? & ? & ?); discriminate]|].
  destruct (m <? 0); [split; [discriminate | intros (? & ? & ?); discriminate]|].
  split.
  - intros H. inversion H; subst. eexists; split; reflexivity.
  - intros (w' & H & ->). inversion H; subst. reflexivity.
Qed.

Lemma decode_varint_ret bz : exists u n e, decode_varint bz = DRet u n e /\ (n <= length bz)%nat.
Proof.
  unfold decode_varint. rewrite varint_uvarint. destruct (uvarint bz) as [u n] eqn:E.
  apply uvarint_count in E. unfold zlen in E. cbn [fst snd].
  destruct (n =? 0) eqn:E0; [eexists _, _, _; split; [reflexivity|lia]|].
  destruct (n <? 0) eqn:E1; eexists _, _, _; (split; [reflexivity|lia]).
Qed.

(** ** little-endian *)

Lemma get_put_le k : forall v, 0 <= v < 256 ^ Z.of_nat k -> get_le (put_le k v) = v.
Proof.
  induction k as [|k IH]; intros v Hv.
  - cbn in *. lia.
  - rewrite Nat2Z.inj_succ, Z.pow_succ_r in Hv by lia.
    cbn [put_le get_le]. rewrite Z.shiftr_div_pow2, Z.shiftl_mul_pow2 by lia.
    change (2 ^ 8) with 256. rewrite IH by lia.
    change 256 with (2 ^ 8) at 3. rewrite lor_disjoint by lia. change (2 ^ 8) with 256. lia.
Qed.

Lemma put_le_length k : forall v, length (put_le k v) = k.
Proof. induction k; intros; cbn; [reflexivity | rewrite IHk; reflexivity]. Qed.

Lemma put_le_ok k : forall v, bytes_ok (put_le k v).
Proof. induction k; intros; cbn; constructor; [lia | apply IHk]. Qed.

Lemma put_le_val k : forall v, 0 <= v < 256 ^ Z.of_nat k -> val256 (put_le k v) = v.
Proof.
  induction k as [|k IH]; intros v Hv.
  - cbn in *. lia.
  - rewrite Nat2Z.inj_succ, Z.pow_succ_r in Hv by lia.
    cbn [put_le val256]. rewrite Z.shiftr_div_pow2 by lia. change (2 ^ 8) with 256.
    rewrite IH by lia. lia.
Qed.

Lemma get_le_val bz : bytes_ok bz -> get_le bz = val256 bz /\ 0 <= val256 bz < 256 ^ zlen bz.
Proof.
  unfold zlen. induction 1 as [|b bz Hb Hbz [IH1 IH2]].
  - cbn. lia.
  - cbn [get_le val256 length]. rewrite Nat2Z.inj_succ, Z.pow_succ_r by lia.
    rewrite IH1, Z.shiftl_mul_pow2 by lia. rewrite lor_disjoint by (change (2 ^ 8) with 256; lia).
    change (2 ^ 8) with 256. lia.
Qed.

Lemma skipn_skipn {A} a : forall b (l : list A), skipn a (skipn b l) = skipn (a + b) l.
Proof.
  induction b as [|b IH]; intros l.
  - rewrite Nat.add_0_r. reflexivity.
  - rewrite Nat.add_succ_r. destruct l as [|x l]; cbn [skipn]; [apply skipn_nil | apply IH].
Qed.

Lemma firstn_app_exact {A} (a b : list A) n : length a = n -> firstn n (a ++ b) = a.
Proof. intros <-. rewrite firstn_app, Nat.sub_diag, firstn_all. cbn. apply app_nil_r. Qed.

Lemma skipn_app_exact {A} (a b : list A) n : length a = n -> skipn n (a ++ b) = b.
Proof. intros <-. rewrite skipn_app, Nat.sub_diag, skipn_all. reflexivity. Qed.

Lemma decode_fixed_encode k conv msg v rest : 0 <= v < 256 ^ Z.of_nat k ->
  decode_fixed k conv msg (put_le k v ++ rest) = DRet (conv v) k None.
Proof.
  intros Hv. unfold decode_fixed. rewrite app_length, put_le_length.
  destruct (_ <? _)%nat eqn:E; [lia|].
  rewrite firstn_app_exact by apply put_le_length. rewrite get_put_le by assumption. reflexivity.
Qed.

(** ** byte slices *)

Lemma slide_app {A} (a b : bytes) n (k : bytes -> dres A) : length a = n -> slide (a ++ b) n k = k b.
Proof.
  intros H. unfold slide. rewrite app_length, skipn_app_exact by assumption.
  destruct (_ <? _)%nat eqn:E; [lia | reflexivity].
Qed.

Lemma slide_le {A} bz n (k : bytes -> dres A) : (n <= length bz)%nat -> slide bz n k = k (skipn n bz).
Proof. intros. unfold slide. destruct (_ <? _)%nat eqn:E; [lia | reflexivity]. Qed.

Lemma decode_byte_slice_encode b rest : zlen b < 2 ^ 63 ->
  decode_byte_slice (encode_byte_slice b ++ rest) = DRet b (length (encode_byte_slice b)) None.
Proof.
  intros Hb. assert (0 <= zlen b) by (unfold zlen; lia).
  unfold decode_byte_slice, encode_byte_slice. rewrite <- app_assoc, decode_uvarint_encode by lia.
  rewrite slide_app by reflexivity. rewrite i64_small by lia.
  destruct (_ <? 0) eqn:E0; [lia|].
  destruct (_ <? zlen b) eqn:E1; [unfold zlen in E1; rewrite app_length in E1; unfold zlen in *; lia|].
  rewrite app_length. unfold zlen. rewrite Nat2Z.id, firstn_app_exact by reflexivity. reflexivity.
Qed.

Lemma decode_byte_slice_ret bz : exists b n e, decode_byte_slice bz = DRet b n e /\ (n <= length bz)%nat.
Proof.
  unfold decode_byte_slice. destruct (decode_uvarint_ret bz) as (u & n & e & -> & Hn).
  rewrite slide_le by assumption.
  destruct e; [eexists _, _, _; split; [reflexivity|assumption]|].
  destruct (i64 u <? 0) eqn:E0; [eexists _, _, _; split; [reflexivity|assumption]|].
  destruct (zlen _ <? i64 u) eqn:E1; [eexists _, _, _; split; [reflexivity|assumption]|].
  eexists _, _, _; split; [reflexivity|].
  unfold zlen in E1. rewrite skipn_length in E1.
  lia.
Qed.

Lemma decode_byte_slice_some bz b n : decode_byte_slice bz = DRet b n None ->
  exists u m, decode_uvarint bz = DRet u m None /\ (m <= length bz)%nat /\ 0 <= i64 u /\
    n = (m + length b)%nat /\ i64 u = zlen b /\
    bz = firstn m bz ++ b ++ skipn n bz /\ (n <= length bz)%nat.
Proof.
  unfold decode_byte_slice. destruct (decode_uvarint_ret bz) as (u & m & e & Hu & Hm).
  rewrite Hu. rewrite slide_le by assumption.
  destruct e; [discriminate|].
  destruct (i64 u <? 0) eqn:E0; [discriminate|].
  destruct (zlen _ <? i64 u) eqn:E1; [discriminate|].
  intros H. inversion H; subst b n; clear H.
  unfold zlen in E1. rewrite skipn_length in E1.
  assert (Hl : length (firstn (Z.to_nat (i64 u)) (skipn m bz)) = Z.to_nat (i64 u)).
  { rewrite firstn_length, skipn_length. lia. }
  exists u, m. unfold zlen. rewrite Hl. splits; try reflexivity; try assumption; try lia.
  replace (skipn (m + Z.to_nat (i64 u)) bz) with (skipn (Z.to_nat (i64 u)) (skipn m bz)).
  2: { rewrite skipn_skipn. f_equal. lia. }
  rewrite firstn_skipn, firstn_skipn. reflexivity.
Qed.

Lemma decode_byte_slice_ext bz b n rest :
  decode_byte_slice bz = DRet b n None -> decode_byte_slice (bz ++ rest) = DRet b n None.
Proof.
  intros H. destruct (decode_byte_slice_some _ _ _ H) as (u & m & Hu & Hm & Hpos & Hn & Hlen & Hbz & Hle).
  unfold decode_byte_slice. rewrite (decode_uvarint_ext _ _ _ _ Hu).
  assert (length (firstn m bz) = m) by (rewrite firstn_length; lia).
  rewrite Hbz, <- !app_assoc. rewrite slide_app by assumption.
  destruct (i64 u <? 0) eqn:E0; [lia|].
  destruct (zlen (b ++ _) <? i64 u) eqn:E1; [unfold zlen in *; rewrite app_length in E1; lia|].
  rewrite Hlen. unfold zlen. rewrite Nat2Z.id, firstn_app_exact by reflexivity. subst n. reflexivity.
Qed.

(** ** field keys *)

Lemma encode_field_key_ok num typ : 0 <= num < 2 ^ 29 -> 0 <= typ < 8 ->
  encode_field_key num typ = EOk (encode_uvarint (num * 8 + typ)).
Proof.
  intros Hn Ht. unfold encode_field_key.
  assert (E : Z.land typ 248 = 0).
  { assert (C : typ = 0 \/ typ = 1 \/ typ = 2 \/ typ = 3 \/ typ = 4 \/ typ = 5 \/ typ = 6 \/ typ = 7) by lia.
    destruct C as [->|[->|[->|[->|[->|[->|[->| ->]]]]]]]; reflexivity. }
  rewrite E. cbn [Z.eqb negb]. destruct (_ <? num) eqn:E1; [lia|].
  unfold encode_uvarint. do 2 f_equal.
  rewrite Z.shiftl_mul_pow2 by lia. change (2 ^ 3) with 8.
  rewrite u64_small by lia. rewrite Z.lor_comm. change 8 with (2 ^ 3) at 1.
  rewrite lor_disjoint by (change (2 ^ 3) with 8; lia). change (2 ^ 3) with 8. lia.
Qed.

Lemma land_7 v : Z.land v 7 = v mod 8.
Proof. change 7 with (Z.ones 3). rewrite Z.land_ones by lia. reflexivity. Qed.

Lemma decode_field_key_some bz num typ n : bytes_ok bz ->
  decode_field_key bz = DRet (num, typ) n None ->
  decode_uvarint bz = DRet (num * 8 + typ) n None /\ 0 <= num < 2 ^ 29 /\ 0 <= typ < 8.
Proof.
  intros Hok. unfold decode_field_key.
  destruct (decode_uvarint bz) as [v m [e|]|p|] eqn:E; try discriminate.
  pose proof (decode_uvarint_range _ _ _ Hok E) as Hv.
  rewrite land_7, Z.shiftr_div_pow2 by lia. change (2 ^ 3) with 8.
  destruct (_ <? v / 8) eqn:E1; [discriminate|].
  intros H. inversion H; subst; clear H.
  rewrite u32_small by lia. splits; try lia. do 1 f_equal. lia.
Qed.

Lemma decode_field_key_of bz num typ n :
  0 <= num < 2 ^ 29 -> 0 <= typ < 8 -> decode_uvarint bz = DRet (num * 8 + typ) n None ->
  decode_field_key bz = DRet (num, typ) n None.
Proof.
  intros Hn Ht H. unfold decode_field_key. rewrite H.
  rewrite land_7, Z.shiftr_div_pow2 by lia. change (2 ^ 3) with 8.
  replace ((num * 8 + typ) / 8) with num by lia.
  destruct (_ <? num) eqn:E; [lia|]. rewrite u32_small by lia.
  do 2 f_equal. lia.
Qed.

Lemma decode_field_key_ret bz : exists k n e, decode_field_key bz = DRet k n e /\ (n <= length bz)%nat.
Proof.
  unfold decode_field_key. destruct (decode_uvarint_ret bz) as (v & m & e & -> & Hm).
  destruct e; [eexists _, _, _; split; [reflexivity|assumption]|].
  destruct (_ <? _); eexists _, _, _; (split; [reflexivity|assumption]).
Qed.

Lemma decode_field_key_pos bz k n : decode_field_key bz = DRet k n None -> (0 < n <= length bz)%nat.
Proof.
  unfold decode_field_key. destruct (decode_uvarint bz) as [v m [e|]|p|] eqn:E; try discriminate.
  apply decode_uvarint_some in E. destruct (_ <? _); [discriminate|]. intros H; inversion H; subst. lia.
Qed.

Lemma decode_field_key_ext bz k n rest :
  decode_field_key bz = DRet k n None -> decode_field_key (bz ++ rest) = DRet k n None.
Proof.
  unfold decode_field_key. destruct (decode_uvarint bz) as [v m [e|]|p|] eqn:E; try discriminate.
  rewrite (decode_uvarint_ext _ _ _ _ E). auto.
Qed.

Definition key_bytes (num typ : Z) : bytes := encode_uvarint (num * 8 + typ).

Lemma decode_field_key_encode num typ rest : 0 <= num < 2 ^ 29 -> 0 <= typ < 8 ->
  decode_field_key (key_bytes num typ ++ rest) = DRet (num, typ) (length (key_bytes num typ)) None.
Proof.
  intros. apply decode_field_key_of; try assumption. apply decode_uvarint_encode. lia.
Qed.

(** ** time *)

Definition time_ok (s ns : Z) : Prop := min_seconds <= s < max_seconds /\ 0 <= ns <= max_nanos.

Lemma encode_time_ok s ns : time_ok s ns ->
  encode_time s ns = EOk ((if s =? 0 then [] else key_bytes 1 0 ++ encode_uvarint (u64 s)) ++
                          (if ns =? 0 then [] else key_bytes 2 0 ++ encode_uvarint ns), None).
Proof.
  unfold time_ok, min_seconds, max_seconds, max_nanos. intros [Hs Hns].
  unfold encode_time. rewrite i32_small by lia.
  unfold Typ3Varint. rewrite !encode_field_key_ok by lia. cbn [ebind].
  destruct (ns =? 0) eqn:E1.
  - destruct (s =? 0) eqn:E2; [reflexivity|].
    unfold min_seconds, max_seconds.
    destruct (_ || _) eqn:E3; [lia|]. rewrite app_nil_r. reflexivity.
  - unfold min_seconds, max_seconds, max_nanos.
    destruct ((ns <? 0) || (999999999 <? ns)) eqn:E4; [lia|]. rewrite (u64_small ns) by lia.
    destruct (s =? 0) eqn:E2; [reflexivity|].
    destruct ((s <? _) || _) eqn:E3; [lia|]. reflexivity.
Qed.

Lemma encode_time_bad_seconds s ns : ~ (min_seconds <= s < max_seconds) ->
  encode_time s ns = EOk ([], Some "invalid time: seconds"%string).
Proof.
  unfold encode_time, min_seconds, max_seconds, max_nanos. intros H.
  destruct (s =? 0) eqn:E; [lia|]. destruct (_ || _) eqn:E3; [reflexivity|lia].
Qed.

Lemma encode_uvarint_not_nil u rest : 0 <= u < 2 ^ 64 ->
  exists b l, encode_uvarint u ++ rest = b :: l.
Proof.
  intros Hu. pose proof (encode_uvarint_nonnil u Hu).
  destruct (encode_uvarint u) as [|b l]; [cbn in *; lia|]. exists b, (l ++ rest). reflexivity.
Qed.

Lemma decode_nanos_encode ns n rest : 0 < ns <= max_nanos ->
  decode_nanos (key_bytes 2 0 ++ encode_uvarint ns ++ rest) n
  = DRet ns (n + length (key_bytes 2 0 ++ encode_uvarint ns)) None.
Proof.
  unfold max_nanos. intros Hns. unfold decode_nanos.
  rewrite decode_field_key_encode by lia. cbn [Z.eqb andb Pos.eqb Typ3Varint].
  rewrite slide_app by reflexivity. rewrite decode_uvarint_encode by lia.
  rewrite slide_app by reflexivity. unfold max_nanos. destruct (_ <? ns) eqn:E; [lia|].
  rewrite i32_small by lia. rewrite app_length. f_equal. lia.
Qed.

Lemma decode_seconds_encode s rest : min_seconds <= s < max_seconds ->
  decode_seconds (key_bytes 1 0 ++ encode_uvarint (u64 s) ++ rest)
  = DRet (s, rest) (length (key_bytes 1 0 ++ encode_uvarint (u64 s))) None.
Proof.
  unfold min_seconds, max_seconds. intros Hs. unfold decode_seconds.
  rewrite decode_field_key_encode by lia. cbn [Z.eqb andb Pos.eqb Typ3Varint].
  rewrite slide_app by reflexivity. rewrite decode_uvarint_encode by apply u64_range.
  rewrite slide_app by reflexivity. rewrite i64_u64 by lia.
  unfold min_seconds, max_seconds. destruct (_ || _) eqn:E; [lia|].
  rewrite app_length. reflexivity.
Qed.

Lemma decode_seconds_skip ns rest : 0 <= ns < 2 ^ 64 ->
  decode_seconds (key_bytes 2 0 ++ encode_uvarint ns ++ rest)
  = DRet (0, key_bytes 2 0 ++ encode_uvarint ns ++ rest) 0 None.
Proof.
  intros Hns. unfold decode_seconds.
  rewrite decode_field_key_encode by lia. reflexivity.
Qed.

Lemma decode_time_nonnil bz : (0 < length bz)%nat ->
  decode_time bz = match decode_seconds bz with
      | DRet _ n (Some e) => DRet (0, 0) n (Some e)
      | DRet (sec, bz1) n None => decode_time_nanos sec bz1 n
      | DPanic p => DPanic p
      | DFuel => DFuel
      end.
Proof. destruct bz; [cbn; lia | reflexivity]. Qed.

Lemma decode_time_nanos_nonnil sec bz n : (0 < length bz)%nat ->
  decode_time_nanos sec bz n =
      match decode_nanos bz n with
      | DRet _ n' (Some e) => DRet (0, 0) n' (Some e)
      | DRet nsec n' None => DRet (sec, nsec) n' None
      | DPanic p => DPanic p
      | DFuel => DFuel
      end.
Proof. destruct bz; [cbn; lia | reflexivity]. Qed.

Lemma decode_time_encode s ns bz : time_ok s ns -> encode_time s ns = EOk (bz, None) ->
  decode_time bz = DRet (s, ns) (length bz) None.
Proof.
  intros Hok. rewrite encode_time_ok by assumption. intros H.
  apply (f_equal (fun r => match r with EOk (b, _) => b | _ => [] end)) in H. cbv beta iota in H. subst bz.
  destruct Hok as [Hs Hns]. pose proof Hns as Hns'. unfold max_nanos in Hns'.
  assert (L1 : (0 < length (key_bytes 1 0))%nat) by (apply encode_uvarint_nonnil; lia).
  assert (L2 : (0 < length (key_bytes 2 0))%nat) by (apply encode_uvarint_nonnil; lia).
  destruct (s =? 0) eqn:Es; destruct (ns =? 0) eqn:En.
  - assert (s = 0) by lia. assert (ns = 0) by lia. subst. reflexivity.
  - assert (s = 0) by lia. subst s. rewrite app_nil_l.
    rewrite decode_time_nonnil by (rewrite app_length; lia).
    rewrite <- (app_nil_r (encode_uvarint ns)).
    rewrite decode_seconds_skip by lia.
    rewrite decode_time_nanos_nonnil by (rewrite app_length; lia).
    rewrite decode_nanos_encode by lia. rewrite app_nil_r. reflexivity.
  - assert (ns = 0) by lia. subst ns. rewrite <- app_assoc.
    rewrite decode_time_nonnil by (rewrite app_length; lia).
    rewrite decode_seconds_encode by assumption. rewrite app_nil_r. reflexivity.
  - rewrite <- app_assoc. rewrite decode_time_nonnil by (rewrite app_length; lia).
    rewrite decode_seconds_encode by assumption.
    rewrite decode_time_nanos_nonnil by (rewrite app_length; lia).
    rewrite <- (app_nil_r (encode_uvarint ns)) at 1.
    rewrite decode_nanos_encode by lia. rewrite !app_length. f_equal; lia.
Qed.

Lemma decode_seconds_ret bz : exists s bz1 n e, decode_seconds bz = DRet (s, bz1) n e /\
  (n + length bz1 = length bz)%nat /\ (exists k, bz1 = skipn k bz) /\
  (e = None -> min_seconds <= s < max_seconds).
Proof.
  assert (K0 : exists k, bz = skipn k bz) by (exists 0%nat; reflexivity).
  unfold decode_seconds. destruct (decode_field_key_ret bz) as ([num typ] & n1 & e & -> & Hn1).
  unfold min_seconds, max_seconds.
  destruct e.
  { eexists _, _, _, _; split; [reflexivity|]. splits; [lia|assumption|discriminate]. }
  destruct (_ && _).
  - rewrite slide_le by assumption.
    destruct (decode_uvarint_ret (skipn n1 bz)) as (u & n2 & e2 & -> & Hn2).
    rewrite slide_le by assumption. rewrite skipn_length in Hn2.
    assert (K2 : exists k, skipn n2 (skipn n1 bz) = skipn k bz)
      by (exists (n2 + n1)%nat; rewrite skipn_skipn; reflexivity).
    destruct e2.
    { eexists _, _, _, _; split; [reflexivity|]. rewrite !skipn_length. splits; [lia|assumption|discriminate]. }
    destruct (_ || _) eqn:E.
    + eexists _, _, _, _; split; [reflexivity|]. rewrite !skipn_length. splits; [lia|assumption|discriminate].
    + eexists _, _, _, _; split; [reflexivity|]. rewrite !skipn_length. splits; [lia|assumption|lia].
  - destruct (_ && _).
    + eexists _, _, _, _; split; [reflexivity|]. splits; [lia|assumption|lia].
    + eexists _, _, _, _; split; [reflexivity|]. splits; [lia|assumption|discriminate].
Qed.

Lemma decode_nanos_ret bz n : bytes_ok bz -> exists s n' e, decode_nanos bz n = DRet s n' e /\
  (n' <= n + length bz)%nat /\ (e = None -> 0 <= s <= max_nanos).
Proof.
  intros Hok.
  unfold decode_nanos. destruct (decode_field_key_ret bz) as ([num typ] & n1 & e & -> & Hn1).
  unfold max_nanos.
  destruct e; [eexists _, _, _; split; [reflexivity|split; [lia|discriminate]]|].
  destruct (_ && _).
  - rewrite slide_le by assumption.
    destruct (decode_uvarint_ret (skipn n1 bz)) as (u & n2 & e2 & Hu & Hn2). rewrite Hu.
    rewrite slide_le by assumption. rewrite skipn_length in Hn2.
    destruct e2.
    { eexists _, _, _; split; [reflexivity|split; [lia|discriminate]]. }
    destruct (_ <? _) eqn:E.
    + eexists _, _, _; split; [reflexivity|split; [lia|discriminate]].
    + eexists _, _, _; split; [reflexivity|split; [lia|]].
      intros _. apply decode_uvarint_range in Hu.
      2: { unfold bytes_ok in *. rewrite <- (firstn_skipn n1 bz) in Hok. apply Forall_app in Hok. tauto. }
      rewrite i32_small; lia.
  - eexists _, _, _; split; [reflexivity|split; [lia|lia]].
Qed.

Lemma bytes_ok_skipn k bz : bytes_ok bz -> bytes_ok (skipn k bz).
Proof.
  unfold bytes_ok. intros H. rewrite <- (firstn_skipn k bz) in H. apply Forall_app in H. tauto.
Qed.
Lemma bytes_ok_firstn k bz : bytes_ok bz -> bytes_ok (firstn k bz).
Proof.
  unfold bytes_ok. intros H. rewrite <- (firstn_skipn k bz) in H. apply Forall_app in H. tauto.
Qed.

Lemma decode_time_ret bz : bytes_ok bz -> exists s ns n e, decode_time bz = DRet (s, ns) n e /\
  (n <= length bz)%nat /\ time_ok s ns.
Proof.
  intros Hok.
  assert (Z0 : time_ok 0 0) by (unfold time_ok, min_seconds, max_seconds, max_nanos; lia).
  destruct (Nat.eq_dec (length bz) 0) as [El|El].
  { destruct bz; [|discriminate]. eexists _, _, _, _; split; [reflexivity|]. split; [cbn; lia|exact Z0]. }
  rewrite decode_time_nonnil by lia.
  destruct (decode_seconds_ret bz) as (s & bz1 & n & e & -> & Hn & (k & Hk) & Hs).
  destruct e.
  { eexists _, _, _, _; split; [reflexivity|]. split; [lia|exact Z0]. }
  specialize (Hs eq_refl).
  destruct (Nat.eq_dec (length bz1) 0) as [El1|El1].
  { destruct bz1; [|discriminate]. eexists _, _, _, _; split; [reflexivity|]. split; [lia|].
    unfold time_ok, max_nanos in *. lia. }
  rewrite decode_time_nanos_nonnil by lia.
  assert (Hok1 : bytes_ok bz1) by (rewrite Hk; apply bytes_ok_skipn; assumption).
  destruct (decode_nanos_ret bz1 n Hok1) as (ns & n' & e & -> & Hn' & Hns).
  destruct e.
  { eexists _, _, _, _; split; [reflexivity|]. split; [lia|exact Z0]. }
  eexists _, _, _, _; split; [reflexivity|]. split; [lia|].
  specialize (Hns eq_refl). unfold time_ok. split; assumption.
Qed.

(** ** the two versions of binary.Uvarint *)

Lemma uvarint112_agree_loop bz : forall i x s u n, (i <= 10)%nat ->
  uvarint_loop bz i x s = (u, n) -> 0 < n -> uvarint112_loop bz i x s = (u, n).
Proof.
  induction bz as [|b bz IH]; intros i x s u n Hi H Hn; cbn [uvarint_loop uvarint112_loop] in *.
  - assumption.
  - destruct (i =? 10)%nat eqn:E; [inversion H; lia|].
    destruct (b <? 128); [|apply IH; [lia|assumption|assumption]].
    destruct (_ && _) eqn:E2; [inversion H; lia|].
    replace ((9 <? i)%nat || false) with false by lia. assumption.
Qed.

Lemma uvarint112_agree_loop' bz : forall i x s u n,
  uvarint112_loop bz i x s = (u, n) -> Z.of_nat i < n -> (i <= 9)%nat /\ uvarint_loop bz i x s = (u, n).
Proof.
  induction bz as [|b bz IH]; intros i x s u n H Hn; cbn [uvarint_loop uvarint112_loop] in *.
  - inversion H; lia.
  - destruct (b <? 128).
    + destruct (_ || _) eqn:E2; [inversion H; lia|].
      destruct (i =? 10)%nat eqn:E; [lia|].
      destruct ((i =? 9)%nat && (1 <? b)) eqn:E3; [lia|]. split; [lia|assumption].
    + destruct (Z_lt_le_dec (Z.of_nat (S i)) n) as [Hlt|Hge].
      * apply IH in H; [|lia]. destruct H. destruct (i =? 10)%nat eqn:E; [lia|]. split; [lia|assumption].
      * exfalso. clear IH. revert H. generalize (Z.lor x (u64 (Z.shiftl (Z.land b 127) s))) (s + 7).
        assert (P : forall bz i x s u n, uvarint112_loop bz i x s = (u, n) -> n <= 0 \/ Z.of_nat i < n).
        { clear. induction bz as [|b bz IH]; intros i x s u n H; cbn in H; [inversion H; lia|].
          destruct (b <? 128); [destruct (_ || _); inversion H; lia|]. apply IH in H. lia. }
        intros z z0 H. apply P in H. lia.
Qed.
