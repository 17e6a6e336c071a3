(** The decoder reads what SpecRead.v says: numbers and other leaves. *)
From Coq Require Import ZArith String List Bool Lia.
From Coq Require Import ZifyBool ZifyNat.
From Verif Require Import Base Prims SpecWire PrimFacts PrimProps Types Codec BinEnc BinDec Amino FuelFacts DecFacts
  ValueInd Typing Registry SpecRegistry RegistryFacts Sane DecSafe SpecNorm EncFacts RoundTrip RegistryProps TopFacts SpecProto ProtoFacts
  SpecStruct SkipFacts SpecVersion VersionFacts SpecKin Careful KinFacts SpecFrame OrderFacts SpecRead.
Import ListNotations.
Local Open Scope Z_scope.

(** ** Numbers *)

Lemma signed64 u : 0 <= u < 2 ^ 64 -> signed 64 u = i64 u.
Proof.
  intros H. unfold signed. change (64 - 1) with 63. destruct (Z.ltb_spec u (2 ^ 63)).
  - rewrite i64_small by lia. reflexivity.
  - rewrite i64_neg by lia. reflexivity.
Qed.
Lemma signed32 u : 0 <= u < 2 ^ 32 -> signed 32 u = i32 u.
Proof.
  intros H. unfold signed. change (32 - 1) with 31. destruct (Z.ltb_spec u (2 ^ 31)).
  - rewrite i32_small by lia. reflexivity.
  - symmetry. replace (i32 u) with (i32 (u32 (u - 2 ^ 32))); [apply i32_u32; lia|]. f_equal. unfold u32, uwrap.
    rewrite <- (Z.mod_add _ 1) by lia. rewrite Z.mod_small; lia.
Qed.
Lemma unzig_eq u : 0 <= u < 2 ^ 64 -> unzig u = unzigzag u.
Proof.
  intros H. rewrite unzigzag_val by exact H. unfold unzig. rewrite Zeven_mod. unfold Zeq_bool. change (u mod 2 ?= 0) with (Z.compare (u mod 2) 0).
  destruct (Z.eqb_spec (u mod 2) 0) as [E|E].
  - rewrite E. reflexivity.
  - assert (u mod 2 = 1) by lia. rewrite H0. cbn. lia.
Qed.

Lemma tidy_app a b : tidy (a ++ b) -> tidy a /\ tidy b.
Proof.
  intros H. split; intros x y z E; subst.
  - apply (H x y (z ++ b)). rewrite <- !app_assoc. reflexivity.
  - apply (H (a ++ x) y z). rewrite <- app_assoc. reflexivity.
Qed.
Lemma tidy_skipn n bz : tidy bz -> tidy (skipn n bz).
Proof. intros H. rewrite <- (firstn_skipn n bz) in H. apply tidy_app in H. tauto. Qed.
Lemma ok_skipn n bz : bytes_ok bz -> bytes_ok (skipn n bz).
Proof. intros H. rewrite <- (firstn_skipn n bz) in H. apply bytes_ok_app in H. tauto. Qed.

Lemma uvarint_sound bz u n : bytes_ok bz -> tidy bz -> decode_uvarint bz = DRet u n None ->
  exists b rest, bz = b ++ rest /\ n = length b /\ leb128_min b u /\ 0 <= u < 2 ^ 64.
Proof.
  intros Hok Ht H. pose proof (decode_uvarint_range _ _ _ Hok H) as R. apply decode_uvarint_inv in H; [|exact Hok].
  destruct H as (ds & last & rest & -> & Hd & Hl & L & L9 & -> & ->). exists (map contb ds ++ [last]), rest.
  split; [rewrite <- app_assoc; reflexivity|]. split; [rewrite app_length, map_length; cbn; lia|]. split; [|exact R].
  exists ds, last. splits; auto. destruct (Z.eq_dec last 0) as [->|N]; [|right; exact N]. left.
  destruct ds as [|d ds] using rev_ind; [reflexivity|]. exfalso. rewrite map_app in Ht. cbn [map] in Ht. rewrite <- app_assoc in Ht.
  specialize (Ht (map contb ds) (contb d) rest eq_refl). apply Forall_app in Hd. destruct Hd as [_ Hd]. inversion Hd as [|? ? D _]; subst.
  unfold contb, digit128 in *. lia.
Qed.
Lemma leb_uvarint b u rest : leb128_min b u -> 0 <= u < 2 ^ 64 -> decode_uvarint (b ++ rest) = DRet u (length b) None.
Proof.
  intros Hb Hu. rewrite (leb_unique b (encode_uvarint u) u Hb (encode_uvarint_leb u Hu)). apply decode_uvarint_encode. exact Hu.
Qed.
Lemma leb_varint b u rest : leb128_min b u -> 0 <= u < 2 ^ 64 -> decode_varint (b ++ rest) = DRet (unzigzag u) (length b) None.
Proof. intros Hb Hu. apply decode_varint_uvarint. exists u. split; [apply leb_uvarint; assumption|reflexivity]. Qed.
Lemma leb_pos b u : leb128_min b u -> 0 <= u.
Proof. intros H. eapply leb_nonneg. apply leb_min_leb. exact H. Qed.
Lemma varint_sound bz z n : bytes_ok bz -> tidy bz -> decode_varint bz = DRet z n None ->
  exists b rest u, bz = b ++ rest /\ n = length b /\ leb128_min b u /\ 0 <= u < 2 ^ 64 /\ z = unzigzag u.
Proof.
  intros Hok Ht H. apply decode_varint_uvarint in H. destruct H as (u & H & ->).
  destruct (uvarint_sound _ _ _ Hok Ht H) as (b & rest & H1 & H2 & H3 & H4). exists b, rest, u. auto.
Qed.
Lemma slice_sound bz b n : bytes_ok bz -> tidy bz -> decode_byte_slice bz = DRet b n None ->
  exists l rest, bz = (l ++ b) ++ rest /\ n = length (l ++ b) /\ leb128_min l (zlen b) /\ zlen b < 2 ^ 63.
Proof.
  intros Hok Ht H. destruct (decode_byte_slice_some _ _ _ H) as (u & m & Du & Hm & Hp & Hn & Hlen & E & Hle).
  destruct (uvarint_sound _ _ _ Hok Ht Du) as (l & r & -> & Lm & Hl & Hu).
  assert (Eu : u = zlen b /\ zlen b < 2 ^ 63).
  { assert (i64 u < 2 ^ 63) by (pose proof (iwrap_range 64 u ltac:(lia)); unfold i64; lia). assert (u < 2 ^ 63 \/ 2 ^ 63 <= u) as [X|X] by lia.
    - rewrite i64_small in Hlen by lia. rewrite i64_small in H0 by lia. lia.
    - rewrite i64_neg in Hp by lia. lia. }
  destruct Eu as [-> Hz]. exists l, (skipn n (l ++ r)). rewrite firstn_app_exact in E by (symmetry; exact Lm).
  split; [rewrite <- app_assoc; exact E|]. split; [rewrite app_length; lia|]. auto.
Qed.
Lemma leb_slice l b rest : leb128_min l (zlen b) -> zlen b < 2 ^ 63 -> decode_byte_slice ((l ++ b) ++ rest) = DRet b (length (l ++ b)) None.
Proof.
  intros Hl Hz. pose proof (zlen_nonneg b). rewrite (leb_unique l (encode_uvarint (zlen b)) (zlen b) Hl (encode_uvarint_leb (zlen b) ltac:(lia))).
  apply (decode_byte_slice_encode b rest Hz).
Qed.
Lemma fixed_sound size conv msg bz z n : bytes_ok bz -> decode_fixed size conv msg bz = DRet z n None ->
  exists b rest, bz = b ++ rest /\ n = length b /\ length b = size /\ Forall digit256 b /\ z = conv (val256 b) /\ 0 <= val256 b < 256 ^ Z.of_nat size.
Proof.
  intros Hok. unfold decode_fixed. destruct (Nat.ltb_spec (length bz) size); [discriminate|]. intros X. inversion X; subst.
  assert (L : length (firstn n bz) = n) by (apply firstn_length_le; lia).
  assert (Hb : bytes_ok (firstn n bz)). { rewrite <- (firstn_skipn n bz) in Hok. apply bytes_ok_app in Hok. tauto. }
  destruct (get_le_val _ Hb) as [E1 E2].
  exists (firstn n bz), (skipn n bz). rewrite firstn_skipn. split; [reflexivity|]. split; [symmetry; exact L|]. split; [exact L|].
  split; [exact Hb|]. split; [rewrite E1; reflexivity|]. unfold zlen in E2. rewrite L in E2. exact E2.
Qed.
Lemma digits_ok b : Forall digit256 b -> bytes_ok b.
Proof. intros H. exact H. Qed.
Lemma fixed_complete size conv msg b rest : length b = size -> Forall digit256 b ->
  decode_fixed size conv msg (b ++ rest) = DRet (conv (val256 b)) (length b) None /\ 0 <= val256 b < 256 ^ Z.of_nat size.
Proof.
  intros L Hb. destruct (get_le_val _ Hb) as [E1 E2]. unfold decode_fixed. destruct (Nat.ltb_spec (length (b ++ rest)) size); [rewrite app_length in *; lia|].
  rewrite firstn_app_exact by exact L. rewrite E1, L. split; [reflexivity|]. unfold zlen in E2. rewrite L in E2. lia.
Qed.

Lemma scalar_inv {A} v0 bz (r : dres A) f v n : set_scalar v0 bz r f = DRet v n None ->
  exists a k, r = DRet a n None /\ f a = DRet v k None.
Proof.
  unfold set_scalar. intros H. dstep H. dstep H. destruct e; [discriminate H|]. dstep H. inversion H; subst. exists a. eexists. split; [reflexivity|eassumption].
Qed.
Lemma narrow_some r lo hi msg conv v n : narrow r lo hi msg conv = DRet v n None -> exists u, r = DRet u n None /\ lo <= u <= hi /\ v = conv u.
Proof.
  unfold narrow. destruct r as [x m [e|]| |]; try discriminate. destruct (Z.ltb_spec x lo), (Z.ltb_spec hi x); intros X; inversion X; subst.
  exists x. split; [reflexivity|]. split; [lia|reflexivity].
Qed.
Lemma within_ok lo hi z v : lo <= z <= hi -> within lo hi z v = Some v.
Proof. intros H. unfold within. destruct (Z.leb_spec lo z), (Z.leb_spec z hi); try lia. reflexivity. Qed.
Lemma within_inv lo hi z v w : within lo hi z v = Some w -> lo <= z <= hi /\ w = v.
Proof. unfold within. destruct (Z.leb_spec lo z), (Z.leb_spec z hi); cbn [andb]; intros H1; inversion H1. split; [lia|reflexivity]. Qed.

(** The wire type of numbers and strings. *)
Definition prim_type (p : prim) (o : fopts) : Z :=
  match p with
  | PInt64 | PUint64 => if fo_fixed64 o then 1 else 0
  | PInt32 | PUint32 => if fo_fixed32 o then 5 else 0
  | PFloat64 => 1
  | PFloat32 => 5
  | PString => 2
  | _ => 0
  end.
Lemma prim_type_wire env t p o : resolve env t = RPrim p -> type_wire env t o = Some (prim_type p o).
Proof. intros E. unfold type_wire. rewrite E. destruct p; reflexivity. Qed.

Lemma prim_sound p v0 bz o v n : bytes_ok bz -> tidy bz -> decode_prim p v0 bz o = DRet v n None ->
  exists q b rest, bz = b ++ rest /\ n = length b /\ payload_bytes q b /\ prim_reads p o q = Some v /\ wire_type q = prim_type p o /\ payload_ok q.
Proof.
  intros Hok Ht H.
  assert (V : forall u, decode_uvarint bz = DRet u n None -> (u < 2 ^ 64 -> 0 <= u -> prim_reads p o (Pvarint u) = Some v /\ prim_type p o = 0) ->
    exists q b rest, bz = b ++ rest /\ n = length b /\ payload_bytes q b /\ prim_reads p o q = Some v /\ wire_type q = prim_type p o /\ payload_ok q).
  { intros u D F. destruct (uvarint_sound _ _ _ Hok Ht D) as (b & rest & E1 & E2 & E3 & E4). destruct (F (proj2 E4) (proj1 E4)) as [F1 F2]. exists (Pvarint u), b, rest. splits; auto; try (constructor; exact E3); try (cbn; lia). }
  assert (V' : forall z, decode_varint bz = DRet z n None -> (forall u, u < 2 ^ 64 -> 0 <= u -> z = unzigzag u -> prim_reads p o (Pvarint u) = Some v /\ prim_type p o = 0) ->
    exists q b rest, bz = b ++ rest /\ n = length b /\ payload_bytes q b /\ prim_reads p o q = Some v /\ wire_type q = prim_type p o /\ payload_ok q).
  { intros z D F. destruct (varint_sound _ _ _ Hok Ht D) as (b & rest & u & E1 & E2 & E3 & E4 & E5). destruct (F u (proj2 E4) (proj1 E4) E5) as [F1 F2]. exists (Pvarint u), b, rest. splits; auto; try (constructor; exact E3); try (cbn; lia). }
  assert (F8 : forall conv msg z, decode_fixed 8 conv msg bz = DRet z n None -> (forall u, 0 <= u < 2 ^ 64 -> z = conv u -> prim_reads p o (P64 u) = Some v /\ prim_type p o = 1) ->
    exists q b rest, bz = b ++ rest /\ n = length b /\ payload_bytes q b /\ prim_reads p o q = Some v /\ wire_type q = prim_type p o /\ payload_ok q).
  { intros conv msg z D F. destruct (fixed_sound _ _ _ _ _ _ Hok D) as (b & rest & E1 & E2 & E3 & E4 & E5 & E6).
    change (256 ^ Z.of_nat 8) with (2 ^ 64) in E6. destruct (F _ E6 E5). exists (P64 (val256 b)), b, rest. splits; auto; try (constructor; assumption). }
  assert (F4 : forall conv msg z, decode_fixed 4 conv msg bz = DRet z n None -> (forall u, 0 <= u < 2 ^ 32 -> z = conv u -> prim_reads p o (P32 u) = Some v /\ prim_type p o = 5) ->
    exists q b rest, bz = b ++ rest /\ n = length b /\ payload_bytes q b /\ prim_reads p o q = Some v /\ wire_type q = prim_type p o /\ payload_ok q).
  { intros conv msg z D F. destruct (fixed_sound _ _ _ _ _ _ Hok D) as (b & rest & E1 & E2 & E3 & E4 & E5 & E6).
    change (256 ^ Z.of_nat 4) with (2 ^ 32) in E6. destruct (F _ E6 E5). exists (P32 (val256 b)), b, rest. splits; auto; try (constructor; assumption). }
  assert (B64 : forall u, u < 2 ^ 64 -> (2 ^ 64 <=? u) = false) by (intros; lia).
  unfold decode_prim in H. destruct p.
  - (* bool *) apply scalar_inv in H. destruct H as (b & k & D & E). unfold decode_bool in D. destruct bz as [|x r]; [discriminate D|].
    destruct (Z.eqb_spec x 0); [|destruct (Z.eqb_spec x 1); [|discriminate D]]; inversion D; subst; inversion E; subst.
    + exists (Pvarint 0), [0], r. splits; try reflexivity; [constructor; exact leb_zero|cbn; lia].
    + exists (Pvarint 1), [1], r. splits; try reflexivity; [constructor; exists [], 1; repeat split; try constructor; try lia; reflexivity|cbn; lia].
  - (* int *) apply scalar_inv in H. destruct H as (u & k & D & E). apply (V u D). intros Hu Hu0. cbn [prim_reads prim_type]. rewrite (B64 u Hu). split; [|reflexivity]. rewrite signed64 by lia.
    destruct (_ || _); [discriminate E|]. inversion E; reflexivity.
  - apply scalar_inv in H. destruct H as (z & k & D & E). apply narrow_some in D. destruct D as (w & D & R & ->). apply (V' w D). intros u Hu Hu0 ->. cbn [prim_reads prim_type].
    rewrite (B64 u Hu), unzig_eq by lia. split; [|reflexivity]. inversion E; subst. rewrite iwrap_small by lia. apply within_ok. lia.
  - apply scalar_inv in H. destruct H as (z & k & D & E). apply narrow_some in D. destruct D as (w & D & R & ->). apply (V' w D). intros u Hu Hu0 ->. cbn [prim_reads prim_type].
    rewrite (B64 u Hu), unzig_eq by lia. split; [|reflexivity]. inversion E; subst. rewrite iwrap_small by lia. apply within_ok. lia.
  - (* int32 *) destruct (fo_fixed32 o) eqn:Ef.
    + apply scalar_inv in H. destruct H as (z & k & D & E). apply (F4 _ _ _ D). intros u Hu ->. cbn [prim_reads prim_type]. rewrite Ef, signed32 by lia. inversion E; auto.
    + apply scalar_inv in H. destruct H as (u & k & D & E). apply (V u D). intros Hu Hu0. cbn [prim_reads prim_type]. rewrite (B64 u Hu), Ef, signed64 by lia. split; [|reflexivity].
      destruct (Z.ltb_spec (2 ^ 31 - 1) (i64 u)); [discriminate E|]. destruct (Z.ltb_spec (i64 u) (- 2 ^ 31)); [discriminate E|]. cbn [orb] in E. inversion E; subst.
      apply within_ok. lia.
  - destruct (fo_fixed64 o) eqn:Ef.
    + apply scalar_inv in H. destruct H as (z & k & D & E). apply (F8 _ _ _ D). intros u Hu ->. cbn [prim_reads prim_type]. rewrite Ef, signed64 by lia. inversion E; auto.
    + apply scalar_inv in H. destruct H as (u & k & D & E). apply (V u D). intros Hu Hu0. cbn [prim_reads prim_type]. rewrite (B64 u Hu), Ef, signed64 by lia. inversion E; auto.
  - apply scalar_inv in H. destruct H as (u & k & D & E). apply (V u D). intros Hu Hu0. cbn [prim_reads prim_type]. rewrite (B64 u Hu). inversion E; auto.
  - apply scalar_inv in H. destruct H as (z & k & D & E). apply narrow_some in D. destruct D as (w & D & R & ->). apply (V w D). intros Hu Hu0. cbn [prim_reads prim_type].
    rewrite (B64 w Hu). split; [|reflexivity]. inversion E; subst. replace (uwrap 8 w) with w by (unfold uwrap; rewrite Z.mod_small; lia). apply within_ok. lia.
  - apply scalar_inv in H. destruct H as (z & k & D & E). apply narrow_some in D. destruct D as (w & D & R & ->). apply (V w D). intros Hu Hu0. cbn [prim_reads prim_type].
    rewrite (B64 w Hu). split; [|reflexivity]. inversion E; subst. replace (uwrap 16 w) with w by (unfold uwrap; rewrite Z.mod_small; lia). apply within_ok. lia.
  - destruct (fo_fixed32 o) eqn:Ef.
    + apply scalar_inv in H. destruct H as (z & k & D & E). apply (F4 _ _ _ D). intros u Hu ->. cbn [prim_reads prim_type]. rewrite Ef. inversion E; auto.
    + apply scalar_inv in H. destruct H as (u & k & D & E). apply (V u D). intros Hu Hu0. cbn [prim_reads prim_type]. rewrite (B64 u Hu), Ef. inversion E; auto.
  - destruct (fo_fixed64 o) eqn:Ef.
    + apply scalar_inv in H. destruct H as (z & k & D & E). apply (F8 _ _ _ D). intros u Hu ->. cbn [prim_reads prim_type]. rewrite Ef. inversion E; auto.
    + apply scalar_inv in H. destruct H as (u & k & D & E). apply (V u D). intros Hu Hu0. cbn [prim_reads prim_type]. rewrite (B64 u Hu), Ef. inversion E; auto.
  - destruct (fo_unsafe o) eqn:Eu; [|discriminate H]. cbn [negb] in H. apply scalar_inv in H. destruct H as (z & k & D & E). apply (F4 _ _ _ D). intros u Hu ->. cbn [prim_reads prim_type]. rewrite Eu. inversion E; auto.
  - destruct (fo_unsafe o) eqn:Eu; [|discriminate H]. cbn [negb] in H. apply scalar_inv in H. destruct H as (z & k & D & E). apply (F8 _ _ _ D). intros u Hu ->. cbn [prim_reads prim_type]. rewrite Eu. inversion E; auto.
  - apply scalar_inv in H. destruct H as (s & k & D & E). destruct (slice_sound _ _ _ Hok Ht D) as (l & rest & E1 & E2 & E3 & E4). exists (Plen s), (l ++ s), rest. inversion E; subst.
    splits; auto. constructor. exact E3.
Qed.

Lemma prim_complete p v0 q b o v rest : payload_bytes q b -> payload_ok q -> prim_reads p o q = Some v ->
  decode_prim p v0 (b ++ rest) o = DRet v (length b) None.
Proof.
  intros Hb Hq H.
  assert (SS : forall A (r : dres A) f a, r = DRet a (length b) None -> f a = DRet v 0 None -> set_scalar v0 (b ++ rest) r f = DRet v (length b) None).
  { intros A r f a E1 E2. eapply set_scalar_app; eassumption. }
  destruct Hb as [u b Hl|b L Hb|b L Hb|l b Hl]; cbn [payload_ok] in Hq.
  - cbn [prim_reads] in H. destruct (Z.leb_spec (2 ^ 64) u); [discriminate H|]. pose proof (leb_uvarint b u rest Hl Hq) as D. pose proof (leb_varint b u rest Hl Hq) as D'.
    destruct p; cbn [decode_prim] in *; try discriminate H;
      try (match goal with H : (if ?x then None else _) = Some _ |- _ => destruct x; [discriminate H|] end);
      rewrite ?signed64 in H by lia; rewrite ?unzig_eq in H by lia;
      try (apply within_inv in H; destruct H as [R ->]); try (inversion H; subst v).
    + destruct (Z.eqb_spec u 0) as [->|N].
      * assert (b = [0]) by (apply (leb_zero_inv _ _ Hl); reflexivity). subst b. inversion H; subst. reflexivity.
      * destruct (Z.eqb_spec u 1) as [->|]; [|discriminate H]. inversion H; subst. assert (Eb : b = [1]). { eapply leb_unique; [exact Hl|]. exists [], 1. repeat split; try constructor; try lia; reflexivity. }
        subst b. reflexivity.
    + eapply SS; [exact D|]. pose proof (iwrap_range 64 u ltac:(lia)) as W. change (2 ^ (64 - 1)) with (2 ^ 63) in W. unfold i64 in *. destruct (Z.ltb_spec (2 ^ 63 - 1) (iwrap 64 u)); [lia|]. destruct (Z.ltb_spec (iwrap 64 u) (- 2 ^ 63)); [lia|]. reflexivity.
    + eapply SS; [|reflexivity]. apply narrow_ok; [exact D'|lia|apply iwrap_small; lia].
    + eapply SS; [|reflexivity]. apply narrow_ok; [exact D'|lia|apply iwrap_small; lia].
    + eapply SS; [exact D|]. destruct (Z.ltb_spec (2 ^ 31 - 1) (i64 u)); [lia|]. destruct (Z.ltb_spec (i64 u) (- 2 ^ 31)); [lia|]. reflexivity.
    + eapply SS; [exact D|reflexivity].
    + eapply SS; [exact D|reflexivity].
    + eapply SS; [|reflexivity]. apply narrow_ok; [exact D|lia|unfold uwrap; rewrite Z.mod_small; lia].
    + eapply SS; [|reflexivity]. apply narrow_ok; [exact D|lia|unfold uwrap; rewrite Z.mod_small; lia].
    + eapply SS; [exact D|reflexivity].
    + eapply SS; [exact D|reflexivity].
  - assert (D : forall conv msg, decode_fixed 8 conv msg (b ++ rest) = DRet (conv (val256 b)) (length b) None) by (intros; apply fixed_complete; assumption).
    destruct (fixed_complete 8 (fun x => x) ""%string b rest L Hb) as [_ R]. change (256 ^ Z.of_nat 8) with (2 ^ 64) in R.
    destruct p; cbn [prim_reads decode_prim] in *; try discriminate H;
      (match goal with H : (if ?x then _ else None) = Some _ |- _ => destruct x; [|discriminate H] end); rewrite ?signed64 in H by lia; inversion H; subst v; cbn [negb];
      (eapply SS; [apply D|reflexivity]).
  - assert (D : forall conv msg, decode_fixed 4 conv msg (b ++ rest) = DRet (conv (val256 b)) (length b) None) by (intros; apply fixed_complete; assumption).
    destruct (fixed_complete 4 (fun x => x) ""%string b rest L Hb) as [_ R]. change (256 ^ Z.of_nat 4) with (2 ^ 32) in R.
    destruct p; cbn [prim_reads decode_prim] in *; try discriminate H;
      (match goal with H : (if ?x then _ else None) = Some _ |- _ => destruct x; [|discriminate H] end); rewrite ?signed32 in H by lia; inversion H; subst v; cbn [negb];
      (eapply SS; [apply D|reflexivity]).
  - cbn [prim_reads] in H. destruct p; try discriminate H. inversion H; subst v. cbn [decode_prim]. eapply SS; [|reflexivity]. apply leb_slice; assumption.
Qed.
