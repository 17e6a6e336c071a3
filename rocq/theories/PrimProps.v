(** Lemmas behind the property theorems about the primitives. *)
From Coq Require Import ZArith String List Bool Lia.
From Coq Require Import ZifyBool ZifyNat.
From Verif Require Import Base Prims SpecWire PrimFacts.
Import ListNotations.
Local Open Scope Z_scope.
Ltac Zify.zify_post_hook ::= Z.div_mod_to_equations.

Lemma uvarint_size_range u : 0 <= u < 2 ^ 64 -> 1 <= uvarint_size u <= 10.
Proof.
  intros Hu. rewrite <- encode_uvarint_length by assumption.
  destruct (encode_uvarint_digits u Hu) as (ds & last & -> & _ & _ & _ & _ & Hlen & _).
  unfold zlen. rewrite app_length, map_length. cbn [length]. lia.
Qed.

Lemma encode_uvarint_leb u : 0 <= u < 2 ^ 64 -> leb128_min (encode_uvarint u) u.
Proof.
  intros Hu. destruct (encode_uvarint_digits u Hu) as (ds & last & -> & Hds & Hl & Hv & Hm & _).
  exists ds, last. splits; try assumption; try reflexivity. symmetry; assumption.
Qed.

(** Uniqueness of digit strings of a given value. *)
Lemma digits_unique ds : forall ds' last last',
  Forall digit128 ds -> Forall digit128 ds' -> digit128 last -> digit128 last' ->
  val128 (ds ++ [last]) = val128 (ds' ++ [last']) -> length ds = length ds' ->
  ds = ds' /\ last = last'.
Proof.
  induction ds as [|d ds IH]; intros [|d' ds'] last last' H H' Hl Hl' Hv Hlen; try discriminate Hlen.
  - cbn [app val128] in Hv. split; [reflexivity|lia].
  - cbn [app val128] in Hv. inversion H; inversion H'; subst.
    assert (Hdd : d = d') by (unfold digit128 in *; lia).
    assert (Hvv : val128 (ds ++ [last]) = val128 (ds' ++ [last'])) by (unfold digit128 in *; lia).
    destruct (IH ds' last last') as [-> ->]; try assumption; [cbn in Hlen; lia|]. subst; split; reflexivity.
Qed.

Lemma digits_shortest ds last ds' last' :
  Forall digit128 ds -> Forall digit128 ds' -> digit128 last -> digit128 last' ->
  val128 (ds ++ [last]) = val128 (ds' ++ [last']) -> (ds = [] \/ last <> 0) ->
  (length ds <= length ds')%nat.
Proof.
  intros H H' Hl Hl' Hv Hm. destruct Hm as [-> | Hn]; [cbn; lia|].
  destruct (Nat.le_gt_cases (length ds) (length ds')) as [?|Hgt]; [assumption|exfalso].
  pose proof (val128_bound ds H) as B.
  assert (B' : 0 <= val128 (ds' ++ [last']) < 128 ^ zlen (ds' ++ [last'])).
  { apply val128_bound. apply Forall_app; split; [assumption|constructor; [assumption|constructor]]. }
  rewrite val128_app in Hv at 1. cbn [val128] in Hv.
  assert (128 ^ zlen (ds' ++ [last']) <= 128 ^ zlen ds).
  { apply Z.pow_le_mono_r; [lia|]. unfold zlen. rewrite app_length. cbn [length]. lia. }
  assert (0 < 128 ^ zlen ds) by (apply Z.pow_pos_nonneg; unfold zlen; lia).
  unfold digit128 in Hl. nia.
Qed.

Lemma decode_uvarint_minimal bz u n : bytes_ok bz -> decode_uvarint bz = DRet u n None ->
  leb128 (firstn n bz) u /\ (length (encode_uvarint u) <= n)%nat /\
  (length (encode_uvarint u) = n -> firstn n bz = encode_uvarint u).
Proof.
  intros Hok H. pose proof (decode_uvarint_range _ _ _ Hok H) as Hu.
  apply decode_uvarint_inv in H; [|assumption].
  destruct H as (ds & last & rest & -> & Hds & Hl & Hlen & H9 & Hval & ->).
  destruct (encode_uvarint_digits u Hu) as (ds' & last' & Heq & Hds' & Hl' & Hv' & Hm & _).
  assert (F : firstn (S (length ds)) (map contb ds ++ last :: rest) = map contb ds ++ [last]).
  { change (last :: rest) with ([last] ++ rest). rewrite app_assoc. apply firstn_app_exact.
    rewrite app_length, map_length. cbn [length]. lia. }
  rewrite F. splits.
  - exists ds, last. splits; try assumption. reflexivity.
  - rewrite Heq, app_length, map_length. cbn [length].
    assert (length ds' <= length ds)%nat; [|lia].
    apply (digits_shortest ds' last' ds last); try assumption. congruence.
  - intros Hl2. rewrite Heq in *. rewrite app_length, map_length in Hl2. cbn [length] in Hl2.
    destruct (digits_unique ds ds' last last') as [-> ->]; try assumption; try congruence; try lia.
Qed.

Lemma decode_uvarint_leb bz rest u : leb128 bz u -> 0 <= u < 2 ^ 64 -> (length bz <= 10)%nat ->
  decode_uvarint (bz ++ rest) = DRet u (length bz) None.
Proof.
  intros (ds & last & -> & Hds & Hl & ->) Hu Hlen.
  rewrite app_length, map_length in *. cbn [length] in *.
  assert (U : uvarint ((map contb ds ++ [last]) ++ rest) = (val128 (ds ++ [last]), Z.of_nat (length ds) + 1)).
  { rewrite <- app_assoc. cbn [app]. apply uvarint_digits; try assumption; try lia.
    intros E9. rewrite val128_app in Hu. cbn [val128] in Hu. unfold zlen in Hu. rewrite E9 in Hu.
    pose proof (val128_bound ds Hds). change (128 ^ Z.of_nat 9) with (2 ^ 63) in Hu.
    unfold digit128 in Hl. lia. }
  unfold decode_uvarint. change (fun d => d + 128) with contb. rewrite U.
  destruct (_ =? 0) eqn:E0; [lia|]. destruct (_ <? 0) eqn:E1; [lia|].
  f_equal. lia.
Qed.

(** Narrow integers *)

Lemma narrow_some r lo hi msg conv v n :
  narrow r lo hi msg conv = DRet v n None <->
  exists w, r = DRet w n None /\ lo <= w <= hi /\ v = conv w.
Proof.
  unfold narrow. destruct r as [x m [e|]|p|].
  - split; [discriminate | intros (w & H & _); discriminate].
  - destruct (_ || _) eqn:E.
    + split; [discriminate|]. intros (w & H & Hr & _). inversion H; subst. lia.
    + split.
      * intros H; inversion H; subst. exists x. splits; try reflexivity; lia.
      * intros (w & H & Hr & ->). inversion H; subst. reflexivity.
  - split; [discriminate | intros (w & H & _); discriminate].
  - split; [discriminate | intros (w & H & _); discriminate].
Qed.

Lemma narrow_ret r lo hi msg conv (bz : bytes) :
  (exists u n e, r = DRet u n e /\ (n <= length bz)%nat) ->
  exists u n e, narrow r lo hi msg conv = DRet u n e /\ (n <= length bz)%nat.
Proof.
  intros (u & n & e & -> & Hn). unfold narrow.
  destruct e; [eexists _, _, _; split; [reflexivity|assumption]|].
  destruct (_ || _); eexists _, _, _; (split; [reflexivity|assumption]).
Qed.

Lemma decode_int8_iff bz v n :
  decode_int8 bz = DRet v n None <-> decode_varint bz = DRet v n None /\ -128 <= v <= 127.
Proof.
  unfold decode_int8. rewrite narrow_some. split.
  - intros (w & H & Hr & ->). rewrite iwrap_small by (cbn; lia). split; assumption.
  - intros [H Hr]. exists v. rewrite iwrap_small by (cbn; lia). splits; try assumption; try reflexivity; lia.
Qed.
Lemma decode_int16_iff bz v n :
  decode_int16 bz = DRet v n None <-> decode_varint bz = DRet v n None /\ -32768 <= v <= 32767.
Proof.
  unfold decode_int16. rewrite narrow_some. split.
  - intros (w & H & Hr & ->). rewrite iwrap_small by (cbn; lia). split; assumption.
  - intros [H Hr]. exists v. rewrite iwrap_small by (cbn; lia). splits; try assumption; try reflexivity; lia.
Qed.
Lemma decode_uint8_iff bz v n :
  decode_uint8 bz = DRet v n None <-> decode_uvarint bz = DRet v n None /\ 0 <= v <= 255.
Proof.
  unfold decode_uint8. rewrite narrow_some. unfold uwrap. split.
  - intros (w & H & Hr & ->). rewrite Z.mod_small by (cbn; lia). split; assumption.
  - intros [H Hr]. exists v. rewrite Z.mod_small by (cbn; lia). splits; try assumption; try reflexivity; lia.
Qed.
Lemma decode_uint16_iff bz v n :
  decode_uint16 bz = DRet v n None <-> decode_uvarint bz = DRet v n None /\ 0 <= v <= 65535.
Proof.
  unfold decode_uint16. rewrite narrow_some. unfold uwrap. split.
  - intros (w & H & Hr & ->). rewrite Z.mod_small by (cbn; lia). split; assumption.
  - intros [H Hr]. exists v. rewrite Z.mod_small by (cbn; lia). splits; try assumption; try reflexivity; lia.
Qed.

(** Fixed width *)

Lemma decode_fixed_iff size conv msg bz v n : bytes_ok bz ->
  decode_fixed size conv msg bz = DRet v n None <->
  (size <= length bz)%nat /\ n = size /\ v = conv (val256 (firstn size bz)).
Proof.
  intros Hok. unfold decode_fixed. destruct (_ <? _)%nat eqn:E.
  - split; [discriminate | lia].
  - destruct (get_le_val (firstn size bz)) as [-> _]; [apply bytes_ok_firstn; assumption|].
    split.
    + intros H; inversion H; subst. splits; try reflexivity; lia.
    + intros (_ & -> & ->). reflexivity.
Qed.

Lemma decode_fixed_short size conv msg bz : (length bz < size)%nat ->
  decode_fixed size conv msg bz = DRet 0 0 (Some msg).
Proof. intros. unfold decode_fixed. destruct (_ <? _)%nat eqn:E; [reflexivity|lia]. Qed.

Lemma decode_fixed_ret size conv msg bz :
  exists u n e, decode_fixed size conv msg bz = DRet u n e /\ (n <= length bz)%nat.
Proof.
  unfold decode_fixed. destruct (_ <? _)%nat eqn:E; eexists _, _, _; (split; [reflexivity|lia]).
Qed.

Lemma decode_fixed_ext size conv msg bz rest v n :
  decode_fixed size conv msg bz = DRet v n None ->
  decode_fixed size conv msg (bz ++ rest) = DRet v n None.
Proof.
  unfold decode_fixed. destruct (_ <? _)%nat eqn:E; [discriminate|].
  intros H. rewrite app_length. destruct (length bz + length rest <? size)%nat eqn:E2; [lia|].
  rewrite firstn_app. replace (size - length bz)%nat with 0%nat by lia. cbn [firstn].
  rewrite app_nil_r. assumption.
Qed.

(** Every primitive decoder at once. *)
Definition well_behaved {A} (d : bytes -> dres A) : Prop :=
  (forall bz, exists a n e, d bz = DRet a n e /\ (n <= length bz)%nat) /\
  (forall bz a n, d bz = DRet a n None -> (1 <= n)%nat) /\
  (forall bz a n rest, d bz = DRet a n None -> d (bz ++ rest) = DRet a n None).

Lemma wb_uvarint : well_behaved decode_uvarint.
Proof.
  unfold well_behaved; splits; intros.
  - apply decode_uvarint_ret.
  - apply decode_uvarint_some in H. lia.
  - apply decode_uvarint_ext; assumption.
Qed.
Lemma wb_varint : well_behaved decode_varint.
Proof.
  unfold well_behaved; splits; intros.
  - apply decode_varint_ret.
  - apply decode_varint_uvarint in H. destruct H as (w & H & _). apply decode_uvarint_some in H. lia.
  - apply decode_varint_uvarint. apply decode_varint_uvarint in H. destruct H as (w & H & ->).
    exists w. split; [apply decode_uvarint_ext; assumption | reflexivity].
Qed.
Lemma wb_narrow d lo hi msg conv : well_behaved d -> well_behaved (fun bz => narrow (d bz) lo hi msg conv).
Proof.
  intros (H1 & H2 & H3). unfold well_behaved; splits; intros.
  - apply narrow_ret. apply H1.
  - apply narrow_some in H. destruct H as (w & H & _). eapply H2; eassumption.
  - apply narrow_some. apply narrow_some in H. destruct H as (w & H & Hr & ->).
    exists w. splits; try assumption; try lia; try reflexivity. apply H3. assumption.
Qed.
Lemma wb_fixed size conv msg : (1 <= size)%nat -> well_behaved (decode_fixed size conv msg).
Proof.
  intros Hs. unfold well_behaved; splits; intros.
  - apply decode_fixed_ret.
  - unfold decode_fixed in H. destruct (_ <? _)%nat; [discriminate|]. inversion H; subst. assumption.
  - apply decode_fixed_ext; assumption.
Qed.
Lemma wb_bool : well_behaved decode_bool.
Proof.
  unfold well_behaved; splits.
  - intros [|b bz]; cbn [decode_bool length]; [eexists _, _, _; split; [reflexivity|lia]|].
    destruct (b =? 0); [eexists _, _, _; split; [reflexivity|lia]|].
    destruct (b =? 1); eexists _, _, _; (split; [reflexivity|lia]).
  - intros [|b bz] a n H; cbn in H; [discriminate|].
    destruct (b =? 0); [inversion H; lia|]. destruct (b =? 1); [inversion H; lia|discriminate].
  - intros [|b bz] a n rest H; cbn in *; [discriminate|]. assumption.
Qed.
Lemma wb_byte_slice : well_behaved decode_byte_slice.
Proof.
  unfold well_behaved; splits; intros.
  - apply decode_byte_slice_ret.
  - apply decode_byte_slice_some in H. destruct H as (u & m & H & _ & _ & -> & _).
    apply decode_uvarint_some in H. lia.
  - apply decode_byte_slice_ext; assumption.
Qed.
