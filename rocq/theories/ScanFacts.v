(** Facts about the scanner. *)
From Coq Require Import ZArith String List Bool Lia.
From Coq Require Import ZifyBool ZifyNat.
From Verif Require Import Base Prims SpecWire PrimFacts PrimProps Scan SpecScan.
Import ListNotations.
Local Open Scope Z_scope.

(** The bytes of the parts. *)
Definition shown (s : list part) : bytes := concat (map snd s).

Lemma shown_app a b : shown (a ++ b) = shown a ++ shown b.
Proof. unfold shown. rewrite map_app, concat_app. reflexivity. Qed.

Lemma firstn_add {A} (a b : nat) (l : list A) : firstn (a + b) l = firstn a l ++ firstn b (skipn a l).
Proof.
  revert l. induction a as [|a IH]; intros l; [reflexivity|]. destruct l as [|x l]; [cbn; rewrite firstn_nil; reflexivity|].
  cbn [Nat.add firstn skipn app]. rewrite IH. reflexivity.
Qed.
Lemma skipn_add {A} (a b : nat) (l : list A) : skipn (a + b) l = skipn b (skipn a l).
Proof. revert l. induction a as [|a IH]; intros l; [reflexivity|]. destruct l; [cbn; rewrite skipn_nil; reflexivity|]. apply IH. Qed.

Lemma varint_count bz : snd (varint bz) = snd (uvarint bz).
Proof. unfold varint. destruct (uvarint bz). reflexivity. Qed.

(** A count of zero: the bytes end inside the number. *)
Definition unterminated (bz : bytes) : Prop := Forall (fun b => 128 <= b) bz /\ (length bz <= 10)%nat.
Lemma uvarint_loop_zero bz : forall i x s, (i <= 10)%nat ->
  snd (uvarint_loop bz i x s) = 0 <-> Forall (fun b => 128 <= b) bz /\ (i + length bz <= 10)%nat.
Proof.
  induction bz as [|b bz IH]; intros i x s Hi; cbn [uvarint_loop length].
  - cbn. split; intros; [split; [constructor|lia]|reflexivity].
  - destruct (i =? 10)%nat eqn:E10; [cbn; split; [lia|intros [_ X]; lia]|].
    destruct (b <? 128) eqn:Eb.
    + split; [destruct (_ && _); cbn; lia|]. intros [F _]. inversion F; subst. lia.
    + rewrite IH by lia. split.
      * intros [F L]. split; [constructor; [lia|exact F]|lia].
      * intros [F L]. inversion F; subst. split; [assumption|lia].
Qed.
Lemma uvarint_zero bz : snd (uvarint bz) = 0 <-> unterminated bz.
Proof. unfold uvarint. rewrite uvarint_loop_zero by lia. reflexivity. Qed.

Lemma scan_any_ret typ bz s n e : scan_any typ bz = SRet s n e -> (n <= length bz)%nat /\ shown s = firstn n bz.
Proof.
  unfold scan_any. destruct (typ =? Typ3Varint); [|destruct (typ =? Typ38Byte); [|destruct (typ =? Typ3ByteLength); [|destruct (typ =? Typ3_4Byte); [|discriminate]]]].
  - unfold scan_varint. pose proof (varint_count bz) as V. destruct (varint bz) as [i m]. destruct (uvarint bz) as [u m'] eqn:Eu. cbn [snd] in V. subst m'.
    pose proof (uvarint_count _ _ _ Eu) as C. unfold zlen in C. intros H.
    destruct (m <=? 0) eqn:E1; cbn [negb andb] in H.
    + destruct (0 =? m) eqn:E2; cbn [negb] in H; inversion H; subst; (split; [lia|reflexivity]).
    + rewrite Z.eqb_refl in H. inversion H; subst. split; [lia|]. unfold shown. cbn. rewrite app_nil_r. reflexivity.
  - unfold scan_8byte. destruct (length bz <? 8)%nat eqn:E; intros H; inversion H; subst; (split; [lia|]); [reflexivity|]. unfold shown. cbn [map concat snd]. rewrite app_nil_r. reflexivity.
  - unfold scan_byte_length. destruct (uvarint bz) as [l m]. destruct (zlen bz <=? i64 l).
    { intros H. inversion H; subst. split; [lia|reflexivity]. }
    destruct (m <? 0); [discriminate|]. unfold scan_slide. destruct (length bz <? Z.to_nat m)%nat eqn:E1; [discriminate|].
    destruct (i64 l <? 0); [discriminate|]. destruct (length (skipn (Z.to_nat m) bz) <? Z.to_nat (i64 l))%nat eqn:E2; [discriminate|].
    intros H. inversion H; subst. rewrite skipn_length in E2. split; [lia|]. unfold shown. cbn [map concat snd]. rewrite app_nil_r, firstn_add. reflexivity.
  - unfold scan_4byte. destruct (length bz <? 4)%nat eqn:E; intros H; inversion H; subst; (split; [lia|]); [reflexivity|]. unfold shown. cbn [map concat snd]. rewrite app_nil_r. reflexivity.
Qed.

Lemma scan_key_ret bz s typ n e : scan_field_key bz = (s, typ, n, e) -> (n <= length bz)%nat /\ shown s = firstn n bz.
Proof.
  unfold scan_field_key. destruct (uvarint bz) as [u m] eqn:Eu. pose proof (uvarint_count _ _ _ Eu) as C. unfold zlen in C.
  destruct (m <? 0) eqn:E; intros H; inversion H; subst; (split; [lia|]); [reflexivity|]. unfold shown. cbn. rewrite app_nil_r. reflexivity.
Qed.

Lemma scan_loop_ret : forall fuel root bz s n s' n' e, scan_loop fuel root bz s n = SRet s' n' e ->
  (n <= n' <= n + length bz)%nat /\ shown s' = shown s ++ firstn (n' - n) bz.
Proof.
  induction fuel as [|fuel IH]; intros root bz s n s' n' e H; [discriminate|]. cbn [scan_loop] in H.
  destruct (root && (length bz =? 0)%nat).
  { inversion H; subst. split; [lia|]. rewrite Nat.sub_diag, app_nil_r. reflexivity. }
  destruct (scan_field_key bz) as [[[s1 typ] n1] e1] eqn:Ek. apply scan_key_ret in Ek. destruct Ek as [K1 K2].
  unfold scan_slide in H at 1. destruct (length bz <? n1)%nat eqn:E1; [discriminate|].
  destruct e1 as [e1|].
  { inversion H; subst. split; [lia|]. rewrite shown_app, K2. f_equal. f_equal. lia. }
  destruct (scan_any typ (skipn n1 bz)) as [s2 n2 e2| |] eqn:Ea; try discriminate. apply scan_any_ret in Ea.
  destruct Ea as [A1 A2]. rewrite skipn_length in A1. unfold scan_slide in H at 1.
  destruct (length (skipn n1 bz) <? n2)%nat eqn:E2; [discriminate|].
  assert (Sh : shown (s ++ s1 ++ s2) = shown s ++ firstn (n1 + n2) bz) by (rewrite !shown_app, K2, A2, firstn_add; reflexivity).
  destruct e2 as [e2|].
  { inversion H; subst. split; [lia|]. rewrite Sh. f_equal. f_equal. lia. }
  apply IH in H. destruct H as [H1 H2]. rewrite <- skipn_add, skipn_length in H1. split; [lia|].
  rewrite H2, Sh, <- app_assoc, <- skipn_add. f_equal. rewrite <- firstn_add. f_equal. lia.
Qed.

(** A loop that does not end has reached an unterminated number. *)
Lemma scan_loop_fuel : forall fuel root bz s n, (length bz < fuel)%nat -> scan_loop fuel root bz s n = SFuel ->
  exists pre rest, bz = pre ++ rest /\ rest <> [] /\ unterminated rest.
Proof.
  induction fuel as [|fuel IH]; intros root bz s n Hf H; [lia|]. cbn [scan_loop] in H.
  destruct (root && (length bz =? 0)%nat); [discriminate|].
  destruct (scan_field_key bz) as [[[s1 typ] n1] e1] eqn:Ek. pose proof (scan_key_ret _ _ _ _ _ Ek) as [K1 _].
  unfold scan_slide in H at 1. destruct (length bz <? n1)%nat eqn:E1; [lia|].
  destruct e1 as [e1|]; [discriminate|].
  destruct (scan_any typ (skipn n1 bz)) as [s2 n2 e2| |] eqn:Ea; try discriminate.
  2: { exfalso. clear -Ea. unfold scan_any in Ea. destruct (typ =? Typ3Varint);
       [|destruct (typ =? Typ38Byte); [|destruct (typ =? Typ3ByteLength); [|destruct (typ =? Typ3_4Byte); [|discriminate]]]].
       - unfold scan_varint in Ea. destruct (varint _) as [? ?]. destruct (uvarint _) as [? ?]. destruct (negb _ && negb _); discriminate.
       - unfold scan_8byte in Ea. destruct (_ <? _)%nat; discriminate.
       - unfold scan_byte_length in Ea. destruct (uvarint _) as [? ?]. destruct (_ <=? _); [discriminate|]. destruct (_ <? 0); [discriminate|].
         unfold scan_slide in Ea. destruct (_ <? _)%nat; [discriminate|]. destruct (_ <? 0); [discriminate|]. destruct (_ <? _)%nat; discriminate.
       - unfold scan_4byte in Ea. destruct (_ <? _)%nat; discriminate. }
  pose proof (scan_any_ret _ _ _ _ _ Ea) as [A1 _].
  unfold scan_slide in H at 1. destruct (length (skipn n1 bz) <? n2)%nat eqn:E2; [lia|]. destruct e2 as [e2|]; [discriminate|].
  destruct (Nat.eq_dec n1 0) as [Z1|NZ].
  - assert (U : unterminated bz).
    { unfold scan_field_key in Ek. destruct (uvarint bz) as [u m] eqn:Eu. apply uvarint_zero. rewrite Eu. cbn [snd].
      destruct (m <? 0) eqn:Em; [discriminate|]. inversion Ek. lia. }
    destruct bz as [|b bz].
    + exfalso. destruct root; [cbn in Hf |].
      * clear -Ek Ea. cbn in Ek. inversion Ek; subst. cbn in Ea. inversion Ea.
      * cbn in Ek. inversion Ek; subst. cbn in Ea. inversion Ea.
    + exists [], (b :: bz). split; [reflexivity|]. split; [discriminate|exact U].
  - apply IH in H.
    + destruct H as (pre & rest & Hp & R). exists (firstn n1 bz ++ firstn n2 (skipn n1 bz) ++ pre), rest. split; [|exact R].
      rewrite <- !app_assoc, <- Hp, firstn_skipn, firstn_skipn. reflexivity.
    + rewrite !skipn_length. lia.
Qed.

(** ... and there it stays. *)
Lemma scan_loop_stuck rest : rest <> [] -> unterminated rest -> forall fuel root s n, scan_loop fuel root rest s n = SFuel.
Proof.
  intros Hne U. pose proof U as U'. apply uvarint_zero in U'. destruct (uvarint rest) as [u m] eqn:Eu. cbn [snd] in U'. subst m.
  assert (u = 0) by (destruct (uvarint_count _ _ _ Eu) as [[_ X]|X]; lia). subst u.
  induction fuel as [|fuel IH]; intros root s n; [reflexivity|]. cbn [scan_loop].
  destruct rest as [|b rest]; [contradiction|]. remember (b :: rest) as bz eqn:Eb.
  replace (root && (length bz =? 0)%nat) with false by (subst bz; destruct root; reflexivity).
  unfold scan_field_key. rewrite Eu. cbn [Z.ltb Z.compare]. change (0 <? 0) with false. cbv iota beta zeta. change (Z.to_nat 0) with 0%nat.
  unfold scan_slide at 1. cbn [Nat.ltb Nat.leb]. replace (length bz <? 0)%nat with false by reflexivity. cbn [skipn].
  change (Z.land 0 7) with 0. unfold scan_any. change (0 =? Typ3Varint) with true. cbv iota.
  unfold scan_varint. pose proof (varint_count bz) as V. rewrite Eu in V. destruct (varint bz) as [i m]. cbn [snd] in V. subst m. rewrite Eu.
  replace (match bz with [] => Some "EOF while reading (U)Varint"%string | _ => None end) with (@None error) by (subst bz; reflexivity).
  cbn. replace (length bz <? 0)%nat with false by reflexivity. cbn [skipn]. apply IH.
Qed.

(** ** Listings *)

Lemma num64_uvarint b u rest : num64 b u -> uvarint (b ++ rest) = (u, zlen b) /\ 0 < zlen b.
Proof.
  intros (L & U & N). pose proof (decode_uvarint_leb b rest u L U N) as H. apply decode_uvarint_some in H. unfold zlen.
  destruct H as [H1 H2]. rewrite H1. split; [reflexivity|lia].
Qed.
Lemma uvarint_num64 bz u n : bytes_ok bz -> uvarint bz = (u, n) -> 0 < n ->
  num64 (firstn (Z.to_nat n) bz) u /\ zlen (firstn (Z.to_nat n) bz) = n.
Proof.
  intros Hok H Hn. assert (D : decode_uvarint bz = DRet u (Z.to_nat n) None).
  { unfold decode_uvarint. rewrite H. destruct (n =? 0) eqn:E; [lia|]. destruct (n <? 0) eqn:E2; [lia|]. reflexivity. }
  pose proof (decode_uvarint_range _ _ _ Hok D) as R. pose proof (decode_uvarint_minimal _ _ _ Hok D) as (L & _).
  pose proof (uvarint_count _ _ _ H) as C. unfold zlen in *. rewrite firstn_length. split; [|lia]. split; [exact L|]. split; [exact R|].
  apply uvarint_inv in H; [|exact Hok|exact Hn]. destruct H as (ds & last & rest & -> & H1 & H2 & H3 & H4 & -> & H5).
  rewrite firstn_length. lia.
Qed.

Lemma firstn_zlen (a b : bytes) : firstn (Z.to_nat (zlen a)) (a ++ b) = a.
Proof. unfold zlen. rewrite Nat2Z.id, firstn_app, firstn_all, Nat.sub_diag. cbn. apply app_nil_r. Qed.
Lemma skipn_zlen (a b : bytes) : skipn (Z.to_nat (zlen a)) (a ++ b) = b.
Proof. unfold zlen. rewrite Nat2Z.id, skipn_app, skipn_all, Nat.sub_diag. reflexivity. Qed.

Lemma key_listed key num wt rest : 0 <= wt < 8 -> num64 key (num * 8 + wt) ->
  scan_field_key (key ++ rest) = ([(Plain, key)], wt, length key, None).
Proof.
  intros Hw K. unfold scan_field_key. destruct (num64_uvarint _ _ rest K) as [-> P]. destruct (zlen key <? 0) eqn:E; [lia|].
  rewrite firstn_zlen. do 3 f_equal; [|unfold zlen; lia]. change 7 with (Z.ones 3). rewrite Z.land_ones by lia. change (2 ^ 3) with 8.
  rewrite Z.add_comm, Z_mod_plus_full. apply Z.mod_small. exact Hw.
Qed.

Lemma varint_listed p u rest : num64 p u -> scan_any 0 (p ++ rest) = SRet [(Cyan, p)] (length p) None.
Proof.
  intros K. destruct (num64_uvarint _ _ rest K) as [H P]. unfold scan_any. change (0 =? Typ3Varint) with true. cbv iota. unfold scan_varint.
  pose proof (varint_count (p ++ rest)) as V. destruct (varint (p ++ rest)) as [i m]. rewrite H in V. cbn [snd] in V. subst m. rewrite H.
  cbv zeta. destruct (zlen p <=? 0) eqn:E; [lia|]. cbn [negb andb]. rewrite Z.eqb_refl. rewrite firstn_zlen.
  replace (Z.to_nat (zlen p)) with (length p) by (unfold zlen; lia).
  destruct p; [cbn in P; lia|]. reflexivity.
Qed.
Lemma fixed_listed n (p rest : bytes) : length p = n -> firstn n (p ++ rest) = p /\ (length (p ++ rest) <? n)%nat = false.
Proof.
  intros <-. split; [rewrite firstn_app, firstn_all, Nat.sub_diag; cbn; apply app_nil_r|]. rewrite app_length. apply Nat.ltb_ge. lia.
Qed.
Lemma len_listed n p rest : num64 n (zlen p) -> zlen p < 2 ^ 63 ->
  scan_any 2 (n ++ p ++ rest) = SRet [(Cyan, n); (Green, p)] (length n + length p) None.
Proof.
  intros K L. destruct (num64_uvarint _ _ (p ++ rest) K) as [H P]. unfold scan_any. change (2 =? Typ3Varint) with false.
  change (2 =? Typ38Byte) with false. change (2 =? Typ3ByteLength) with true. cbv iota. unfold scan_byte_length. rewrite H. cbv zeta.
  assert (0 <= zlen p) by (unfold zlen; lia). rewrite i64_small by lia.
  assert (0 <= zlen rest) by (unfold zlen; lia). destruct (zlen (n ++ p ++ rest) <=? zlen p) eqn:E; [unfold zlen in *; rewrite !app_length in E; lia|]. destruct (zlen n <? 0) eqn:E2; [lia|].
  unfold scan_slide. rewrite skipn_zlen, !firstn_zlen. rewrite !app_length. destruct (zlen p <? 0) eqn:E4; [lia|].
  unfold zlen at 1 2 3 4. rewrite !Nat2Z.id.
  destruct (_ <? length n)%nat eqn:E3; [lia|]. destruct (_ <? length p)%nat eqn:E5; [lia|]. reflexivity.
Qed.

Lemma listing_entry bz l : listing bz l -> bz <> [] ->
  exists key wt p pp r l', bz = key ++ p ++ r /\ l = (Plain, key) :: pp ++ l' /\ (exists num, 0 <= wt < 8 /\ num64 key (num * 8 + wt)) /\
    scan_any wt (p ++ r) = SRet pp (length p) None /\ listing r l'.
Proof.
  intros H Hne. inversion H; subst; [congruence| | | |].
  - exists key, 0, p, [(Cyan, p)], r, l0. splits; try reflexivity; try assumption; [exists num; rewrite Z.add_0_r; split; [lia|assumption]|].
    eapply varint_listed; eassumption.
  - exists key, 1, p, [(Blue, p)], r, l0. splits; try reflexivity; try assumption; [exists num; split; [lia|assumption]|].
    destruct (fixed_listed 8 p r H1) as [F1 F2]. unfold scan_any. change (1 =? Typ3Varint) with false. change (1 =? Typ38Byte) with true. cbv iota.
    unfold scan_8byte. rewrite F1, F2, H1. reflexivity.
  - exists key, 2, (n ++ p), [(Cyan, n); (Green, p)], r, l0. rewrite <- app_assoc. splits; try reflexivity; try assumption; [exists num; split; [lia|assumption]|].
    rewrite app_length. apply len_listed; assumption.
  - exists key, 5, p, [(Blue, p)], r, l0. splits; try reflexivity; try assumption; [exists num; split; [lia|assumption]|].
    destruct (fixed_listed 4 p r H1) as [F1 F2]. unfold scan_any. change (5 =? Typ3Varint) with false. change (5 =? Typ38Byte) with false.
    change (5 =? Typ3ByteLength) with false. change (5 =? Typ3_4Byte) with true. cbv iota.
    unfold scan_4byte. rewrite F1, F2, H1. reflexivity.
Qed.

Lemma skipn_length_app {A} (a b : list A) : skipn (length a) (a ++ b) = b.
Proof. rewrite skipn_app, skipn_all, Nat.sub_diag. reflexivity. Qed.

Lemma listing_scanned : forall fuel bz l s n, (length bz < fuel)%nat -> listing bz l ->
  scan_loop fuel true bz s n = SRet (s ++ l) (n + length bz) None.
Proof.
  induction fuel as [|fuel IH]; intros bz l s n Hf H; [lia|]. cbn [scan_loop]. destruct bz as [|b bz].
  - inversion H; subst; cbn; rewrite ?app_nil_r, ?Nat.add_0_r; try reflexivity;
      exfalso; match goal with X : num64 ?k _ |- _ => destruct X as ((ds & last & E & _) & _); subst k; destruct (map _ ds); discriminate end.
  - destruct (listing_entry _ _ H) as (key & wt & p & pp & r & l' & Eb & -> & (num & Hw & K) & A & L'); [discriminate|].
    rewrite Eb in *. replace (true && (length (key ++ p ++ r) =? 0)%nat) with false by (rewrite <- Eb; reflexivity).
    rewrite (key_listed key num wt (p ++ r) Hw K). unfold scan_slide. rewrite skipn_length_app.
    destruct (length (key ++ p ++ r) <? length key)%nat eqn:E1; [rewrite app_length in E1; lia|]. rewrite A.
    destruct (length (p ++ r) <? length p)%nat eqn:E2; [rewrite app_length in E2; lia|]. rewrite skipn_length_app.
    destruct (num64_uvarint _ _ [] K) as [_ P]. unfold zlen in P.
    rewrite (IH r l'); [|rewrite !app_length in Hf; lia|exact L']. rewrite !app_length, <- !app_assoc. f_equal. lia.
Qed.

(** The other way round: what is scanned to the end without an error is a listing. *)
Lemma scanned_any typ bz s n : bytes_ok bz -> 0 <= typ < 8 -> scan_any typ bz = SRet s n None ->
  (bz <> [] /\ unterminated bz /\ n = 0%nat) \/ exists p r, bz = p ++ r /\ n = length p /\
    forall key num l, num64 key (num * 8 + typ) -> listing r l -> listing (key ++ bz) ((Plain, key) :: s ++ l).
Proof.
  intros Hok Ht H. rewrite <- uvarint_zero. destruct (uvarint bz) as [u m] eqn:Eu. cbn [snd].
  pose proof (uvarint_count _ _ _ Eu) as C. unfold scan_any in H.
  destruct (typ =? Typ3Varint) eqn:T0; [|destruct (typ =? Typ38Byte) eqn:T1; [|destruct (typ =? Typ3ByteLength) eqn:T2; [|destruct (typ =? Typ3_4Byte) eqn:T5; [|discriminate]]]].
  - unfold scan_varint in H. pose proof (varint_count bz) as V. rewrite Eu in V, H. destruct (varint bz) as [i m']. cbn [snd] in V. subst m'.
    cbv zeta in H. destruct (m <=? 0) eqn:E1.
    + left. cbn [negb andb] in H. destruct (0 =? m) eqn:E2; cbn [negb] in H; inversion H; subst. split; [destruct bz; [discriminate|congruence]|]. split; [lia|reflexivity].
    + right. cbn [negb andb] in H. rewrite Z.eqb_refl in H. inversion H; subst. clear H.
      destruct (uvarint_num64 _ _ _ Hok Eu ltac:(lia)) as [N L]. exists (firstn (Z.to_nat m) bz), (skipn (Z.to_nat m) bz).
      split; [symmetry; apply firstn_skipn|]. split; [unfold zlen in L; lia|]. intros key num l K Hl.
      assert (typ = 0) by (unfold Typ3Varint in T0; lia). subst typ. rewrite Z.add_0_r in K.
      rewrite <- (firstn_skipn (Z.to_nat m) bz) at 1. cbn [app]. eapply ls_varint; eassumption.
  - unfold scan_8byte in H. destruct (length bz <? 8)%nat eqn:E; [discriminate|]. right.
    assert (Es : s = [(Blue, firstn 8 bz)]) by congruence. assert (En : n = 8%nat) by congruence. clear H. subst s n. exists (firstn 8 bz), (skipn 8 bz).
    split; [symmetry; apply firstn_skipn|]. split; [rewrite firstn_length; lia|]. intros key num l K Hl.
    assert (typ = 1) by (unfold Typ38Byte in T1; lia). subst typ. rewrite <- (firstn_skipn 8 bz) at 1. cbn [app]. eapply ls_64; [eassumption| |eassumption]. rewrite firstn_length. lia.
  - unfold scan_byte_length in H. rewrite Eu in H. cbv zeta in H. destruct (zlen bz <=? i64 u) eqn:E1; [inversion H|].
    destruct (m <? 0) eqn:E2; [discriminate|]. unfold scan_slide in H. destruct (length bz <? Z.to_nat m)%nat eqn:E3; [discriminate|].
    destruct (i64 u <? 0) eqn:E4; [discriminate|]. destruct (length (skipn (Z.to_nat m) bz) <? Z.to_nat (i64 u))%nat eqn:E5; [discriminate|].
    destruct (m =? 0) eqn:E0.
    { left. assert (m = 0) by lia. subst m. assert (u = 0) by lia. subst u. change (i64 0) with 0 in *. split; [destruct bz; [cbn in E1; lia|congruence]|].
      split; [reflexivity|]. inversion H. reflexivity. }
    right. inversion H; subst. clear H. destruct (uvarint_num64 _ _ _ Hok Eu ltac:(lia)) as [N L].
    assert (Iu : i64 u = u /\ u < 2 ^ 63). { destruct N as (_ & R & _). destruct (Z_lt_le_dec u (2 ^ 63)); [split; [apply i64_small; lia|lia]|]. rewrite i64_neg in E4 by lia. lia. }
    destruct Iu as [Iu Lu]. rewrite Iu in *. set (r1 := skipn (Z.to_nat m) bz) in *.
    assert (Lp : zlen (firstn (Z.to_nat u) r1) = u) by (unfold zlen; rewrite firstn_length; lia).
    exists (firstn (Z.to_nat m) bz ++ firstn (Z.to_nat u) r1), (skipn (Z.to_nat u) r1).
    split; [rewrite <- app_assoc, firstn_skipn; unfold r1; symmetry; apply firstn_skipn|].
    split; [rewrite app_length; unfold zlen in *; lia|]. intros key num l K Hl.
    assert (typ = 2) by (unfold Typ3ByteLength in T2; lia). subst typ.
    rewrite <- (firstn_skipn (Z.to_nat m) bz) at 1. fold r1. rewrite <- (firstn_skipn (Z.to_nat u) r1) at 1. cbn [app].
    eapply ls_len; [eassumption|rewrite Lp; exact N|rewrite Lp; exact Lu|exact Hl].
  - unfold scan_4byte in H. destruct (length bz <? 4)%nat eqn:E; [discriminate|]. right.
    assert (Es : s = [(Blue, firstn 4 bz)]) by congruence. assert (En : n = 4%nat) by congruence. clear H. subst s n. exists (firstn 4 bz), (skipn 4 bz).
    split; [symmetry; apply firstn_skipn|]. split; [rewrite firstn_length; lia|]. intros key num l K Hl.
    assert (typ = 5) by (unfold Typ3_4Byte in T5; lia). subst typ. rewrite <- (firstn_skipn 4 bz) at 1. cbn [app]. eapply ls_32; [eassumption| |eassumption]. rewrite firstn_length. lia.
Qed.

Lemma scanned_listing : forall fuel bz s n s' n', bytes_ok bz -> scan_loop fuel true bz s n = SRet s' n' None ->
  exists l, listing bz l /\ s' = s ++ l /\ n' = (n + length bz)%nat.
Proof.
  induction fuel as [|fuel IH]; intros bz s n s' n' Hok H; [discriminate|]. cbn [scan_loop] in H.
  destruct bz as [|b bz0]. { cbn in H. inversion H; subst. exists []. rewrite app_nil_r, Nat.add_0_r. split; [constructor|auto]. }
  remember (b :: bz0) as bz eqn:Eb. assert (Hne : bz <> []) by (subst; discriminate). replace (true && (length bz =? 0)%nat) with false in H by (subst; reflexivity).
  clear Eb b bz0. destruct (scan_field_key bz) as [[[s1 typ] n1] e1] eqn:Ek. unfold scan_slide in H at 1. destruct (length bz <? n1)%nat eqn:E1; [discriminate|].
  destruct e1; [inversion H|]. destruct (scan_any typ (skipn n1 bz)) as [s2 n2 e2| |] eqn:Ea; try discriminate.
  unfold scan_slide in H at 1. destruct (length (skipn n1 bz) <? n2)%nat eqn:E2; [discriminate|]. destruct e2; [inversion H|].
  unfold scan_field_key in Ek. destruct (uvarint bz) as [u m] eqn:Eu. destruct (m <? 0) eqn:Em; [inversion Ek|]. inversion Ek; subst s1 typ n1. clear Ek.
  destruct (m =? 0) eqn:E0.
  { exfalso. assert (m = 0) by lia. subst m. assert (U : unterminated bz) by (apply uvarint_zero; rewrite Eu; reflexivity).
    pose proof (scan_loop_stuck bz Hne U (S fuel) true s n) as St. cbn [scan_loop] in St.
    replace (true && (length bz =? 0)%nat) with false in St by (destruct bz; [congruence|reflexivity]).
    unfold scan_field_key in St. rewrite Eu in St. change (0 <? 0) with false in St. cbv iota beta zeta in St. unfold scan_slide in St at 1. rewrite E1, Ea in St.
    unfold scan_slide in St. rewrite E2 in St. rewrite St in H. discriminate. }
  destruct (uvarint_num64 _ _ _ Hok Eu ltac:(lia)) as [N L]. set (key := firstn (Z.to_nat m) bz) in *. set (r1 := skipn (Z.to_nat m) bz) in *.
  assert (Hr1 : bytes_ok r1) by (apply bytes_ok_skipn; exact Hok). assert (Ebz : bz = key ++ r1) by (symmetry; apply firstn_skipn).
  assert (Ht : 0 <= Z.land u 7 < 8) by (change 7 with (Z.ones 3); rewrite Z.land_ones by lia; apply Z.mod_pos_bound; lia).
  assert (Hu : u = u / 8 * 8 + Z.land u 7) by (change 7 with (Z.ones 3); rewrite Z.land_ones by lia; change (2 ^ 3) with 8; pose proof (Z.div_mod u 8); lia).
  destruct (scanned_any _ _ _ _ Hr1 Ht Ea) as [(Hn & U & ->)|(p & r & Er & -> & G)].
  { exfalso. cbn [skipn] in H. rewrite scan_loop_stuck in H by assumption. discriminate. }
  rewrite Er, skipn_length_app in H. apply IH in H; [|rewrite Er in Hr1; apply bytes_ok_app in Hr1; apply Hr1].
  destruct H as (l & Hl & -> & ->). exists ((Plain, key) :: s2 ++ l). split; [rewrite Ebz; apply (G key (u / 8) l); [rewrite <- Hu; exact N|exact Hl]|].
  rewrite <- !app_assoc. split; [reflexivity|]. rewrite Ebz, Er, !app_length. unfold zlen in L. fold key in L. lia.
Qed.
