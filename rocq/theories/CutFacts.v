(** Facts about length-prefixed messages cut short, continued or put one after
    another (C82). *)
From Coq Require Import ZArith String List Bool Lia.
From Coq Require Import ZifyBool ZifyNat.
From Verif Require Import Base Prims SpecWire PrimFacts PrimProps Types Codec BinEnc BinDec Amino FuelFacts
  DecFacts FrameFacts Stream SpecStream StreamFacts SpecCut EncFacts Sane.
Import ListNotations.
Local Open Scope Z_scope.

(** ** Lists *)

Lemma app_inj_len {A} (a b x y : list A) : length a = length b -> a ++ x = b ++ y -> a = b /\ x = y.
Proof.
  revert b. induction a as [|h a IH]; intros [|g b] L E; cbn in L; try discriminate L; cbn [app] in E.
  - split; [reflexivity|exact E].
  - inversion E; subst. destruct (IH b ltac:(lia) ltac:(assumption)) as [-> ->]. split; reflexivity.
Qed.

Lemma split_at {A} (a b pre body : list A) : a ++ b = pre ++ body ->
  (exists l, a = pre ++ l /\ body = l ++ b) \/ (exists l0 l1, pre = a ++ l0 :: l1).
Proof.
  revert pre. induction a as [|h a IH]; intros [|g pre] E; cbn [app] in E.
  - left. exists []. split; [reflexivity|]. symmetry. exact E.
  - right. exists g, pre. reflexivity.
  - left. exists (h :: a). split; [reflexivity|]. symmetry. exact E.
  - inversion E; subst. destruct (IH pre ltac:(assumption)) as [(l & -> & ->)|(l0 & l1 & ->)].
    + left. exists l. split; reflexivity.
    + right. exists l0, l1. reflexivity.
Qed.

Lemma cut_digits ds last a l0 l1 : map contb ds ++ [last] = a ++ l0 :: l1 -> Forall digit128 ds ->
  exists ds', a = map contb ds' /\ Forall digit128 ds' /\ (length ds' <= length ds)%nat.
Proof.
  intros E H. revert a E. induction H as [|d ds Hd Hds IH]; intros a E; cbn [map app] in E.
  - destruct a as [|h a]; [exists []; split; [reflexivity|split; [constructor|cbn; lia]]|].
    inversion E. destruct a; discriminate.
  - destruct a as [|h a]; [exists []; split; [reflexivity|split; [constructor|cbn; lia]]|].
    inversion E; subst. destruct (IH a ltac:(assumption)) as (ds' & -> & Hds' & L).
    exists (d :: ds'). split; [reflexivity|]. split; [constructor; assumption|cbn [length]; lia].
Qed.

(** ** Frames *)

Lemma marshalled_framed k env c t v bz : marshal_length_prefixed k env c t v = EOk bz -> zlen bz < 2 ^ 63 ->
  exists pre body, framed bz pre body.
Proof.
  unfold marshal_length_prefixed. destruct (marshal_bare k env c t v) as [body|e|p|]; cbn [ebind]; try discriminate.
  intros H Hz. apply EOk_inj in H. subst bz. rewrite zlen_app in Hz. pose proof (zlen_nonneg body).
  pose proof (zlen_nonneg (encode_uvarint (zlen body))). exists (encode_uvarint (zlen body)), body.
  split; [reflexivity|]. split.
  - destruct (encode_uvarint_leb (zlen body)) as (ds & last & L1 & L2 & L3 & L4 & _); [lia|]. exists ds, last. auto.
  - destruct (encode_uvarint_digits (zlen body)) as (ds & last & L1 & _ & _ & _ & _ & L2 & _); [lia|].
    rewrite L1, app_length, map_length. cbn [length]. lia.
Qed.

(** The digits of a prefix. *)
Lemma framed_digits bz pre body : framed bz pre body -> zlen bz < 2 ^ 63 ->
  exists ds last, pre = map contb ds ++ [last] /\ Forall digit128 ds /\ digit128 last /\ (length ds < 10)%nat /\
    zlen body = val128 (ds ++ [last]) /\ (length ds = 9%nat -> last <= 1).
Proof.
  intros (-> & (ds & last & -> & Hds & Hl & Hv) & Hlen) Hz. rewrite zlen_app in Hz.
  rewrite app_length, map_length in Hlen. cbn [length] in Hlen. pose proof (zlen_nonneg body).
  pose proof (zlen_nonneg (map (fun d => d + 128) ds ++ [last])).
  exists ds, last. change (map (fun d => d + 128) ds) with (map contb ds). splits; try assumption; try reflexivity; try lia.
  intros H9. rewrite val128_app in Hv. unfold zlen in Hv at 2. rewrite H9 in Hv. cbn [val128] in Hv.
  pose proof (val128_bound ds Hds). change (128 ^ Z.of_nat 9) with (2 ^ 63) in Hv. unfold digit128 in Hl. lia.
Qed.

Lemma framed_uvarint_rest bz pre body rest : framed bz pre body -> zlen bz < 2 ^ 63 ->
  uvarint (pre ++ rest) = (zlen body, zlen pre).
Proof.
  intros F Hz. destruct (framed_digits _ _ _ F Hz) as (ds & last & -> & Hds & Hl & Hlen & Hv & H9).
  rewrite <- app_assoc. cbn [app]. rewrite uvarint_digits by (assumption || lia). rewrite Hv. f_equal.
  unfold zlen. rewrite app_length, map_length. cbn [length]. lia.
Qed.

(** No frame is the beginning of another. *)
Lemma framed_same bz pre body bz' pre' body' x x' : framed bz pre body -> framed bz' pre' body' -> zlen bz < 2 ^ 63 -> zlen bz' < 2 ^ 63 ->
  bz ++ x = bz' ++ x' -> bz = bz' /\ x = x'.
Proof.
  intros F F' Hz Hz' E. pose proof (framed_uvarint_rest _ _ _ (body ++ x) F Hz) as U.
  pose proof (framed_uvarint_rest _ _ _ (body' ++ x') F' Hz') as U'.
  assert (E1 : pre ++ body ++ x = pre' ++ body' ++ x').
  { destruct F as (-> & _), F' as (-> & _). rewrite <- !app_assoc in E. exact E. }
  rewrite E1, U' in U. inversion U as [[E2 E3]].
  assert (L : length bz = length bz').
  { destruct F as (-> & _), F' as (-> & _). rewrite !app_length. unfold zlen in E2, E3. lia. }
  apply app_inj_len; assumption.
Qed.

(** ** Unmarshal *)

Lemma uvarint_cut ds : Forall digit128 ds -> forall i x s, (i + length ds <= 10)%nat -> uvarint_loop (map contb ds) i x s = (0, 0).
Proof.
  induction 1 as [|d ds Hd Hds IH]; intros i x s Hi; cbn [map uvarint_loop length] in *; [reflexivity|].
  destruct (i =? 10)%nat eqn:E; [lia|]. unfold digit128 in Hd. destruct (contb d <? 128) eqn:E1; [unfold contb in E1; lia|].
  apply IH. lia.
Qed.

Lemma unmarshal_cut fd env c bz pre body a b t v0 : framed bz pre body -> zlen bz < 2 ^ 63 -> bz = a ++ b -> b <> [] ->
  exists e, unmarshal_length_prefixed fd env c a t v0 = URet v0 (Some e).
Proof.
  intros F Hz E Hb. assert (0 < zlen b) by (destruct b; [contradiction|unfold zlen; cbn [length]; lia]).
  unfold unmarshal_length_prefixed. destruct a as [|a0 a1] eqn:Ea; [eauto|]. rewrite <- Ea in *. clear Hb.
  assert (0 < zlen a) by (subst a; unfold zlen; cbn [length]; lia).
  assert (zlen bz = zlen a + zlen b) by (rewrite E; apply zlen_app).
  assert (E' : a ++ b = pre ++ body) by (destruct F as (F & _); congruence).
  apply split_at in E'. destruct E' as [(l & Hl1 & Hl2)|(l0 & l1 & Hl1)].
  - pose proof (framed_uvarint_rest _ _ _ l F Hz) as U. rewrite <- Hl1 in U. rewrite U.
    assert (zlen a = zlen pre + zlen l) by (rewrite Hl1; apply zlen_app).
    assert (zlen body = zlen l + zlen b) by (rewrite Hl2; apply zlen_app).
    pose proof (zlen_nonneg pre). pose proof (zlen_nonneg l). rewrite u64_small by lia.
    destruct (zlen pre <? 0); [eauto|]. destruct (zlen a - zlen pre <? zlen body) eqn:E2; [eauto|lia].
  - destruct (framed_digits _ _ _ F Hz) as (ds & last & Hpre & Hds & Hl & Hlen & _).
    rewrite Hpre in Hl1. destruct (cut_digits _ _ _ _ _ Hl1 Hds) as (ds' & Ha & Hds' & L).
    assert (U : uvarint a = (0, 0)) by (rewrite Ha; apply uvarint_cut; [exact Hds'|lia]).
    rewrite U. change (0 <? 0) with false. rewrite Z.sub_0_r. rewrite u64_small by lia. cbv iota.
    destruct (zlen a <? 0) eqn:E2; [eauto|]. destruct (0 <? zlen a) eqn:E3; [eauto|lia].
Qed.

Lemma unmarshal_more fd env c bz pre body x t v0 : framed bz pre body -> zlen (bz ++ x) < 2 ^ 63 -> x <> [] ->
  exists e, unmarshal_length_prefixed fd env c (bz ++ x) t v0 = URet v0 (Some e).
Proof.
  intros F Hz Hx. assert (0 < zlen x) by (destruct x; [contradiction|unfold zlen; cbn [length]; lia]).
  unfold unmarshal_length_prefixed. destruct (bz ++ x) as [|a0 a1] eqn:Ea; [eauto|]. rewrite <- Ea in *.
  rewrite zlen_app in *. assert (Hz' : zlen bz < 2 ^ 63) by lia.
  pose proof (framed_uvarint_rest _ _ _ (body ++ x) F Hz') as U. destruct F as (F & _).
  rewrite app_assoc, <- F in U. rewrite U. assert (zlen bz = zlen pre + zlen body) by (rewrite F; apply zlen_app).
  pose proof (zlen_nonneg pre). pose proof (zlen_nonneg body). rewrite u64_small by lia.
  destruct (zlen pre <? 0); [eauto|]. destruct (_ <? zlen body) eqn:E2; [eauto|]. destruct (zlen body <? _) eqn:E3; [eauto|lia].
Qed.

(** ** The reader *)

Section Cut.
  Variable S : Type.
  Variable read : S -> nat -> bytes * option error * S.
  Variable eof : bool.
  Variable holds : S -> bytes -> Prop.
  Hypothesis Hch : chunked read eof holds.
  Hypothesis Hend : ends read holds.

  Lemma read_prefix_cut ds : Forall digit128 ds ->
    forall k s max n buf err, (length ds < k)%nat -> holds s (map contb ds) ->
    exists n' e s', read_prefix S read k s max n buf err = PFail n' e s' /\ (eof = false -> n' = n + zlen ds).
  Proof.
    induction 1 as [|d ds Hd Hds IH]; intros k s max n buf err Hk F;
      (destruct k as [|k]; [cbn [length] in Hk; lia|]); cbn [map read_prefix] in *.
    - destruct (Hend s 1%nat F ltac:(lia)) as (e & s' & Hr). rewrite Hr. exists n, e, s'. split; [reflexivity|].
      intros _. unfold zlen. cbn [length]. lia.
    - destruct (Hch s _ 1%nat F ltac:(discriminate) ltac:(lia)) as (b & d' & e & s' & Hr & Hb & Hlb & Hn & F').
      destruct b as [|y [|? ?]]; cbn [length] in Hlb; [lia| |lia]. cbn [app] in Hb. inversion Hb; subst y d'. rewrite Hr.
      destruct e as [e|].
      + exists n, e, s'. split; [reflexivity|]. intros X. destruct Hn as [Hn|[Hn _]]; [discriminate Hn|congruence].
      + unfold digit128 in Hd. rewrite land_cont by (unfold contb; lia). destruct (contb d <? 128) eqn:E; [unfold contb in E; lia|].
        edestruct (IH k s' max (n + 1)) as (n' & e' & s'' & Hp & Hn'); [cbn [length] in Hk; lia|exact F'|].
        exists n', e', s''. split; [exact Hp|]. intros X. rewrite (Hn' X). unfold zlen. cbn [length]. lia.
  Qed.

  Lemma read_full_cut : forall fuel s d need acc, (length d < need)%nat -> (length d < fuel)%nat -> holds s d ->
    exists out e s', read_full S read fuel s need acc = Some (out, Some e, s').
  Proof.
    induction fuel as [|fuel IH]; intros s d need acc Hn Hf F; [lia|].
    destruct need as [|need]; [lia|]. cbn [read_full]. destruct d as [|x d].
    - destruct (Hend s (Datatypes.S need) F ltac:(lia)) as (e & s' & Hr). rewrite Hr.
      change (firstn (Datatypes.S need) (@nil Z)) with (@nil Z). cbn [length Nat.leb]. eauto.
    - destruct (Hch s _ (Datatypes.S need) F ltac:(discriminate) ltac:(lia)) as (b & d' & e & s' & Hr & Hb & Hlb & He & F').
      rewrite Hr. rewrite (firstn_all2 b) by lia.
      assert (L : length (x :: d) = (length b + length d')%nat) by (rewrite Hb; apply app_length).
      destruct e as [e|].
      + destruct (Datatypes.S need <=? length b)%nat eqn:E; [lia|]. eauto.
      + apply (IH s' d' (Datatypes.S need - length b)%nat (acc ++ b)); [lia|lia|exact F'].
  Qed.

  Lemma reader_cut fuel alloc unm v0 s max bz pre body a b :
    framed bz pre body -> zlen bz < 2 ^ 63 -> 0 <= max < 2 ^ 63 -> alloc (zlen body) = true ->
    (length body <= fuel)%nat -> bz = a ++ b -> b <> [] -> holds s a ->
    exists n e s', unmarshal_reader S read fuel alloc unm v0 s max = RRet n v0 (Some e) s' /\
      (eof = false -> n = Z.min (zlen a) (zlen pre)).
  Proof.
    intros F Hz Hmax Ha Hf E Hb Hs. assert (0 < zlen b) by (destruct b; [contradiction|unfold zlen; cbn [length]; lia]).
    pose proof (framed_uvarint_rest _ _ _ (repeat 0 (10 - length pre)) F Hz) as U.
    destruct (framed_digits _ _ _ F Hz) as (ds & last & Hpre & Hds & Hl & Hlen & Hv & H9).
    assert (E' : a ++ b = pre ++ body) by (destruct F as (F & _); congruence).
    assert (zlen bz = zlen a + zlen b) by (rewrite E; apply zlen_app).
    assert (zlen bz = zlen pre + zlen body) by (rewrite E, E'; apply zlen_app).
    assert (Hp : zlen pre = zlen ds + 1) by (rewrite Hpre; unfold zlen; rewrite app_length, map_length; cbn [length]; lia).
    pose proof (zlen_nonneg body). pose proof (zlen_nonneg a). pose proof (zlen_nonneg pre).
    unfold unmarshal_reader. destruct (max <? 0) eqn:Em; [lia|]. clear Em. unfold read_length.
    apply split_at in E'. destruct E' as [(l & Hl1 & Hl2)|(l0 & l1 & Hl1)].
    - (* the prefix is there *)
      assert (zlen a = zlen pre + zlen l) by (rewrite Hl1; apply zlen_app). pose proof (zlen_nonneg l).
      assert (zlen body = zlen l + zlen b) by (rewrite Hl2; apply zlen_app).
      assert (Hfl : (length l < length body)%nat) by (unfold zlen in *; lia).
      assert (G : (exists s1, read_prefix S read 10 s max 0 [] None = PDone pre (zlen pre) None s1 /\ holds s1 l) \/
                  (eof = true /\ exists n e s1, read_prefix S read 10 s max 0 [] None = PFail n e s1)).
      { assert (Hin : holds s (map contb ds ++ last :: l)) by (rewrite Hl1, Hpre, <- app_assoc in Hs; exact Hs).
        destruct (eof) eqn:Eeof.
        - destruct l as [|l0 l1].
          + (* the error may come with the last byte of the prefix *)
            assert (Gen : forall ds, Forall digit128 ds -> forall k s n buf err, (length ds < k)%nat -> holds s (map contb ds ++ [last]) ->
              (exists s1, read_prefix S read k s max n buf err = PDone (buf ++ map contb ds ++ [last]) (n + zlen ds + 1) None s1 /\ holds s1 []) \/
              (exists n' e s1, read_prefix S read k s max n buf err = PFail n' e s1)).
            { clear - Hch Hl Eeof. induction 1 as [|d ds Hd Hds IH]; intros k s n buf err Hk F;
                (destruct k as [|k]; [cbn [length] in Hk; lia|]); cbn [map app read_prefix] in *;
                destruct (Hch s _ 1%nat F ltac:(discriminate) ltac:(lia)) as (b & d' & e & s' & Hr & Hb & Hlb & He & F');
                (destruct b as [|y [|? ?]]; cbn [length] in Hlb; [lia| |lia]); cbn [app] in Hb; inversion Hb; subst y d'; rewrite Hr;
                (destruct e as [e|]; [right; eauto|]).
              - unfold digit128 in Hl. rewrite land_cont by lia. destruct (last <? 128) eqn:E; [|lia].
                left. exists s'. split; [|exact F']. f_equal; try reflexivity. unfold zlen; cbn [length]; lia.
              - unfold digit128 in Hd. rewrite land_cont by (unfold contb; lia). destruct (contb d <? 128) eqn:E; [unfold contb in E; lia|].
                destruct (IH k s' (n + 1) (buf ++ [contb d]) (if max <=? n + 1 then Some "read overflow, length prefix"%string else None)) as [(s1 & Hp & F1)|(n' & e' & s1 & Hp)];
                  [cbn [length] in Hk; lia|exact F'| |].
                + left. exists s1. split; [|exact F1]. rewrite Hp, <- app_assoc. cbn [app]. f_equal. unfold zlen. cbn [length]. lia.
                + right. eauto. }
            destruct (Gen ds Hds 10%nat s 0 [] None ltac:(lia) Hin) as [(s1 & Hp1 & F1)|(n' & e' & s1 & Hp1)].
            * left. exists s1. split; [|exact F1]. rewrite Hp1. cbn [app]. rewrite <- Hpre. f_equal. lia.
            * right. split; [reflexivity|]. eauto.
          + left. destruct (read_prefix_digits S read true holds Hch ds last (l0 :: l1) Hds Hl ltac:(discriminate) 10 s max 0 [] None ltac:(lia) Hin) as (s1 & Hp1 & F1).
            exists s1. split; [|exact F1]. rewrite Hp1. cbn [app]. rewrite <- Hpre. f_equal. lia.
        - left. destruct (read_prefix_digits S read false holds Hch ds last l Hds Hl ltac:(discriminate) 10 s max 0 [] None ltac:(lia) Hin) as (s1 & Hp1 & F1).
          exists s1. split; [|exact F1]. rewrite Hp1. cbn [app]. rewrite <- Hpre. f_equal. lia. }
      destruct G as [(s1 & Hp1 & F1)|(Ee & n & e & s1 & Hp1)]; rewrite Hp1.
      + rewrite U. cbn [fst]. assert (Hi : i64 (zlen body) = zlen body) by (apply i64_small; lia). rewrite Hi.
        destruct ((0 <? max) && (u64 max <? zlen body)); [do 3 eexists; split; [reflexivity|intros _; lia]|].
        destruct ((0 <? max) && (max - zlen pre <? zlen body)); [do 3 eexists; split; [reflexivity|intros _; lia]|].
        rewrite Ha. destruct (zlen body <? 0) eqn:E2; [lia|]. cbn [orb negb].
        destruct (read_full_cut fuel s1 l (Z.to_nat (zlen body)) [] ltac:(unfold zlen in *; lia) ltac:(lia) F1) as (out & e & s2 & Hr). rewrite Hr.
        do 3 eexists. split; [reflexivity|]. intros _; lia.
      + do 3 eexists. split; [reflexivity|]. congruence.
    - (* the prefix is cut *)
      rewrite Hpre in Hl1. destruct (cut_digits _ _ _ _ _ Hl1 Hds) as (ds' & Ha' & Hds' & L).
      rewrite Ha' in Hs. destruct (read_prefix_cut ds' Hds' 10%nat s max 0 [] None ltac:(lia) Hs) as (n & e & s' & Hr & Hn). rewrite Hr.
      exists n, e, s'. split; [reflexivity|]. intros X. rewrite (Hn X).
      assert (zlen a = zlen ds') by (rewrite Ha'; unfold zlen; rewrite map_length; reflexivity).
      unfold zlen in *. lia.
  Qed.
End Cut.
