(** Facts about the reader and writer functions of Stream.v. *)
From Coq Require Import ZArith String List Bool Lia.
From Coq Require Import ZifyBool ZifyNat.
From Verif Require Import Base Prims SpecWire PrimFacts PrimProps Types Codec BinEnc BinDec Amino FuelFacts
  DecFacts ValueInd Typing Sane DecSafe SpecNorm EncFacts FrameFacts Stream SpecStream.
Import ListNotations.
Local Open Scope Z_scope.

(** ** The continuation bit *)

Lemma land_cont x : 0 <= x < 256 -> (Z.land x 128 =? 0) = (x <? 128).
Proof.
  intros Hx.
  assert (A : forallb (fun i => Bool.eqb (Z.land (Z.of_nat i) 128 =? 0) (Z.of_nat i <? 128)) (seq 0 256) = true) by (vm_compute; reflexivity).
  rewrite forallb_forall in A. specialize (A (Z.to_nat x)). rewrite Z2Nat.id in A by lia.
  apply eqb_prop, A, in_seq. lia.
Qed.

Lemma uvarint_loop_nonneg bz : forall i x s u n, 0 <= x -> uvarint_loop bz i x s = (u, n) -> 0 <= u.
Proof.
  induction bz as [|b bz IH]; intros i x s u n Hx H; cbn [uvarint_loop] in H.
  - inversion H; lia.
  - destruct (i =? 10)%nat; [inversion H; lia|]. destruct (b <? 128).
    + destruct (_ && _); inversion H; [lia|]. apply Z.lor_nonneg. split; [exact Hx|]. unfold u64, uwrap. lia.
    + apply IH in H; [exact H|]. apply Z.lor_nonneg. split; [exact Hx|]. unfold u64, uwrap. lia.
Qed.
Lemma uvarint_nonneg bz : 0 <= fst (uvarint bz).
Proof. destruct (uvarint bz) as [u n] eqn:E. cbn. eapply uvarint_loop_nonneg; [|exact E]. lia. Qed.

(** ** Readers that deliver a stream in chunks *)

Section Chunked.
  Variable S : Type.
  Variable read : S -> nat -> bytes * option error * S.
  Variable eof : bool.
  Variable feeds : S -> bytes -> Prop.
  Hypothesis Hch : chunked read eof feeds.

  Lemma one_byte s x d : feeds s (x :: d) -> (eof = true -> d <> []) ->
    exists s', read s 1 = ([x], None, s') /\ feeds s' d.
  Proof.
    intros F He. destruct (Hch s (x :: d) 1%nat F ltac:(discriminate) ltac:(lia)) as (b & d' & e & s' & Hr & Hd & Hb & Hn & F').
    destruct b as [|y [|? ?]]; cbn [length] in Hb; [lia| |lia]. cbn [app] in Hd. inversion Hd; subst y d'.
    exists s'. split; [|exact F']. destruct Hn as [->|[E1 E2]]; [exact Hr|]. exfalso. exact (He E1 E2).
  Qed.

  Lemma read_prefix_digits ds last rest : Forall digit128 ds -> digit128 last -> (eof = true -> rest <> []) ->
    forall k s max n buf err, (length ds < k)%nat -> feeds s (map contb ds ++ last :: rest) ->
    exists s', read_prefix S read k s max n buf err = PDone (buf ++ map contb ds ++ [last]) (n + zlen ds + 1) None s' /\ feeds s' rest.
  Proof.
    intros Hds Hl He. induction Hds as [|d ds Hd Hds IH]; intros k s max n buf err Hk F;
      (destruct k as [|k]; [cbn [length] in Hk; lia|]); cbn [map app] in *; cbn [read_prefix].
    - destruct (one_byte _ _ _ F He) as (s' & Hr & F'). rewrite Hr. cbv iota beta.
      rewrite land_cont by (unfold digit128 in Hl; lia). unfold digit128 in Hl. destruct (last <? 128) eqn:E; [|lia].
      exists s'. split; [|exact F']. f_equal. unfold zlen; cbn [length]; lia.
    - assert (He' : eof = true -> map contb ds ++ last :: rest <> []) by (intros _ X; destruct ds; discriminate X).
      destruct (one_byte _ _ _ F He') as (s' & Hr & F'). rewrite Hr. cbv iota beta. unfold digit128 in Hd.
      rewrite land_cont by (unfold contb; lia). destruct (contb d <? 128) eqn:E; [unfold contb in E; lia|].
      edestruct (IH k s' max (n + 1) (buf ++ [contb d])) as (s'' & Hp & F''); [cbn [length] in Hk; lia|exact F'|].
      exists s''. split; [|exact F'']. rewrite Hp. rewrite <- app_assoc. cbn [app]. f_equal.
      unfold zlen. cbn [length]. lia.
  Qed.

  Lemma read_full_chunked : forall fuel s body rest acc, (length body <= fuel)%nat -> feeds s (body ++ rest) ->
    exists s', read_full S read fuel s (length body) acc = Some (acc ++ body, None, s') /\ feeds s' rest.
  Proof.
    induction fuel as [|fuel IH]; intros s body rest acc Hf F.
    - destruct body; [|cbn in Hf; lia]. exists s. cbn. rewrite app_nil_r. split; [reflexivity|exact F].
    - destruct body as [|x body]; [exists s; cbn; rewrite app_nil_r; split; [reflexivity|exact F]|].
      remember (x :: body) as bd eqn:Eb. assert (Hl : (0 < length bd)%nat) by (subst bd; cbn; lia).
      destruct (Hch s (bd ++ rest) (length bd) F) as (b & d' & e & s' & Hr & Hd & Hb & Hn & F').
      { subst bd. discriminate. } { exact Hl. }
      assert (Hbd : bd = b ++ skipn (length b) bd).
      { rewrite <- (firstn_skipn (length b) bd) at 1. f_equal.
        assert (X : firstn (length b) (bd ++ rest) = firstn (length b) (b ++ d')) by (rewrite Hd; reflexivity).
        rewrite firstn_app, firstn_app in X. replace (length b - length bd)%nat with 0%nat in X by lia.
        replace (length b - length b)%nat with 0%nat in X by lia. cbn [firstn] in X. rewrite !app_nil_r in X.
        rewrite X. apply firstn_all. }
      set (q := skipn (length b) bd) in *. assert (Hd' : d' = q ++ rest).
      { rewrite Hbd, <- app_assoc in Hd. apply app_inv_head in Hd. symmetry. exact Hd. }
      assert (Hq : length bd = (length b + length q)%nat) by (rewrite Hbd at 1; apply app_length).
      destruct (length bd) as [|need] eqn:El; [lia|]. cbn [read_full]. rewrite Hr. cbv iota beta.
      rewrite (firstn_all2 b) by lia. destruct Hn as [->|[_ E2]].
      + replace (Datatypes.S need - length b)%nat with (length q) by lia. rewrite Hd' in F'.
        destruct (IH s' q rest (acc ++ b) ltac:(lia) F') as (s'' & Hp & F''). exists s''. split; [|exact F''].
        rewrite Hp, <- app_assoc, <- Hbd. reflexivity.
      + assert (q = [] /\ rest = []) as [Q1 Q2] by (rewrite Hd' in E2; apply app_eq_nil in E2; exact E2).
        rewrite Q1 in *. cbn [length] in Hq. rewrite app_nil_r in Hbd.
        destruct e as [er|].
        * destruct (Datatypes.S need <=? length b)%nat eqn:E; [|lia]. exists s'. split; [rewrite <- Hbd; reflexivity|].
          rewrite Q2, <- E2. exact F'.
        * replace (Datatypes.S need - length b)%nat with 0%nat by lia. exists s'. destruct fuel; cbn [read_full]; (split; [rewrite <- Hbd; reflexivity|]); rewrite Q2, <- E2; exact F'.
  Qed.

  (** One call on a stream that starts with a frame. *)
  Lemma reader_frame fuel alloc unm v0 s max bz pre body rest :
    framed bz pre body -> zlen bz < 2 ^ 63 -> (max = 0 \/ zlen bz <= max < 2 ^ 63) -> alloc (zlen body) = true ->
    (length body <= fuel)%nat -> feeds s (bz ++ rest) -> (eof = true -> body ++ rest <> []) ->
    exists s', feeds s' rest /\
      unmarshal_reader S read fuel alloc unm v0 s max =
        match unm body with URet v e => RRet (zlen bz) v e s' | UPanic p => RPanic p | UFuel => RFuel end.
  Proof.
    intros Fr Hz Hmax Ha Hf F He. pose proof (framed_uvarint _ _ _ Fr Hz) as Hu. destruct Fr as (-> & Hleb & Hlen).
    destruct Hleb as (ds & last & Hpre & Hds & Hl & Hv). change (map (fun d => d + 128) ds) with (map contb ds) in Hpre.
    rewrite zlen_app in *. pose proof (zlen_nonneg body). pose proof (zlen_nonneg pre).
    assert (Hlp : length pre = Datatypes.S (length ds)) by (rewrite Hpre, app_length, map_length; cbn [length]; lia).
    unfold unmarshal_reader. destruct (max <? 0) eqn:Em; [lia|]. clear Em. unfold read_length.
    replace ((pre ++ body) ++ rest) with (map contb ds ++ last :: body ++ rest) in F
      by (rewrite Hpre, <- !app_assoc; reflexivity).
    destruct (read_prefix_digits ds last (body ++ rest) Hds Hl He 10 s max 0 [] None ltac:(lia) F) as (s1 & Hp & F1).
    rewrite Hp. cbn [app]. rewrite <- Hpre. cbv iota beta zeta.
    assert (Hpad : fst (uvarint (pre ++ repeat 0 (10 - length pre))) = zlen body).
    { rewrite Hpre, <- app_assoc. cbn [app].
      assert (H9 : length ds = 9%nat -> last <= 1).
      { intros H9. rewrite val128_app in Hv. unfold zlen in Hv at 2. rewrite H9 in Hv. cbn [val128] in Hv.
        pose proof (val128_bound ds Hds). change (128 ^ Z.of_nat 9) with (2 ^ 63) in Hv. unfold digit128 in Hl. lia. }
      rewrite uvarint_digits by (assumption || lia). cbn [fst]. symmetry. exact Hv. }
    rewrite Hpad. assert (Hn : 0 + zlen ds + 1 = zlen pre) by (unfold zlen; lia). rewrite Hn.
    assert (Hi : i64 (zlen body) = zlen body) by (apply i64_small; lia). rewrite Hi.
    replace ((0 <? max) && (u64 max <? zlen body)) with false.
    2: { symmetry. destruct Hmax as [->|Hm]; [reflexivity|]. rewrite u64_small by lia. lia. }
    replace ((0 <? max) && (max - zlen pre <? zlen body)) with false by lia.
    rewrite Ha. destruct (zlen body <? 0) eqn:E; [lia|]. cbn [orb negb].
    assert (Hb : Z.to_nat (zlen body) = length body) by (unfold zlen; lia). rewrite Hb.
    destruct (read_full_chunked fuel s1 body rest [] Hf F1) as (s2 & Hp2 & F2). rewrite Hp2. cbn [app].
    exists s2. split; [exact F2|]. destruct (unm body); reflexivity.
  Qed.
End Chunked.

(** ** Any reader *)

Lemma read_full_length (S : Type) (read : S -> nat -> bytes * option error * S) : forall fuel s need acc bz s',
  read_full S read fuel s need acc = Some (bz, None, s') -> length bz = (length acc + need)%nat.
Proof.
  induction fuel as [|fuel IH]; intros s need acc bz s' H; destruct need as [|need]; cbn [read_full] in H;
    try discriminate; try (inversion H; subst; lia).
  destruct (read s (Datatypes.S need)) as [[b e] s1] eqn:Er. cbv iota beta in H.
  assert (Hb : (length (firstn (Datatypes.S need) b) <= Datatypes.S need)%nat) by apply firstn_le_length.
  remember (firstn (Datatypes.S need) b) as b' eqn:Eb. clear Eb.
  destruct e as [err|].
  - destruct (Datatypes.S need <=? length b')%nat eqn:E; [|discriminate]. inversion H; subst. rewrite app_length. lia.
  - apply IH in H. rewrite app_length in H. lia.
Qed.

Lemma read_full_taken (S : Type) (read : S -> nat -> bytes * option error * S) (Hok : reader_ok read) : forall fuel s t need acc bz e s' t',
  read_full _ (counted_read read) fuel (s, t) need acc = Some (bz, e, (s', t')) -> (t' <= t + need)%nat.
Proof.
  induction fuel as [|fuel IH]; intros s t need acc bz e s' t' H; destruct need as [|need]; cbn [read_full] in H;
    try discriminate; try (inversion H; subst; lia).
  unfold counted_read in H at 1. pose proof (Hok s (Datatypes.S need)) as L.
  destruct (read s (Datatypes.S need)) as [[b e1] s1] eqn:Er. cbn [fst] in L. cbv iota beta in H.
  rewrite (firstn_all2 b) in H by exact L. destruct e1 as [err|].
  - destruct (Datatypes.S need <=? length b)%nat; inversion H; subst; lia.
  - apply IH in H. lia.
Qed.

Lemma read_prefix_count (S : Type) (read : S -> nat -> bytes * option error * S) : forall k s max n buf err buf' n' err' s', (0 < k)%nat ->
  read_prefix S read k s max n buf err = PDone buf' n' err' s' ->
  n < n' <= n + Z.of_nat k /\ zlen buf' = zlen buf + (n' - n).
Proof.
  induction k as [|k IH]; intros s max n buf err buf' n' err' s' Hk H; [lia|]. cbn [read_prefix] in H.
  destruct (read s 1%nat) as [[b e] s1]. destruct e; [discriminate|]. cbv zeta in H.
  destruct (Z.land _ 128 =? 0).
  - inversion H; subst. rewrite zlen_app. unfold zlen. cbn [length]. lia.
  - destruct k as [|k].
    + cbn [read_prefix] in H. inversion H; subst. rewrite zlen_app. unfold zlen. cbn [length]. lia.
    + apply IH in H; [|lia]. rewrite zlen_app in H. unfold zlen in *. cbn [length] in H. lia.
Qed.

Lemma read_prefix_taken (S : Type) (read : S -> nat -> bytes * option error * S) (Hok : reader_ok read) : forall k s t max n buf err,
  match read_prefix _ (counted_read read) k (s, t) max n buf err with
  | PFail n' e (s', t') => (t' <= t + k)%nat
  | PDone buf' n' err' (s', t') => Z.of_nat t' <= Z.of_nat t + (n' - n) /\ n' - n <= Z.of_nat k
  end.
Proof.
  induction k as [|k IH]; intros s t max n buf err; cbn [read_prefix]; [lia|]. unfold counted_read at 1.
  pose proof (Hok s 1%nat) as L. destruct (read s 1%nat) as [[b e] s1]. cbn [fst] in L. cbv iota beta. destruct e; [lia|]. cbv zeta.
  destruct (Z.land _ 128 =? 0); [lia|].
  specialize (IH s1 (t + length b)%nat max (n + 1)).
  match goal with |- match read_prefix _ _ _ _ _ _ ?B ?E with _ => _ end => specialize (IH B E) end.
  destruct (read_prefix _ _ _ _ _ _ _ _) as [n' e' [s' t']|buf' n' err' [s' t']]; lia.
Qed.

Lemma read_length_bound (S : Type) (read : S -> nat -> bytes * option error * S) s max n l s' : 0 < max < 2 ^ 63 -> read_length S read s max = LLen n l s' ->
  1 <= n /\ 0 <= l /\ n + l <= max.
Proof.
  intros Hm H. unfold read_length in H. destruct (read_prefix S read 10 s max 0 [] None) as [|buf n1 err s1] eqn:E; [discriminate|].
  apply read_prefix_count in E; [|lia]. cbv zeta in H. destruct err; [discriminate|].
  pose proof (uvarint_nonneg (buf ++ repeat 0 (10 - length buf))) as Hu.
  set (u := fst (uvarint (buf ++ repeat 0 (10 - length buf)))) in *. clearbody u.
  destruct ((0 <? max) && (u64 max <? u)) eqn:E1; [discriminate|]. rewrite u64_small in E1 by lia.
  destruct ((0 <? max) && (max - n1 <? i64 u)) eqn:E2; [discriminate|]. inversion H; subst.
  rewrite i64_small in * by lia. lia.
Qed.

Lemma reader_taken (S : Type) (read : S -> nat -> bytes * option error * S) (Hok : reader_ok read) fuel alloc unm v0 s t max n v e s' t' : 0 < max < 2 ^ 63 ->
  unmarshal_reader _ (counted_read read) fuel alloc unm v0 (s, t) max = RRet n v e (s', t') ->
  Z.of_nat t' <= Z.of_nat t + Z.max 10 max.
Proof.
  intros Hm H. unfold unmarshal_reader in H. destruct (max <? 0) eqn:E; [lia|].
  destruct (read_length _ _ _ max) as [n1 e1 [s1 t1]|n1 l [s1 t1]] eqn:El.
  - inversion H; subst. unfold read_length in El. pose proof (read_prefix_taken S read Hok 10 s t max 0 [] None) as T.
    destruct (read_prefix _ _ _ _ _ _ _ _) as [n' e' [s2 t2]|buf' n' err' [s2 t2]].
    + inversion El; subst. lia.
    + cbv zeta in El. destruct err'; [inversion El; subst; lia|].
      destruct (_ && _); [inversion El; subst; lia|]. destruct (_ && _); inversion El; subst; lia.
  - pose proof (read_length_bound _ _ _ _ _ _ _ Hm El) as (B1 & B2 & B3).
    assert (T1 : Z.of_nat t1 <= Z.of_nat t + n1).
    { unfold read_length in El. pose proof (read_prefix_taken S read Hok 10 s t max 0 [] None) as T.
      destruct (read_prefix _ _ _ _ _ _ _ _) as [n' e' [s2 t2]|buf' n' err' [s2 t2]]; [discriminate|].
      cbv zeta in El. destruct err'; [discriminate|]. destruct (_ && _); [discriminate|]. destruct (_ && _); [discriminate|].
      inversion El; subst. lia. }
    destruct (_ || _); [discriminate|].
    destruct (read_full _ _ _ _ _ _) as [[[bz e2] [s2 t2]]|] eqn:Ef; [|discriminate].
    apply read_full_taken in Ef; [|exact Hok].
    destruct e2; [inversion H; subst; lia|]. destruct (unm bz); inversion H; subst. lia.
Qed.

Lemma reader_local (S : Type) (read : S -> nat -> bytes * option error * S) fuel alloc alloc' unm unm' v0 s max : 0 < max < 2 ^ 63 ->
  (forall l, 0 <= l -> l + 1 <= max -> alloc l = alloc' l) -> (forall bz, zlen bz + 1 <= max -> unm bz = unm' bz) ->
  unmarshal_reader S read fuel alloc unm v0 s max = unmarshal_reader S read fuel alloc' unm' v0 s max.
Proof.
  intros Hm Ha Hu. unfold unmarshal_reader. destruct (max <? 0); [reflexivity|].
  destruct (read_length S read s max) as [|n l s1] eqn:El; [reflexivity|].
  pose proof (read_length_bound _ _ _ _ _ _ _ Hm El) as (B1 & B2 & B3). rewrite (Ha l) by lia.
  destruct (_ || _); [reflexivity|]. destruct (read_full _ _ _ _ _ _) as [[[bz e] s2]|] eqn:Ef; [|reflexivity].
  destruct e; [reflexivity|]. apply read_full_length in Ef. cbn [length] in Ef. rewrite Hu; [reflexivity|]. unfold zlen. lia.
Qed.

Lemma reader_panic (S : Type) (read : S -> nat -> bytes * option error * S) fuel alloc unm v0 s max p : 0 < max < 2 ^ 63 -> (forall l, 0 <= l -> l + 1 <= max -> alloc l = true) ->
  unmarshal_reader S read fuel alloc unm v0 s max = RPanic p -> exists bz, unm bz = UPanic p.
Proof.
  intros Hm Ha H. unfold unmarshal_reader in H. destruct (max <? 0) eqn:E; [lia|].
  destruct (read_length S read s max) as [|n l s1] eqn:El; [discriminate|].
  pose proof (read_length_bound _ _ _ _ _ _ _ Hm El) as (B1 & B2 & B3). rewrite (Ha l) in H by lia.
  destruct (l <? 0) eqn:E1; [lia|]. cbn [negb orb] in H. destruct (read_full _ _ _ _ _ _) as [[[bz e] s2]|]; [|discriminate].
  destruct e; [discriminate|]. destruct (unm bz) eqn:Eu; inversion H; subst. exists bz. exact Eu.
Qed.

(** ** What a reader that stores one byte per one-byte Read has delivered *)

(** [takes s bs s']: one-byte Reads starting in [s] deliver [bs], without error. *)
Inductive takes {S} (read : S -> nat -> bytes * option error * S) : S -> bytes -> S -> Prop :=
| takes_nil s : takes read s [] s
| takes_cons s x s1 l s2 : read s 1%nat = ([x], None, s1) -> 0 <= x < 256 -> takes read s1 l s2 -> takes read s (x :: l) s2.

(** A one-byte Read without error stores a byte. *)
Definition reads_bytes {S} (read : S -> nat -> bytes * option error * S) : Prop :=
  forall s b s', read s 1%nat = (b, None, s') -> exists x, b = [x] /\ 0 <= x < 256.

Lemma read_prefix_takes (S : Type) (read : S -> nat -> bytes * option error * S) (Hrb : reads_bytes read) : forall k s max n buf err buf' n' err' s',
  read_prefix S read k s max n buf err = PDone buf' n' err' s' ->
  exists bs, takes read s bs s' /\ buf' = buf ++ bs /\ n' = n + zlen bs /\ (length bs <= k)%nat /\
    ((length bs < k)%nat -> exists ds last, bs = map contb ds ++ [last] /\ Forall digit128 ds /\ digit128 last).
Proof.
  induction k as [|k IH]; intros s max n buf err buf' n' err' s' H; cbn [read_prefix] in H.
  - inversion H; subst. exists []. split; [constructor|]. rewrite app_nil_r. split; [reflexivity|].
    change (zlen (@nil Z)) with 0. cbn. splits; lia.
  - destruct (read s 1%nat) as [[b e] s1] eqn:Er. destruct e; [discriminate|]. cbv zeta in H.
    destruct (Hrb _ _ _ Er) as (x & -> & Hx). rewrite land_cont in H by exact Hx. destruct (x <? 128) eqn:Ex.
    + inversion H; subst. exists [x]. split; [eapply takes_cons; [exact Er|exact Hx|constructor]|].
      split; [reflexivity|]. split; [reflexivity|]. split; [cbn; lia|]. intros _. exists [], x. splits; [reflexivity|constructor|unfold digit128; lia].
    + apply IH in H. destruct H as (bs & T & -> & -> & L & D). exists (x :: bs).
      split; [eapply takes_cons; eassumption|]. rewrite <- app_assoc. split; [reflexivity|].
      unfold zlen. cbn [length]. split; [lia|]. split; [lia|]. intros X. destruct D as (ds & last & -> & Hds & Hl); [lia|].
      exists ((x - 128) :: ds), last. splits; [|constructor; [unfold digit128; lia|exact Hds]|exact Hl].
      cbn [map app]. f_equal. unfold contb. lia.
Qed.

Lemma read_prefix_unterminated (S : Type) (read : S -> nat -> bytes * option error * S) s pre s' : takes read s pre s' ->
  Forall (fun x => 128 <= x) pre -> forall max n buf err, pre <> [] -> max <= n + zlen pre ->
  exists e, read_prefix S read (length pre) s max n buf err = PDone (buf ++ pre) (n + zlen pre) (Some e) s'.
Proof.
  induction 1 as [s|s b s1 l s2 Er Hx T IH]; intros F max n buf err Hne Hm; [congruence|]. inversion F as [|? ? Hb F']; subst.
  cbn [length read_prefix]. rewrite Er. cbv zeta. rewrite land_cont by exact Hx. destruct (b <? 128) eqn:Eb; [lia|].
  unfold zlen in Hm. cbn [length] in Hm. destruct l as [|b2 l].
  - inversion T; subst. cbn [length read_prefix]. destruct (max <=? n + 1) eqn:E; [|cbn [length] in Hm; lia].
    change (zlen [b]) with 1. eauto.
  - destruct (IH F' max (n + 1) (buf ++ [b]) (if max <=? n + 1 then Some "read overflow, length prefix"%string else None))
      as (e & E); [congruence|unfold zlen; cbn [length] in *; lia|].
    exists e. rewrite E. rewrite <- app_assoc. f_equal. unfold zlen. cbn [length]. lia.
Qed.

Lemma read_length_valid (S : Type) (read : S -> nat -> bytes * option error * S) (Hrb : reads_bytes read) s max n l s' : 0 <= max < 2 ^ 63 ->
  read_length S read s max = LLen n l s' -> n < 10 ->
  exists pre, takes read s pre s' /\ zlen pre = n /\ leb128 pre l /\ 0 <= l < 2 ^ 63.
Proof.
  intros Hm H Hn. unfold read_length in H. destruct (read_prefix S read 10 s max 0 [] None) as [|buf n1 err s1] eqn:E; [discriminate|].
  apply read_prefix_takes in E; [|exact Hrb]. destruct E as (bs & T & Eb & -> & L & D). cbn [app] in Eb. subst buf.
  cbv zeta in H. destruct err; [discriminate|].
  set (u := fst (uvarint (bs ++ repeat 0 (10 - length bs)))) in *.
  destruct ((0 <? max) && (u64 max <? u)) eqn:E1; [discriminate|].
  destruct ((0 <? max) && (max - (0 + zlen bs) <? i64 u)) eqn:E2; [discriminate|]. inversion H; subst n l s1. clear H.
  unfold zlen in Hn. destruct D as (ds & last & Eq & Hds & Hl); [lia|].
  assert (Hd : (length ds <= 8)%nat) by (rewrite Eq, app_length, map_length in Hn; cbn [length] in Hn; lia).
  assert (Hu : u = val128 (ds ++ [last])).
  { unfold u. rewrite Eq, <- app_assoc. cbn [app]. rewrite uvarint_digits by (assumption || lia). reflexivity. }
  assert (B : 0 <= u < 2 ^ 63).
  { rewrite Hu. assert (F : Forall digit128 (ds ++ [last])) by (apply Forall_app; split; [exact Hds|constructor; [exact Hl|constructor]]).
    pose proof (val128_bound _ F) as B. rewrite zlen_app in B. change (zlen [last]) with 1 in B.
    assert (128 ^ (zlen ds + 1) <= 128 ^ 9) by (apply Z.pow_le_mono_r; unfold zlen; lia). change (128 ^ 9) with (2 ^ 63) in *. lia. }
  exists bs. split; [exact T|]. rewrite i64_small by lia. split; [lia|]. split; [|exact B].
  exists ds, last. splits; try assumption.
Qed.

(** ** Writers *)

Section Written.
  Variable W : Type.
  Variable write : W -> bytes -> nat * option error * W.
  Hypothesis Hok : writer_ok write.
  Let watched := watched_write write.

  (** [r] comes from writing (a prefix of) [out], with [own] the error of its own. *)
  Definition wrote (log : bytes) (failed : bool) (r : wres (W * bytes * bool)) (out : bytes) (own : option error) : Prop :=
    exists e w' acc failed', r = @WRet (W * bytes * bool) e (@pair (W * bytes) bool (@pair W bytes w' (log ++ acc)) failed') /\ (exists q, out = acc ++ q) /\
      (e = None -> acc = out /\ own = None) /\ (own = None -> failed = false -> (failed' = true <-> e <> None)) /\ (failed' = true -> failed = true \/ e <> None).

  Lemma write_wrote w log failed bz : wrote log failed (w_write _ watched (w, log, failed) bz) bz None.
  Proof.
    unfold w_write, watched, watched_write. pose proof (Hok w bz) as C. destruct (write w bz) as [[n e] w'].
    destruct C as [C1 C2]. exists e, w', (firstn n bz), (failed || match e with Some _ => true | None => false end).
    split; [reflexivity|]. split; [exists (skipn n bz); symmetry; apply firstn_skipn|]. split.
    - intros ->. split; [|reflexivity]. rewrite (C2 eq_refl). apply firstn_all.
    - split.
      + intros _ ->. destruct e; cbn; split; intros; try discriminate; try reflexivity. contradiction.
      + destruct failed; [left; reflexivity|]. destruct e; cbn; intros; [right; discriminate|discriminate].
  Qed.

  Lemma then_wrote log failed r k out1 out2 own : wrote log failed r out1 None ->
    (forall w log f, wrote log f (k (w, log, f)) out2 own) ->
    wrote log failed (w_then _ r k) (out1 ++ out2) own.
  Proof.
    intros (e & w' & acc & f' & -> & (q & Hq) & Hn & Hf & Hf') K. destruct e as [e|]; cbn [w_then].
    - exists (Some e), w', acc, f'. split; [reflexivity|]. split; [exists (q ++ out2); rewrite Hq, app_assoc; reflexivity|].
      split; [discriminate|]. split; [intros _; apply Hf; reflexivity|]. exact Hf'.
    - destruct (Hn eq_refl) as [Ha _]. rewrite Ha. destruct (K w' (log ++ out1) f') as (e2 & w2 & acc2 & f2 & -> & (q2 & Hq2) & Hn2 & Hf2 & Hf2').
      exists e2, w2, (out1 ++ acc2), f2. split; [rewrite app_assoc; reflexivity|]. split; [exists q2; rewrite Hq2 at 1; rewrite app_assoc; reflexivity|].
      split; [intros E; destruct (Hn2 E) as [-> ->]; split; reflexivity|]. split.
      + intros Ho Hfa. apply Hf2; [exact Ho|]. destruct f'; [|reflexivity]. exfalso. apply (Hf eq_refl Hfa); reflexivity.
      + intros E. destruct (Hf2' E) as [E2|E2]; [|right; exact E2]. destruct (Hf' E2) as [X|X]; [left; exact X|contradiction].
  Qed.

  Lemma own_wrote w log failed e : wrote log failed (WRet (Some e) (w, log, failed)) [] (Some e).
  Proof.
    exists (Some e), w, [], failed. rewrite app_nil_r. split; [reflexivity|]. split; [exists []; reflexivity|].
    split; [discriminate|]. split; [discriminate|]. intros ->. left. reflexivity.
  Qed.
  Lemma none_wrote w log failed : wrote log failed (WRet None (w, log, failed)) [] None.
  Proof.
    exists None, w, [], failed. rewrite app_nil_r. split; [reflexivity|]. split; [exists []; reflexivity|].
    split; [intros _; split; reflexivity|]. split; [|intros ->; left; reflexivity]. intros _ ->. split; [discriminate|contradiction].
  Qed.
  Lemma key_wrote w log failed num typ bz : encode_field_key num typ = EOk bz ->
    wrote log failed (w_field_key _ watched (w, log, failed) num typ) bz None.
  Proof. intros E. unfold w_field_key. rewrite E. apply write_wrote. Qed.
  Lemma slice_wrote w log failed bz : wrote log failed (w_byte_slice _ watched (w, log, failed) bz) (encode_byte_slice bz) None.
  Proof. unfold w_byte_slice, encode_byte_slice. apply then_wrote; [apply write_wrote|]. intros. apply write_wrote. Qed.

  Lemma time_wrote w log failed s nsec : exists bz own, encode_time s nsec = EOk (bz, own) /\
    wrote log failed (w_time _ watched (w, log, failed) s nsec) bz own.
  Proof.
    assert (K : forall num, encode_field_key num Typ3Varint = if 2 ^ 29 - 1 <? num then EPanic "invalid field number"%string
                                                    else EOk (put_uvarint 10 (Z.lor (u64 (Z.shiftl num 3)) Typ3Varint))) by reflexivity.
    unfold encode_time, w_time. rewrite (K 1), (K 2). change (2 ^ 29 - 1 <? 1) with false. change (2 ^ 29 - 1 <? 2) with false.
    cbv iota. unfold ebind. set (k1 := put_uvarint 10 (Z.lor (u64 (Z.shiftl 1 3)) Typ3Varint)).
    set (k2 := put_uvarint 10 (Z.lor (u64 (Z.shiftl 2 3)) Typ3Varint)).
    set (nanos := fun w : W * bytes * bool => if i32 nsec =? 0 then WRet None w
       else if (i32 nsec <? 0) || (max_nanos <? i32 nsec) then WRet (Some "invalid time: nanoseconds"%string) w
       else w_then _ (w_field_key _ watched w 2 Typ3Varint) (fun w => w_uvarint _ watched w (u64 (i32 nsec)))).
    assert (N : exists out own, (forall pre, (if i32 nsec =? 0 then EOk (pre, None)
        else if (i32 nsec <? 0) || (max_nanos <? i32 nsec) then EOk (pre, Some "invalid time: nanoseconds"%string)
        else EOk (pre ++ k2 ++ encode_uvarint (u64 (i32 nsec)), None)) = EOk (pre ++ out, own)) /\
        (forall w log f, wrote log f (nanos (w, log, f)) out own)).
    { unfold nanos. destruct (i32 nsec =? 0).
      - exists [], None. split; [intros; rewrite app_nil_r; reflexivity|]. intros; apply none_wrote.
      - destruct (_ || _).
        + exists [], (Some "invalid time: nanoseconds"%string). split; [intros; rewrite app_nil_r; reflexivity|]. intros; apply own_wrote.
        + exists (k2 ++ encode_uvarint (u64 (i32 nsec))), None. split; [intros; reflexivity|]. intros w1 l1 f1.
          apply then_wrote; [|intros; apply write_wrote]. apply key_wrote. rewrite K. reflexivity. }
    destruct N as (out & own & N1 & N2). destruct (s =? 0).
    - exists out, own. split; [exact (N1 [])|]. apply N2.
    - destruct ((s <? min_seconds) || (max_seconds <=? s)).
      + exists [], (Some "invalid time: seconds"%string). split; [reflexivity|]. apply own_wrote.
      + exists ((k1 ++ encode_uvarint (u64 s)) ++ out), own. split; [apply N1|]. apply then_wrote; [|exact N2].
        apply then_wrote; [|intros; apply write_wrote]. apply key_wrote. rewrite K. reflexivity.
  Qed.
End Written.
