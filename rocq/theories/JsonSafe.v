(** UnmarshalJSON on arbitrary bytes: it returns, with a value of the right type. *)
From Coq Require Import ZArith String List Bool Lia.
From Coq Require Import ZifyBool ZifyNat.
From Verif Require Import Base Prims SpecWire PrimFacts Types Codec BinEnc BinDec Amino DecFacts DecProps ValueInd Typing
  Registry SpecRegistry RegistryFacts Sane DecSafe SpecNorm JsonText Json SpecJson JsonTextFacts JsonProps LayoutFacts SpecJsonSafe.
Import ListNotations.
Local Open Scope Z_scope.

(** ** Strings *)

Lemma bytes_ok_nil : bytes_ok []. Proof. constructor. Qed.
Lemma bytes_ok_cons b s : 0 <= b < 256 -> bytes_ok s -> bytes_ok (b :: s). Proof. intros; constructor; assumption. Qed.
Lemma bytes_ok_app a b : bytes_ok a -> bytes_ok b -> bytes_ok (a ++ b). Proof. intros; apply Forall_app; split; assumption. Qed.
Lemma bytes_ok_inv b s : bytes_ok (b :: s) -> 0 <= b < 256 /\ bytes_ok s. Proof. intros H; inversion H; subst. split; assumption. Qed.
Lemma bytes_ok_split a b : bytes_ok (a ++ b) -> bytes_ok a /\ bytes_ok b. Proof. apply Forall_app. Qed.
Lemma replacement_ok : bytes_ok [239; 191; 189].
Proof. repeat (apply bytes_ok_cons; [lia|]). apply bytes_ok_nil. Qed.
Lemma encode_rune_ok u : 0 <= u < 1114112 -> bytes_ok (encode_rune u).
Proof.
  intros H. unfold encode_rune.
  destruct (u <? 128) eqn:A. { apply bytes_ok_cons; [lia|]. apply bytes_ok_nil. }
  destruct (u <? 2048) eqn:B. { repeat (apply bytes_ok_cons; [lia|]). apply bytes_ok_nil. }
  destruct (_ || _) eqn:C; [apply replacement_ok|].
  destruct (u <? 65536) eqn:D; repeat (apply bytes_ok_cons; [lia|]); apply bytes_ok_nil.
Qed.

(** Strings that were scanned can be unquoted. *)
Lemma unquote_total : forall k s, (length s <= k)%nat -> jchars s -> exists n, unquote k s = Some n /\ (bytes_ok s -> bytes_ok n).
Proof.
  induction k as [|k IH]; intros s Hl H.
  { destruct s; [|cbn in Hl; lia]. exists []. split; [reflexivity|auto]. }
  assert (G : forall s p, (length s <= k)%nat -> jchars s ->
    exists n, option_map (app p) (unquote k s) = Some n /\ (bytes_ok p -> bytes_ok s -> bytes_ok n)).
  { intros s' p Hl' H'. destruct (IH s' Hl' H') as (n & E & O). exists (p ++ n). rewrite E. split; [reflexivity|].
    intros; apply bytes_ok_app; auto. }
  assert (C : forall s x, (length s <= k)%nat -> jchars s ->
    exists n, option_map (cons x) (unquote k s) = Some n /\ (0 <= x < 256 -> bytes_ok s -> bytes_ok n)).
  { intros s' x Hl' H'. destruct (IH s' Hl' H') as (n & E & O). exists (x :: n). rewrite E. split; [reflexivity|].
    intros; apply bytes_ok_cons; auto. }
  destruct H as [|b s Hb1 Hb2 Hb3 H|e s He H|w x y z s Hw Hx Hy Hz H].
  - exists []. split; [reflexivity|auto].
  - cbn [length] in Hl. rewrite unquote_other by exact Hb3. destruct ((b =? 34) || (b <? 32)) eqn:Q; [lia|].
    destruct (b <? 128) eqn:A.
    { destruct (C s b ltac:(lia) H) as (n & E & O). exists n. split; [exact E|]. intros B. apply bytes_ok_inv in B. destruct B. auto. }
    destruct (decode_rune (b :: s)) as [[c m]|] eqn:D.
    2:{ destruct (G s [239; 191; 189] ltac:(lia) H) as (n & E & O). exists n. split; [exact E|]. intros B. apply bytes_ok_inv in B. destruct B. apply O; [apply replacement_ok|assumption]. }
    assert (P : Forall (fun b => 0 <= b) (b :: s)) by (constructor; [lia|apply jchars_nonneg, H]).
    destruct (decode_utf8 _ _ _ P D) as (U & Hm & E). destruct m as [|m]; [lia|]. cbn [firstn skipn] in *.
    destruct (utf8_high_bytes _ _ _ U ltac:(lia)) as [Hh _].
    assert (J : jchars (skipn m s)).
    { apply (jchars_app_skip (b :: firstn m s)); [exact Hh|]. cbn [app]. rewrite firstn_skipn. apply jc_plain; assumption. }
    destruct (G (skipn m s) (b :: firstn m s)) as (n & En & O); [rewrite skipn_length; lia|exact J|].
    exists n. split; [exact En|]. intros B. rewrite E in B. apply bytes_ok_split in B. destruct B as [B1 B2]. apply O; assumption.
  - cbn [length] in Hl. cbn [unquote]. change (92 =? 92) with true. cbv iota.
    assert (K : forall v, 0 <= v < 256 -> exists n, option_map (cons v) (unquote k s) = Some n /\ (bytes_ok (92 :: e :: s) -> bytes_ok n)).
    { intros v Hv. destruct (C s v ltac:(lia) H) as (n & E & O). exists n. split; [exact E|]. intros B.
      apply bytes_ok_inv in B. destruct B as [_ B]. apply bytes_ok_inv in B. destruct B. auto. }
    cbn [In] in He. destruct He as [<-|[<-|[<-|[<-|[<-|[<-|[<-|[<-|[]]]]]]]]]; cbn [Z.eqb Pos.eqb orb]; apply K; lia.
  - cbn [length] in Hl. cbn [unquote]. change (92 =? 92) with true. cbv iota. change (117 =? 34) with false. cbn [Z.eqb Pos.eqb orb].
    apply hexdigit_is in Hw, Hx, Hy, Hz. unfold is_hex in *.
    assert (U : exists u, hex4 w x y z = Some u).
    { unfold hex4. destruct (hex_val w), (hex_val x), (hex_val y), (hex_val z); try discriminate. eexists. reflexivity. }
    destruct U as [u U]. rewrite U. apply hex4_spec in U. pose proof (code_unit_range _ _ U) as Ru.
    assert (T : bytes_ok (92 :: 117 :: w :: x :: y :: z :: s) -> bytes_ok s).
    { intros B. do 6 (apply bytes_ok_inv in B; destruct B as [_ B]). exact B. }
    assert (K : exists n, option_map (app [239; 191; 189]) (unquote k s) = Some n /\ (bytes_ok (92 :: 117 :: w :: x :: y :: z :: s) -> bytes_ok n)).
    { destruct (G s [239; 191; 189] ltac:(lia) H) as (n & E & O). exists n. split; [exact E|]. intros B. apply O; [apply replacement_ok|auto]. }
    destruct ((55296 <=? u) && (u <? 57344)) eqn:Su.
    + destruct s as [|x1 [|x2 [|x3 [|x4 [|x5 [|x6 r2]]]]]]; try exact K.
      destruct ((x1 =? 92) && (x2 =? 117)) eqn:Ex; [|exact K].
      apply andb_true_iff in Ex. destruct Ex as [E1 E2]. apply Z.eqb_eq in E1, E2. subst x1 x2.
      destruct (hex4 x3 x4 x5 x6) as [u'|] eqn:U'; [|exact K]. destruct (surrogates u u') as [p|] eqn:Sp; [|exact K].
      assert (J : jchars r2) by (inversion H; subst; [lia|cbn [In] in *; lia|assumption]).
      destruct (G r2 (encode_rune p)) as (n & E & O); [cbn [length] in Hl; lia|exact J|]. exists n. split; [exact E|]. intros B. apply T in B.
      do 6 (apply bytes_ok_inv in B; destruct B as [_ B]). apply O; [|exact B].
      unfold surrogates in Sp. destruct (_ && _) eqn:C' in Sp; [|discriminate]. injection Sp as <-. apply encode_rune_ok. lia.
    + destruct (G s (encode_rune u) ltac:(lia) H) as (n & E & O). exists n. split; [exact E|]. intros B. apply O; [apply encode_rune_ok; lia|auto].
Qed.
Lemma unq_total s : jchars s -> exists n, unq s = EOk n /\ (bytes_ok s -> bytes_ok n).
Proof.
  intros H. unfold unq, unquoted. destruct (unquote_total (length s) s (Nat.le_refl _) H) as (n & -> & O). exists n. split; [reflexivity|exact O].
Qed.

(** ** Base64 *)

Lemma b64_val_range b v : b64_val b = Some v -> 0 <= v < 64.
Proof.
  unfold b64_val. intros H.
  repeat match type of H with (if ?x then _ else _) = _ => destruct x eqn:? end; try discriminate; injection H as <-; lia.
Qed.
Lemma b64_bytes : forall k s r, (length s <= k)%nat -> b64_decode s = Some r -> bytes_ok r.
Proof.
  induction k as [|k IH]; intros s r Hl H.
  { destruct s; [|cbn in Hl; lia]. injection H as <-. apply bytes_ok_nil. }
  destruct s as [|a [|b [|c [|d s]]]]; try discriminate; [injection H as <-; apply bytes_ok_nil|]. cbn [length] in Hl. cbn [b64_decode] in H.
  assert (X : forall w x y z, b64_val a = Some w -> b64_val b = Some x -> b64_val c = Some y -> b64_val d = Some z ->
     option_map (app [w * 4 + x / 16; x mod 16 * 16 + y / 4; y mod 4 * 64 + z]) (b64_decode s) = Some r -> bytes_ok r).
  { intros w x y z A B C D E. apply b64_val_range in A, B, C, D. destruct (b64_decode s) as [r'|] eqn:R; [|discriminate]. cbn [option_map] in E. injection E as <-.
    cbn [app]. repeat (apply bytes_ok_cons; [lia|]). apply (IH s); [lia|exact R]. }
  assert (Y : match b64_val a, b64_val b, b64_val c, b64_val d with
     | Some w, Some x, Some y, Some z => option_map (app [w * 4 + x / 16; x mod 16 * 16 + y / 4; y mod 4 * 64 + z]) (b64_decode s)
     | _, _, _, _ => None end = Some r -> bytes_ok r).
  { destruct (b64_val a), (b64_val b), (b64_val c), (b64_val d); try discriminate. apply X; reflexivity. }
  destruct s as [|e s]; [|apply Y; exact H]. destruct (d =? 61); [|apply Y; exact H].
  destruct (c =? 61).
  - destruct (b64_val a) as [w|] eqn:A, (b64_val b) as [x|] eqn:B; try discriminate. apply b64_val_range in A, B. injection H as <-. apply bytes_ok_cons; [lia|apply bytes_ok_nil].
  - destruct (b64_val a) as [w|] eqn:A, (b64_val b) as [x|] eqn:B, (b64_val c) as [y|] eqn:C; try discriminate. apply b64_val_range in A, B, C. injection H as <-.
    repeat (apply bytes_ok_cons; [lia|]). apply bytes_ok_nil.
Qed.

(** ** The first level of a text *)

(** A text inside the text [bz]. *)
Definition inner (bz b : bytes) : Prop := jtext b /\ (length b < length bz)%nat /\ (bytes_ok bz -> bytes_ok b).
Definition key_of (bz k : bytes) : Prop := jchars k /\ (bytes_ok bz -> bytes_ok k).
Lemma inner_mid x v y : jtext v -> (0 < length x + length y)%nat -> inner (x ++ v ++ y) v.
Proof.
  intros J L. split; [exact J|]. rewrite !app_length. split; [lia|]. intros B. apply bytes_ok_split in B. destruct B as [_ B]. apply bytes_ok_split in B. tauto.
Qed.
Lemma inner_in bz bz' b : inner bz b -> (exists x y, bz' = x ++ bz ++ y) -> inner bz' b.
Proof.
  intros (J & L & B) (x & y & ->). split; [exact J|]. rewrite !app_length. split; [lia|]. intros H. apply B. apply bytes_ok_split in H. destruct H as [_ H]. apply bytes_ok_split in H. tauto.
Qed.
Definition within (bz : bytes) (b : bytes) : Prop := jtext b /\ (length b <= length bz)%nat /\ (bytes_ok bz -> bytes_ok b).
Lemma jelems_within : forall l b, jelems l b -> Forall (within b) l.
Proof.
  induction 1 as [w v w' Hw Hv Hw'|w v w' l b Hw Hv Hw' H IH].
  - constructor; [|constructor]. split; [exact Hv|]. rewrite !app_length. split; [lia|]. intros B.
    apply bytes_ok_split in B. destruct B as [_ B]. apply bytes_ok_split in B. tauto.
  - constructor.
    + split; [exact Hv|]. rewrite !app_length. split; [lia|]. intros B. apply bytes_ok_split in B. destruct B as [_ B]. apply bytes_ok_split in B. tauto.
    + eapply Forall_impl; [|exact IH]. intros a (J & L & B). split; [exact J|]. rewrite !app_length. cbn [length]. split; [lia|]. intros B'. apply B.
      apply bytes_ok_split in B'. destruct B' as [_ B']. apply bytes_ok_split in B'. destruct B' as [_ B']. apply bytes_ok_split in B'. destruct B' as [_ B']. apply bytes_ok_inv in B'. tauto.
Qed.
Lemma jmembers_within : forall l b, jmembers l b -> Forall (fun m => key_of b (fst m) /\ within b (snd m)) l.
Proof.
  assert (One : forall w k w1 w2 v w' r b, b = w ++ 34 :: k ++ 34 :: w1 ++ 58 :: w2 ++ v ++ w' ++ r -> jchars k -> jtext v ->
    (key_of b k /\ within b v) /\ (bytes_ok b -> bytes_ok r) /\ (length r <= length b)%nat).
  { intros w k w1 w2 v w' r b -> Hk Hv.
    assert (X : bytes_ok (w ++ 34 :: k ++ 34 :: w1 ++ 58 :: w2 ++ v ++ w' ++ r) -> bytes_ok k /\ bytes_ok v /\ bytes_ok r).
    { intros B. apply bytes_ok_split in B. destruct B as [_ B]. apply bytes_ok_inv in B. destruct B as [_ B]. apply bytes_ok_split in B. destruct B as [Bk B].
      apply bytes_ok_inv in B. destruct B as [_ B]. apply bytes_ok_split in B. destruct B as [_ B]. apply bytes_ok_inv in B. destruct B as [_ B].
      apply bytes_ok_split in B. destruct B as [_ B]. apply bytes_ok_split in B. destruct B as [Bv B]. apply bytes_ok_split in B. tauto. }
    assert (L : (length v + length r <= length (w ++ 34%Z :: k ++ 34%Z :: w1 ++ 58%Z :: w2 ++ v ++ w' ++ r))%nat).
    { rewrite !app_length. cbn [length]. rewrite !app_length. cbn [length]. rewrite !app_length. cbn [length]. rewrite !app_length. lia. }
    split; [split; [split; [exact Hk|tauto]|split; [exact Hv|split; [lia|tauto]]]|]. split; [tauto|lia]. }
  induction 1 as [w k w1 w2 v w' Hw Hk Hw1 Hw2 Hv Hw'|w k w1 w2 v w' l b Hw Hk Hw1 Hw2 Hv Hw' H IH].
  - constructor; [|constructor]. apply (One w k w1 w2 v w' []); [rewrite app_nil_r; reflexivity|exact Hk|exact Hv].
  - destruct (One w k w1 w2 v w' (44 :: b) _ eq_refl Hk Hv) as (X & Br & L). constructor; [exact X|]. cbn [length] in L.
    eapply Forall_impl; [|exact IH]. intros m ((Jk & Bk) & Jv & Lv & Bv). split; [split; [exact Jk|]|split; [exact Jv|split; [lia|]]];
      intros B; apply Br in B; apply bytes_ok_inv in B; tauto.
Qed.
Definition parts_of (bz : bytes) (j : jtop) : Prop :=
  match j with
  | JArr l => Forall (inner bz) l
  | JObj l => Forall (fun m => key_of bz (fst m) /\ inner bz (snd m)) l
  | JStr s => key_of bz s
  | JNum n => jnumber n
  | _ => True
  end.
Lemma within_inner x b v y : (0 < length x + length y)%nat -> within b v -> inner (x ++ b ++ y) v.
Proof.
  intros L (J & Lv & B). split; [exact J|]. rewrite !app_length. split; [lia|]. intros H. apply B. apply bytes_ok_split in H. destruct H as [_ H]. apply bytes_ok_split in H. tauto.
Qed.
Lemma key_in x b k y : key_of b k -> key_of (x ++ b ++ y) k.
Proof. intros (J & B). split; [exact J|]. intros H. apply B. apply bytes_ok_split in H. destruct H as [_ H]. apply bytes_ok_split in H. tauto. Qed.
Lemma top_parts bz j : json_top bz = Some j -> parts_of bz j.
Proof.
  intros H. destruct (top_sound _ _ H) as (w & v & w' & -> & _ & _ & T). destruct j as [| |n|s|l|l]; cbn [parts_of top_of] in *; try exact I.
  - destruct T as [_ T]. exact T.
  - destruct T as [-> T]. apply key_in. change (key_of ([34] ++ s ++ [34]) s). apply (key_in [34] s s [34]). split; [exact T|auto].
  - assert (X : Forall (inner v) l).
    { destruct T as [w0 _|l b T]; [constructor|]. apply jelems_within in T. eapply Forall_impl; [|exact T]. intros a Ha.
      apply (within_inner [91] b a [93]); [cbn; lia|exact Ha]. }
    eapply Forall_impl; [|exact X]. intros a Ha. eapply inner_in; [exact Ha|]. exists w, w'. reflexivity.
  - assert (X : Forall (fun m => key_of v (fst m) /\ inner v (snd m)) l).
    { destruct T as [w0 _|l b T]; [constructor|]. apply jmembers_within in T. eapply Forall_impl; [|exact T]. intros a [Ha Hb].
      split; [apply (key_in [123] b _ [125]), Ha|]. apply (within_inner [123] b _ [125]); [cbn; lia|exact Hb]. }
    eapply Forall_impl; [|exact X]. intros a [Ha Hb]. split; [apply key_in, Ha|]. eapply inner_in; [exact Hb|]. exists w, w'. reflexivity.
Qed.

(** ** Results *)

Definition res {A} (Q : A -> Prop) (P : panicmsg -> Prop) (F : Prop) (r : eres A) : Prop :=
  match r with EOk a => Q a | EErr _ => True | EPanic p => P p | EFuel => F end.
Lemma res_bind {A B} (Q : A -> Prop) (Q' : B -> Prop) P F r f :
  res Q P F r -> (forall a, Q a -> res Q' P F (f a)) -> res Q' P F (ebind r f).
Proof. destruct r; cbn; auto. Qed.
Lemma res_weaken {A} (Q Q' : A -> Prop) (P : panicmsg -> Prop) (F F' : Prop) r :
  res Q P F r -> (forall a, Q a -> Q' a) -> (F -> F') -> res Q' P F' r.
Proof. destruct r; cbn; auto. Qed.
Lemma returns_res {A} (Q : A -> Prop) P F r : returns Q r -> res Q P F r.
Proof. destruct r; cbn; tauto. Qed.
Lemma returns_bind {A B} (Q : A -> Prop) (Q' : B -> Prop) r f :
  returns Q r -> (forall a, Q a -> returns Q' (f a)) -> returns Q' (ebind r f).
Proof. destruct r; cbn; auto. Qed.
Lemma with_top_returns {A} (Q : A -> Prop) bz f : (forall j, parts_of bz j -> returns Q (f j)) -> returns Q (with_top bz f).
Proof. intros H. unfold with_top. destruct (json_top bz) as [j|] eqn:E; [|exact I]. apply H, top_parts, E. Qed.
Lemma unq_returns bz s : key_of bz s -> returns (fun n => bytes_ok bz -> bytes_ok n) (unq s).
Proof. intros [J B]. destruct (unq_total s J) as (n & -> & O). cbn. auto. Qed.

Lemma raw_list_returns bz : returns (Forall (inner bz)) (raw_list bz).
Proof. unfold raw_list. apply with_top_returns. intros [| | | |l|] H; cbn in *; try exact I; [constructor|exact H]. Qed.
Definition member_of (bz : bytes) (p : bytes * bytes) : Prop := (bytes_ok bz -> bytes_ok (fst p)) /\ inner bz (snd p).
Lemma map_put_all (Q : bytes * bytes -> Prop) key raw m : (forall k, Q (k, snd (key, raw)) \/ True) ->
  (forall k r, Q (k, r) -> Q (key, raw) -> Q (k, raw)) -> Q (key, raw) -> Forall Q m -> Forall Q (map_put key raw m).
Proof.
  intros _ Hq Hn H. induction H as [|[k r] m Hk H IH]; cbn [map_put]; [constructor; [exact Hn|constructor]|].
  destruct (beqb k key); constructor; eauto.
Qed.
Lemma fill_map_returns bz : forall l m, Forall (fun p => key_of bz (fst p) /\ inner bz (snd p)) l -> Forall (member_of bz) m ->
  returns (Forall (member_of bz)) (fill_map l m).
Proof.
  induction l as [|[key raw] l IH]; intros m Hl Hm; cbn [fill_map]; [exact Hm|]. inversion Hl as [|? ? [Hk Hr] Hl']; subst. cbn [fst snd] in *.
  eapply returns_bind; [apply (unq_returns bz), Hk|]. intros k B. apply IH; [exact Hl'|].
  apply map_put_all; [auto| | |exact Hm]; unfold member_of; cbn [fst snd]; [tauto|auto].
Qed.
Lemma raw_map_returns bz : returns (Forall (member_of bz)) (raw_map bz).
Proof. unfold raw_map. apply with_top_returns. intros [| | | | |l] H; cbn in *; try exact I; [constructor|]. apply fill_map_returns; [exact H|constructor]. Qed.
Lemma inner_top bz b : inner bz b -> exists j, json_top b = Some j /\ parts_of b j.
Proof. intros (J & _). destruct (jtext_top b J) as (j & E & _). exists j. split; [exact E|apply top_parts, E]. Qed.
Lemma fill_wrapper_returns bz : forall l w, Forall (fun p => key_of bz (fst p) /\ inner bz (snd p)) l ->
  wr_data w = [] \/ inner bz (wr_data w) -> returns (fun w => wr_data w = [] \/ inner bz (wr_data w)) (fill_wrapper l w).
Proof.
  induction l as [|[key raw] l IH]; intros w Hl Hw; cbn [fill_wrapper]; [exact Hw|]. inversion Hl as [|? ? [Hk Hr] Hl']; subst. cbn [fst snd] in *.
  eapply returns_bind; [apply (unq_returns bz), Hk|]. intros k _. destruct (beqb (map lower k) (bs "type")).
  - destruct (inner_top _ _ Hr) as (j & E & T). rewrite E. destruct j; try (apply IH; [exact Hl'|exact Hw]).
    eapply returns_bind; [eapply unq_returns; exact T|]. intros n _. apply IH; [exact Hl'|exact Hw].
  - destruct (beqb (map lower k) (bs "value")); apply IH; try exact Hl'; try exact Hw. right. exact Hr.
Qed.
Lemma wrapper_returns bz : returns (fun nd => inner bz (snd nd)) (decode_wrapper bz).
Proof.
  unfold decode_wrapper. apply (returns_bind (fun w => wr_data w = [] \/ inner bz (wr_data w))).
  - unfold raw_wrapper. apply with_top_returns. intros [| | | | |l] H; cbn in *; try exact I; [left; reflexivity|].
    eapply returns_bind; [apply fill_wrapper_returns; [exact H|left; reflexivity]|]. intros w Hw. destruct (wr_bad w); [exact I|exact Hw].
  - intros w Hw. destruct (wr_name w); [exact I|]. destruct (wr_data w) as [|x d] eqn:E; [exact I|]. destruct Hw as [Hw|Hw]; [discriminate|exact Hw].
Qed.
Lemma byte_elems_returns bz : forall l old, Forall (inner bz) l -> bytes_ok old -> returns (fun b => bytes_ok b) (byte_elems l old).
Proof.
  induction l as [|e l IH]; intros old Hl Ho; cbn [byte_elems]; [apply bytes_ok_nil|]. inversion Hl; subst.
  assert (Hh : 0 <= hd 0 old < 256 /\ bytes_ok (tl old)).
  { destruct old as [|x old]; cbn; [split; [lia|apply bytes_ok_nil]|]. apply bytes_ok_inv, Ho. }
  apply (returns_bind (fun z => 0 <= z < 256)).
  - apply with_top_returns. intros [| |n| | |] _; cbn; try exact I; [tauto|]. destruct (parse_uint n) as [z|]; [|exact I].
    destruct (in_uint 8 z) eqn:R; [|exact I]. cbn. unfold in_uint in R. change (2 ^ 8) with 256 in R. lia.
  - intros z Hz. eapply returns_bind; [apply IH; tauto|]. intros r Hr. cbn. apply bytes_ok_cons; assumption.
Qed.
Lemma raw_bytes_returns bz old : bytes_ok bz -> bytes_ok old -> returns (fun b => bytes_ok b) (raw_bytes bz old).
Proof.
  intros Hb Ho. unfold raw_bytes. apply with_top_returns. intros [| | |s|l|] H; cbn in *; try exact I; [apply bytes_ok_nil| |].
  - eapply returns_bind; [apply (unq_returns bz), H|]. intros b _. destruct (b64_decode _) as [r|] eqn:E; [|exact I]. cbn. eapply b64_bytes; [apply Nat.le_refl|exact E].
  - eapply byte_elems_returns; eassumption.
Qed.

(** ** The decoder *)

(** Bytes that are looked at: not empty, and not just a quote. *)
Definition looks (bz : bytes) : Prop := bytes_ok bz /\ bz <> [] /\ bz <> [34].
Lemma inner_looks bz b : looks bz -> inner bz b -> looks b.
Proof.
  intros (B & _) (J & _ & O). split; [auto|]. destruct (jtext_head _ J) as (x & r & -> & _). split; [discriminate|].
  intros E. rewrite E in J. destruct (jtext_top _ J) as (j & T & _). vm_compute in T. discriminate.
Qed.

Section Safe.
  Variable env : tenv.
  Hypothesis We : wf_env env.
  Variable je : jenv.
  Hypothesis Hje : jenv_safe je.
  Variable mem : gotype -> Prop.
  Hypothesis Hmem : jsafe_set env je mem.
  Variable c : codec.
  Hypothesis Hc : wf_codec env c.
  Hypothesis Hsane : sane_codec env c.
  Hypothesis Hreg : forall ci, In ci (cd_concretes c) -> mem (ci_type ci).
  Variable R : nat.
  Notation part := (jpart mem).
  Notation minfo := (minfo env c).

  (** The only panic left. *)
  Definition PJ (p : panicmsg) : Prop :=
    p = assign_msg /\ exists ci ii, In ci (cd_concretes c) /\ In ii (cd_ifaces c) /\ te_impl env (reg_form ci) (ii_id ii) = false.
  (** [n] is not enough fuel. *)
  Definition short (n need : nat) : Prop := (forall t, mem t -> jchain env R t) -> (n < need)%nat.
  Definition good (t : gotype) (F : Prop) (r : eres value) : Prop := res (fun v => has_type env t v = true) PJ F r.

  Lemma jgti t : part t -> returns (fun info => minfo info t) (get_type_info env c t).
  Proof.
    intros [Hs _]. destruct (get_type_info env c t) as [info|e|p|] eqn:E; cbn; try exact I.
    - destruct info as [ci|ii]; cbn; [apply (get_type_info_sane env c t ci); assumption|apply (get_type_info_iface_sane env c t ii E)].
    - apply Hmem in Hs. unfold get_type_info in E. unfold jsafe_type in Hs.
      destruct (deref_type t); try contradiction; try (destruct (find_iface _ _); discriminate);
        (destruct (assoc _ _ _); [discriminate|]); try discriminate; destruct Hs as [[ci Hci] _]; rewrite Hci in E; discriminate.
    - exact (get_type_info_nofuel _ _ _ E).
  Qed.

  Lemma prim_good p bz o : looks bz -> returns (fun v => prim_has p v = true) (unjson_prim je p bz o).
  Proof.
    intros (B & N & Q).
    assert (Num : forall b f z, (forall n, returns (fun v => prim_has p v = true) (f n)) -> prim_has p z = true ->
      returns (fun v => prim_has p v = true) (with_top b (fun j => match j with JNum n => f n | JNull => EOk z | _ => EErr type_error end))).
    { intros b f z Hf Hz. apply with_top_returns. intros [| | | | |] _; cbn; try exact I; auto. }
    assert (Quo : forall f, (forall b, returns (fun v => prim_has p v = true) (f b)) -> returns (fun v => prim_has p v = true)
      (match bz with
       | [] => EPanic "index out of range"%string
       | b :: _ =>
           if negb (b =? 34) || negb (last bz 0 =? 34) then EErr "Amino:JSON int/int64/uint/uint64 expects quoted values"%string
           else if (length bz <? 2)%nat then EPanic "slice bounds out of range"%string
           else f (removelast (tl bz))
       end)).
    { intros f Hf. destruct bz as [|b r]; [contradiction|]. destruct (negb (b =? 34) || _) eqn:E; [exact I|].
      destruct (length (b :: r) <? 2)%nat eqn:L; [|apply Hf]. exfalso. destruct r as [|x r]; [|cbn [length] in L; lia].
      apply Q. f_equal. lia. }
    unfold unjson_prim. destruct p; cbv zeta;
      try (refine (Quo (fun b => with_top b _) _); intros b; cbv beta); try (apply Num; [|reflexivity]; intros n; cbv beta);
      try (destruct (parse_int n) as [z|]; [|exact I]); try (destruct (parse_uint n) as [z|]; [|exact I]);
      try (destruct (in_int _ z) eqn:Hz; [exact Hz|exact I]); try (destruct (in_uint _ z) eqn:Hz; [exact Hz|exact I]).
    - apply with_top_returns. intros [| | | | |] _; cbn; try exact I; reflexivity.
    - destruct (fo_unsafe o); [|exact I]. apply Num; [|reflexivity]. intros n. pose proof (js_float32 _ Hje n) as Hf. destruct (je_unfloat je PFloat32 n); cbn in *; auto.
    - destruct (fo_unsafe o); [|exact I]. apply Num; [|reflexivity]. intros n. pose proof (js_float64 _ Hje n) as Hf. destruct (je_unfloat je PFloat64 n); cbn in *; auto.
    - apply with_top_returns. intros [| | |s| |] H; cbn; try exact I; [reflexivity|].
      eapply returns_bind; [apply (unq_returns bz), H|]. intros b Hb. cbn. apply byte_ok_forallb. auto.
  Qed.

  Variable rec : bytes -> tinfo -> gotype -> value -> fopts -> eres value.
  Variable fuel : nat.
  Hypothesis Hrec : forall bz info t v0 o, looks bz -> part t -> minfo info t -> has_type env t v0 = true ->
    good t (short fuel (length bz * R + R)) (rec bz info t v0 o).

  Lemma short_inner bz b : inner bz b -> short fuel (length b * R + R) -> short fuel (length bz * R).
  Proof. intros (_ & L & _) H X. specialize (H X). nia. Qed.
  Lemma rec_inner bz b info t v0 o : looks bz -> inner bz b -> part t -> minfo info t -> has_type env t v0 = true ->
    good t (short fuel (length bz * R)) (rec b info t v0 o).
  Proof.
    intros Hb Hi Hp Hm Hv. eapply res_weaken; [apply Hrec; try eassumption; eapply inner_looks; eassumption|auto|]. apply short_inner, Hi.
  Qed.

  Lemma interface_good ii bz o : looks bz -> In ii (cd_ifaces c) ->
    good (TIface (ii_id ii)) (short fuel (length bz * R)) (unjson_interface env c rec ii bz o).
  Proof.
    intros Hb Hii. unfold unjson_interface, good. eapply res_bind; [apply returns_res, wrapper_returns|]. intros [n d] Hd. cbn [snd fst] in *.
    unfold type_info_from_name. destruct (assoc beqb n (cd_names c)) as [ci|] eqn:E; cbn [ebind res]; [|exact I]. cbv zeta.
    apply (wc_names _ _ Hc) in E. destruct E as [Hci _]. pose proof (sa_conc _ _ Hsane _ Hci) as [Hok _].
    destruct (info_ok_parts _ _ Hok) as (Hk & _ & _ & _).
    assert (D : deref_type (ci_type ci) = ci_type ci) by (destruct (ci_type ci); try reflexivity; discriminate).
    assert (Hp : part (ci_type ci)).
    { split; [rewrite D; apply Hreg, Hci|]. intros X. destruct (ci_type ci); discriminate. }
    assert (Hm : minfo (TIConc ci) (ci_type ci)) by (split; [rewrite D; reflexivity|exact Hok]).
    pose proof (rec_inner bz d (TIConc ci) (ci_type ci) (zero env (ci_type ci)) o Hb Hd Hp Hm (has_type_zero env _ We)) as G.
    assert (Ass : te_impl env (reg_form ci) (ii_id ii) = false -> PJ assign_msg).
    { intros F. split; [reflexivity|]. exists ci, ii. auto. }
    fold (reg_form ci). destruct (rec d (TIConc ci) (ci_type ci) _ o) as [v|e|p|]; cbn [good res] in *; try assumption.
    - destruct (te_impl env (reg_form ci) (ii_id ii)) eqn:F; [|apply Ass; reflexivity]. cbn [res has_type resolve]. rewrite F. cbn [andb].
      unfold reg_form. destruct (match ci_reg ci with Some r => ri_ptr r | None => false end); [exact G|].
      destruct (ci_type ci); try exact G; discriminate.
    - destruct (te_impl env (reg_form ci) (ii_id ii)) eqn:F; [exact I|apply Ass; reflexivity].
  Qed.

  Lemma elems_good bz ert einfo o : looks bz -> part ert -> minfo einfo ert -> forall raws l,
    Forall (inner bz) raws -> length raws = length l -> forallb (has_type env ert) l = true ->
    res (fun r => length r = length l /\ forallb (has_type env ert) r = true) PJ (short fuel (length bz * R)) (unjson_elems rec einfo ert raws l o).
  Proof.
    intros Hb Hp Hm. induction raws as [|b raws IH]; intros [|v0 l] Hr Hl Hv; try discriminate; cbn [unjson_elems].
    { cbn. auto. }
    inversion Hr; subst. cbn [forallb] in Hv. apply andb_true_iff in Hv. destruct Hv as [Hv0 Hv].
    eapply res_bind; [apply (rec_inner bz); eassumption|]. intros v Ht.
    eapply res_bind; [apply IH; try assumption; cbn [length] in Hl; lia|]. intros vs [L F]. cbn [res length forallb]. rewrite Ht, F. split; [lia|reflexivity].
  Qed.
  Lemma array_good t n ert bz v0 o : looks bz -> resolve env t = RArray n ert -> (if is_uint8 env ert then ert = TPrim PUint8 else part ert) ->
    has_type env t v0 = true -> good t (short fuel (length bz * R)) (unjson_array env c rec n ert bz v0 o).
  Proof.
    intros Hb E He Hv. unfold unjson_array, good. destruct (is_uint8 env ert) eqn:U.
    - eapply res_bind; [apply returns_res, (raw_bytes_returns bz []); [apply Hb|apply bytes_ok_nil]|]. intros b Ob. subst ert.
      rewrite gotype_eqb_refl. cbn [negb]. destruct (length b =? n)%nat eqn:L; cbn [negb]; [|exact I].
      cbn [res has_type]. rewrite E. unfold bytes_val. rewrite map_length, L. apply (has_type_bytes env b Ob).
    - eapply res_bind; [apply returns_res, (jgti ert He)|]. intros einfo Hm.
      eapply res_bind; [apply returns_res, (raw_list_returns bz)|]. intros raws Hr.
      destruct (length raws =? n)%nat eqn:L; cbn [negb]; [|exact I].
      destruct v0 as [| | | | | |l0| | | | | | | |]; cbn [has_type] in Hv; rewrite E in Hv; try discriminate.
      apply andb_true_iff in Hv. destruct Hv as [L0 F0].
      eapply res_bind; [apply (elems_good bz); try eassumption; lia|]. intros l [L1 F1]. cbn [res has_type]. rewrite E, F1.
      replace (length l =? n)%nat with true by lia. reflexivity.
  Qed.
  Lemma forallb_repeat {A} (f : A -> bool) x n : f x = true -> forallb f (repeat x n) = true.
  Proof. intros H. induction n; cbn; [reflexivity|]. rewrite H. exact IHn. Qed.
  Lemma slice_good t ert bz v0 o : looks bz -> resolve env t = RSlice ert -> (if is_uint8 env ert then True else part ert) ->
    has_type env t v0 = true -> good t (short fuel (length bz * R)) (unjson_slice env c rec ert bz v0 o).
  Proof.
    intros Hb E He Hv.
    assert (Mk : forall l, forallb (has_type env ert) l = true -> has_type env t (mk_slice l) = true).
    { intros l H. unfold mk_slice. destruct l; cbn [has_type]; rewrite E; [reflexivity|exact H]. }
    unfold unjson_slice, good. destruct (is_uint8 env ert) eqn:U.
    - eapply res_bind; [apply returns_res, raw_bytes_returns; [apply Hb|]|].
      + destruct v0 as [| | | | | | |[l|]| | | | | | |]; try apply bytes_ok_nil. cbn [has_type] in Hv. rewrite E in Hv.
        apply Forall_forall. intros x Hx. unfold val_bytes in Hx. apply in_map_iff in Hx. destruct Hx as (v & <- & Hin).
        rewrite forallb_forall in Hv. specialize (Hv v Hin). unfold is_uint8 in U.
        destruct (resolve env ert) as [[]| | | | | | | | | |] eqn:Ee; try discriminate.
        rewrite (has_type_prim _ _ _ _ Ee) in Hv. destruct v; try discriminate. cbn in Hv. unfold in_uint in Hv. change (2 ^ 8) with 256 in Hv. cbn. lia.
      + intros b Ob. cbn [res]. apply Mk. unfold is_uint8 in U.
        destruct (resolve env ert) as [[]| | | | | | | | | |] eqn:Ee; try discriminate.
        rewrite <- (has_type_bytes env b Ob). clear - Ee. induction (bytes_val b) as [|x l IH]; cbn [forallb]; [reflexivity|].
        rewrite IH. f_equal. apply has_type_res. exact Ee.
    - eapply res_bind; [apply returns_res, (jgti ert He)|]. intros einfo Hm.
      eapply res_bind; [apply returns_res, (raw_list_returns bz)|]. intros raws Hr.
      eapply res_bind; [apply (elems_good bz); try eassumption; [rewrite repeat_length; reflexivity|apply forallb_repeat, has_type_zero, We]|].
      intros l [_ F]. cbn [res]. apply Mk, F.
  Qed.

  Definition jfield_of (fs : list sfield) (f : finfo) : Prop :=
    (exists sf, nth_error fs (fi_index f) = Some sf /\ sf_type sf = fi_type f) /\ part (fi_type f).
  Lemma fields_good bz sfs m o : looks bz -> Forall (member_of bz) m -> forall fs l, (forall f, In f fs -> jfield_of sfs f) ->
    forall2b (fun f w => has_type env (sf_type f) w) sfs l = true ->
    res (fun r => forall2b (fun f w => has_type env (sf_type f) w) sfs r = true) PJ (short fuel (length bz * R)) (unjson_fields env c rec fs m l o).
  Proof.
    intros Hb Hm. induction fs as [|f fs IH]; intros l Hf Hl; cbn [unjson_fields]; [exact Hl|]. cbv zeta.
    destruct (Hf f (or_introl eq_refl)) as [(sf & Hsf & Hst) Hp]. assert (Hf' : forall g, In g fs -> jfield_of sfs g) by (intros; apply Hf; right; assumption).
    assert (H0 : has_type env (fi_type f) (nth (fi_index f) l VInvalid) = true).
    { rewrite <- Hst. exact (forall2b_nth _ _ _ _ _ VInvalid Hl Hsf). }
    assert (U : forall v, has_type env (fi_type f) v = true -> forall2b (fun f w => has_type env (sf_type f) w) sfs (upd (fi_index f) v l) = true).
    { intros v Hv. refine (forall2b_upd _ _ _ _ _ _ Hl Hsf _). rewrite Hst. exact Hv. }
    eapply res_bind; [apply returns_res, (jgti _ Hp)|]. intros info Hi.
    assert (Z : res (fun r => forall2b (fun f w => has_type env (sf_type f) w) sfs r = true) PJ (short fuel (length bz * R))
      (unjson_fields env c rec fs m (if fo_omitempty (fi_opts f) then l else upd (fi_index f) (zero env (fi_type f)) l) o)).
    { apply IH; [exact Hf'|]. destruct (fo_omitempty _); [exact Hl|]. apply U, has_type_zero, We. }
    destruct (assoc beqb (fo_json_name (fi_opts f)) m) as [b|] eqn:A; [|exact Z]. destruct b as [|b0 b']; [exact Z|]. set (b := b0 :: b') in *.
    assert (Hin : inner bz b).
    { clear - Hm A. induction m as [|[k r] m IH]; [discriminate|]. inversion Hm as [|? ? H1 H2]; subst. cbn [assoc] in A.
      destruct (beqb _ k); [|apply IH; assumption]. injection A as ->. apply H1. }
    eapply res_bind; [apply (rec_inner bz); eassumption|]. intros v Hv. apply IH; [exact Hf'|apply U, Hv].
  Qed.
  Lemma members_good bz kt vt vinfo o : looks bz -> kt = TPrim PString -> part vt -> minfo vinfo vt -> forall m, Forall (member_of bz) m ->
    res (fun l => forallb (fun p => has_type env kt (fst p) && has_type env vt (snd p)) l = true) PJ (short fuel (length bz * R)) (unjson_members env rec kt vt vinfo m o).
  Proof.
    intros Hb -> Hp Hv. induction m as [|[k b] m IH]; intros Hm; cbn [unjson_members]; [reflexivity|]. inversion Hm as [|? ? [Bk Hi] Hm']; subst. cbn [fst snd] in *.
    eapply res_bind; [apply (rec_inner bz); try eassumption; apply has_type_zero, We|]. intros v Ht. rewrite gotype_eqb_refl. cbn [negb].
    eapply res_bind; [apply IH, Hm'|]. intros l Hl. cbn [res forallb fst snd]. rewrite Ht, Hl, !andb_true_r. apply byte_ok_forallb. apply Bk, Hb.
  Qed.

  Lemma switch_good t info bz v0 o : looks bz -> mem t -> deref_type t = t -> t <> TTime -> minfo info t ->
    (is_iface t = false -> jparts env mem t) ->
    has_type env t v0 = true -> good t (short fuel (length bz * R)) (unjson_switch env je c rec info bz v0 o).
  Proof.
    intros Hb Hme D Nt Hm Hpt Hv. unfold unjson_switch. pose proof (minfo_type _ _ _ _ Hm) as Ht. rewrite Ht, D.
    destruct info as [ci|ii].
    2:{ destruct Hm as [Hi Hd]. rewrite D in Hd. subst t. cbn [resolve]. apply interface_good; assumption. }
    destruct Hm as [Hm Hi]. rewrite D in Hm. destruct (info_ok_parts _ _ Hi) as (Hk & Hp & _ & _). rewrite Hm in Hk, Hp.
    assert (NI : is_iface t = false) by (destruct t; try reflexivity; discriminate). specialize (Hpt NI). unfold jparts in Hpt.
    destruct (resolve env t) eqn:E; try contradiction.
    - unfold good. eapply (res_weaken _ _ _ False); [apply returns_res, prim_good, Hb|cbv beta|contradiction]. intros v Hpv. rewrite (has_type_prim _ _ _ _ E). exact Hpv.
    - apply array_good; assumption.
    - apply slice_good; assumption.
    - unfold unjson_map, good. eapply res_bind; [apply returns_res, (raw_map_returns bz)|]. intros m Hmm.
      match goal with |- res _ _ _ (match resolve env ?kt with _ => _ end) => destruct (resolve env kt) as [[]| | | | | | | | | |] eqn:Ek; try exact I end. destruct (Hpt eq_refl) as [Hkt Hpv].
      eapply res_bind; [apply returns_res, (jgti _ Hpv)|]. intros vinfo Hvi. eapply res_bind; [apply (members_good bz); eassumption|].
      intros l Hl. cbn [res has_type]. rewrite E. exact Hl.
    - unfold unjson_struct, good. eapply res_bind; [apply returns_res, (raw_map_returns bz)|]. intros m Hmm.
      destruct v0 as [| | | | | | | | |l0| | | | |]; cbn [has_type] in Hv; rewrite E in Hv; try discriminate.
      eapply res_bind; [apply (fields_good bz fs); try eassumption|].
      + intros f Hin. unfold parse_struct_info in Hp. rewrite E in Hp.
        destruct (parse_fields_nth _ _ _ _ _ _ Hp Hin) as (sf & o' & H1 & H2 & H3 & H4 & H5 & H6 & H7). rewrite Nat.sub_0_r in H2.
        split; [exists sf; auto|]. rewrite H6. apply Hpt; try assumption; [eapply nth_error_In; eassumption|congruence].
      + intros l Hl. cbn [res has_type]. rewrite E. exact Hl.
  Qed.
End Safe.

Lemma deref_deref t : deref_type (deref_type t) = deref_type t.
Proof. induction t; auto. Qed.
Lemma chain_pos env k t : jchain env k t -> (0 < k)%nat.
Proof. destruct k; [contradiction|lia]. Qed.
Theorem decode_good env je mem c R : wf_env env -> jenv_safe je -> jsafe_set env je mem -> wf_codec env c -> sane_codec env c ->
  (forall ci, In ci (cd_concretes c) -> mem (ci_type ci)) ->
  forall fuel bz info t v0 o, looks bz -> jpart mem t -> minfo env c info t -> has_type env t v0 = true ->
  good env c t (forall k, jchain env k (deref_type t) -> short env mem R fuel (length bz * R + k)) (decode_json fuel env je c bz info t v0 o).
Proof.
  intros We Hje Hmem Hc Hs Hreg. induction fuel as [|fuel IH]; intros bz info t v0 o Hb Hp Hm Hv; cbn [decode_json].
  { unfold good, res, short. intros k Hk _. apply chain_pos in Hk. lia. }
  set (w0 := base_of env t v0). assert (Hw : has_type env (deref_type t) w0 = true) by (apply has_type_base; assumption).
  pose proof (deref_deref t) as D. destruct Hp as [Hme Hpi].
  assert (Hmb : minfo env c info (deref_type t)) by (destruct info; cbn; rewrite D; exact Hm).
  assert (Hrec : forall bz info t v0 o, looks bz -> jpart mem t -> minfo env c info t -> has_type env t v0 = true ->
    good env c t (short env mem R fuel (length bz * R + R)) (decode_json fuel env je c bz info t v0 o)).
  { intros bz' info' t' v0' o' Hb' Hp' Hm' Hv'. eapply res_weaken; [apply IH; assumption|auto|].
    intros X HR. apply X; [|exact HR]. apply HR, Hp'. }
  set (F := forall k, jchain env k (deref_type t) -> short env mem R (S fuel) (length bz * R + k)).
  assert (G : good env c (deref_type t) F
      (match deref_type t with
       | TTime =>
           if time_text bz then ebind (je_untime je bz) (fun r => EOk (VTime (fst r) (snd r)))
           else EErr "amino:JSON time must be an RFC3339Nano string in UTC"%string
       | _ =>
           match (match deref_type t with TNamed id => je_unmarshal je id | _ => None end) with
           | Some g => g bz w0
           | None =>
               match info with
               | TIConc {| ci_type := ct; ci_unmarshal := Some r |} =>
                   ebind (get_type_info env c r) (fun rinfo =>
                   ebind (decode_json fuel env je c bz rinfo r (zero env r) o) (fun rv =>
                   ebind (from_repr env ct w0 rv) (fun ve =>
                   match snd ve with Some e => EErr e | None => EOk (fst ve) end)))
               | _ => unjson_switch env je c (decode_json fuel env je c) info bz w0 o
               end
           end
       end)).
  { destruct (gotype_eqb (deref_type t) TTime) eqn:Et.
    { apply gotype_eqb_eq in Et. rewrite Et. destruct (time_text bz); [|exact I]. unfold good.
      eapply res_bind; [apply returns_res, (js_time _ Hje)|]. intros [s ns] [H1 H2]. cbn [res fst snd has_type resolve] in *. rewrite H1. cbn [andb]. lia. }
    assert (Nt : deref_type t <> TTime) by (intros E; rewrite E in Et; discriminate).
    assert (Hty := Hmem _ Hme).
    assert (Sw : (is_iface (deref_type t) = false -> jparts env mem (deref_type t)) ->
      good env c (deref_type t) F (unjson_switch env je c (decode_json fuel env je c) info bz w0 o)).
    { intros Hpt. eapply res_weaken; [apply (switch_good env We je Hje mem Hmem c Hc Hs Hreg R (decode_json fuel env je c) fuel Hrec (deref_type t)); assumption|auto|].
      intros X k Hk HR. apply chain_pos in Hk. specialize (X HR). lia. }
    assert (M : good env c (deref_type t) F
           (match (match deref_type t with TNamed id => je_unmarshal je id | _ => None end) with
           | Some g => g bz w0
           | None =>
               match info with
               | TIConc {| ci_type := ct; ci_unmarshal := Some r |} =>
                   ebind (get_type_info env c r) (fun rinfo =>
                   ebind (decode_json fuel env je c bz rinfo r (zero env r) o) (fun rv =>
                   ebind (from_repr env ct w0 rv) (fun ve =>
                   match snd ve with Some e => EErr e | None => EOk (fst ve) end)))
               | _ => unjson_switch env je c (decode_json fuel env je c) info bz w0 o
               end
           end)).
    { destruct info as [ci|ii].
      2:{ destruct Hmb as [_ Hd]. rewrite D in Hd. rewrite Hd. rewrite Hd in Sw. apply Sw. discriminate. }
      destruct Hmb as [Hct Hi]. rewrite D in Hct. destruct (info_ok_parts _ _ Hi) as (Hk & _ & _ & Hr). rewrite Hct in Hk, Hr.
      assert (Hs' : match (match deref_type t with TNamed id => je_unmarshal je id | _ => None end), unmarshal_repr env (deref_type t) with
        | Some g, _ => method_safe env (deref_type t) g
        | None, EOk (Some r) => jpart mem r /\ amino_safe env (deref_type t) r
        | None, _ => jparts env mem (deref_type t)
        end).
      { unfold jsafe_type in Hty. destruct (deref_type t); try discriminate; try (destruct Hty as [_ Hty]; exact Hty); contradiction. }
      clear Hty. destruct (match deref_type t with TNamed id => je_unmarshal je id | _ => None end) as [g|].
      { apply returns_res, Hs', Hw. }
      rewrite Hr in Hs'. destruct ci as [ct fs m [r|] rg]; cbn [ci_type ci_unmarshal] in *; [|apply Sw; intros; exact Hs'].
      destruct Hs' as [Hpr Ham]. subst ct. unfold good.
      eapply res_bind; [apply returns_res, (jgti env je mem Hmem c Hs r Hpr)|]. intros rinfo Hri.
      eapply res_bind; [eapply res_weaken; [apply (IH bz rinfo r (zero env r) o); try assumption; apply has_type_zero, We|intros a Ha; exact Ha|]|].
      - intros X k Hk' HR. destruct k as [|k]; [contradiction|]. cbn [jchain] in Hk'. rewrite Hr in Hk'.
        assert (Dr : deref_type r = r).
        { clear - Hr. unfold unmarshal_repr in Hr. destruct (deref_type t); try discriminate. destruct (te_unmarshal env id) as [[|[]]|]; try discriminate; injection Hr as <-; reflexivity. }
        rewrite Dr in X. specialize (X k Hk' HR). lia.
      - intros rv Hrv. eapply res_bind; [apply returns_res, (Ham w0 rv Hw Hrv)|]. intros [v' [e|]] Hv'; [exact I|exact Hv']. }
    destruct (deref_type t); try exact M. contradiction. }
  assert (G' : good env c t F (ebind (match deref_type t with
       | TTime =>
           if time_text bz then ebind (je_untime je bz) (fun r => EOk (VTime (fst r) (snd r)))
           else EErr "amino:JSON time must be an RFC3339Nano string in UTC"%string
       | _ =>
           match (match deref_type t with TNamed id => je_unmarshal je id | _ => None end) with
           | Some g => g bz w0
           | None =>
               match info with
               | TIConc {| ci_type := ct; ci_unmarshal := Some r |} =>
                   ebind (get_type_info env c r) (fun rinfo =>
                   ebind (decode_json fuel env je c bz rinfo r (zero env r) o) (fun rv =>
                   ebind (from_repr env ct w0 rv) (fun ve =>
                   match snd ve with Some e => EErr e | None => EOk (fst ve) end)))
               | _ => unjson_switch env je c (decode_json fuel env je c) info bz w0 o
               end
           end
       end) (fun w => EOk (rebuild t w)))).
  { eapply res_bind; [exact G|]. intros w Hww. cbn [res]. apply has_type_wrap. exact Hww. }
  assert (Z : good env c t F (EOk (zero env t))) by (apply has_type_zero, We).
  destruct info as [ci|ii], t; try (destruct (beqb bz null); [exact Z|exact G']).
  exfalso. destruct Hm as [_ Hm]. specialize (Hpi eq_refl). rewrite Hm in Hpi. discriminate.
Qed.

(** ** Whole calls *)

Theorem unmarshal_good env je mem c R : wf_env env -> jenv_safe je -> jsafe_set env je mem -> wf_codec env c -> sane_codec env c ->
  (forall ci, In ci (cd_concretes c) -> mem (ci_type ci)) ->
  forall fuel bz t v0, bytes_ok bz -> bz <> [34] -> jpart mem t -> has_type env t v0 = true ->
  good env c t (short env mem R fuel (length bz * R + R)) (unmarshal_json fuel env je c bz t v0).
Proof.
  intros We Hje Hmem Hc Hs Hreg fuel bz t v0 Hb Hq Hp Hv. unfold unmarshal_json. destruct bz as [|b0 bz']; [exact I|]. set (bz := b0 :: bz') in *.
  assert (L : looks bz) by (split; [exact Hb|split; [discriminate|exact Hq]]).
  unfold good. eapply res_bind; [apply returns_res, (jgti env je mem Hmem c Hs t Hp)|]. intros info Hm.
  assert (G : forall b, looks b -> (length b <= length bz)%nat -> good env c t (short env mem R fuel (length bz * R + R)) (decode_json fuel env je c b info t v0 no_opts)).
  { intros b Lb Hl. eapply res_weaken; [apply (decode_good env je mem c R); eassumption|auto|]. intros X HR.
    assert (Hk : jchain env R (deref_type t)) by apply HR, Hp. specialize (X R Hk HR). nia. }
  destruct info as [[ct fs m u [r|]]|ii]; try (apply G; [exact L|lia]).
  eapply res_bind; [apply returns_res, wrapper_returns|]. intros [n d] Hd. cbn [fst snd] in *. destruct (negb _); [exact I|].
  apply G; [eapply inner_looks; eassumption|]. destruct Hd as (_ & Hd & _). lia.
Qed.
