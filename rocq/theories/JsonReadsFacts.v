(** Facts about reading JSON: exactly the texts of the schema. *)
From Coq Require Import ZArith String List Bool Lia.
From Verif Require Import Base SpecWire Prims PrimFacts Types Codec BinEnc BinDec Amino Registry RegistryFacts Sane Typing DecSafe EncFacts
  SpecNorm JsonText Json SpecJson SpecJsonSafe SpecMembers JsonTextFacts JsonFacts JsonProps JsonSafe MembersFacts SpecJsonReads.
Import ListNotations.
Local Open Scope Z_scope.
Local Open Scope amino_scope.

(** ** Texts *)

Lemma text_top b : jtext b -> exists j, json_top b = Some j /\ top_of j b.
Proof. apply jtext_top. Qed.

Lemma elems_texts l b : jelems l b -> Forall jtext l.
Proof. induction 1; constructor; auto. Qed.
Lemma array_texts l b : jarray l b -> Forall jtext l.
Proof. intros []; [constructor|eapply elems_texts; eassumption]. Qed.

(** Numbers *)
Definition num_of (signed : bool) (size : Z) (j : jtop) : eres value :=
  match j with
  | JNum n => match (if signed then parse_int n else parse_uint n) with
              | Some z => if (if signed then in_int size z else in_uint size z) then EOk (int_val signed z) else EErr type_error
              | None => EErr type_error
              end
  | JNull => EOk (int_val signed 0)
  | _ => EErr type_error
  end.
Lemma fits_iff (signed : bool) size z : (if signed then in_int size z else in_uint size z) = true <-> int_fits signed size z.
Proof. unfold int_fits, in_int, in_uint. destruct signed; lia. Qed.
Lemma decimal_uint n z : decimal n z -> 0 <= z -> numeral n z.
Proof. intros [b z' H|b z' H N] P; [exact H|]. destruct (numeral_int _ _ H) as (_ & Q & _). lia. Qed.
Lemma whole_number signed n z : whole signed n z -> jnumber n.
Proof.
  intros [D|(H1 & H2 & H3)]; [eapply decimal_number; exact D|]. subst n. change (bs "-0") with ([45] ++ [48] ++ ([] : bytes) ++ ([] : bytes)).
  apply jn_intro; [tauto| |left; reflexivity|left; reflexivity]. destruct (numeral_int [48] 0 (nm_one 0 ltac:(lia))) as (X & _). exact X.
Qed.
Lemma num_of_iff signed size j x v : 0 < size -> top_of j x ->
  (num_of signed size j = EOk v <-> x = bs "null" /\ v = int_val signed 0 \/ exists z, whole signed x z /\ int_fits signed size z /\ v = int_val signed z).
Proof.
  intros Hz T. split.
  - destruct j as [|b|n|s|l|l]; cbn [num_of]; intros H; try discriminate.
    + left. apply EOk_inj in H. cbn [top_of] in T. auto.
    + right. destruct T as [-> Hn]. destruct (if signed then _ else _) as [z|] eqn:P; [|discriminate].
      destruct (if signed then in_int size z else in_uint size z) eqn:F; [|discriminate]. apply EOk_inj in H. exists z. apply fits_iff in F. splits; auto.
      destruct signed; [|left; apply dc_pos, parse_uint_sound; assumption].
      destruct (parse_int_sound n z Hn P) as [D|[-> ->]]; [left; exact D|right; auto].
  - intros [[-> ->]|(z & W & F & ->)].
    + assert (E : j = JNull) by (pose proof (top_ok _ _ T) as E; change (json_top (bs "null")) with (Some JNull) in E; congruence). subst j. reflexivity.
    + pose proof (top_ok _ _ T) as E. rewrite (top_ok (JNum x)) in E by (split; [reflexivity|eapply whole_number; exact W]). injection E as <-.
      cbn [num_of]. assert (P : (if signed then parse_int x else parse_uint x) = Some z).
      { destruct signed.
        - destruct W as [D|(_ & -> & ->)]; [apply parse_int_ok, D|reflexivity].
        - destruct W as [D|(X & _)]; [|discriminate X]. apply parse_uint_ok, decimal_uint; [exact D|]. unfold int_fits in F. lia. }
      rewrite P. apply fits_iff in F. rewrite F. reflexivity.
Qed.

(** What is between quotes. *)
Definition in_quotes (bz : bytes) (f : bytes -> eres value) : eres value :=
  match bz with
  | [] => EPanic "index out of range"%string
  | b :: _ =>
      if negb (b =? 34) || negb (last bz 0 =? 34) then EErr "Amino:JSON int/int64/uint/uint64 expects quoted values"%string
      else if (length bz <? 2)%nat then EPanic "slice bounds out of range"%string
      else f (removelast (tl bz))
  end.
Lemma in_quotes_iff bz f v : in_quotes bz f = EOk v <-> exists s, bz = 34 :: s ++ [34] /\ f s = EOk v.
Proof.
  unfold in_quotes. split.
  - destruct bz as [|b r]; [discriminate|]. intros HX. destruct (quote_ends b r) as (inner & E1 & E2).
    + destruct (negb (b =? 34) || negb (last (b :: r) 0 =? 34)); [discriminate|]. destruct (length (b :: r) <? 2)%nat; [discriminate|reflexivity].
    + exists inner. split; [exact E1|]. rewrite <- E2. destruct (negb (b =? 34) || negb (last (b :: r) 0 =? 34)); [discriminate|].
      destruct (length (b :: r) <? 2)%nat; [discriminate|]. exact HX.
  - intros (s & -> & H). assert (L : last (34 :: s ++ [34]) 0 = 34) by (change (34 :: s ++ [34]) with ((34 :: s) ++ [34]); apply last_last).
    rewrite L. cbn [Z.eqb Pos.eqb negb orb]. replace (Nat.ltb (length (34 :: s ++ [34])) 2) with false.
    2:{ symmetry. apply Nat.ltb_ge. cbn [length]. rewrite app_length. cbn [length]. lia. }
    cbn [tl]. rewrite removelast_last. exact H.
Qed.
Lemma quoted_top_iff signed size s v : 0 < size -> (with_top s (num_of signed size) = EOk v <->
  exists w x w', s = w ++ x ++ w' /\ spaces w /\ spaces w' /\
    (x = bs "null" /\ v = int_val signed 0 \/ exists z, whole signed x z /\ int_fits signed size z /\ v = int_val signed z)).
Proof.
  intros Hz. unfold with_top. split.
  - destruct (json_top s) as [j|] eqn:J; [|discriminate]. intros H. destruct (top_sound _ _ J) as (w & x & w' & -> & Sw & Sw' & T).
    exists w, x, w'. splits; auto. apply (proj1 (num_of_iff signed size j x v Hz T)), H.
  - intros (w & x & w' & -> & Sw & Sw' & H).
    assert (T : exists j, top_of j x).
    { destruct H as [[-> _]|(z & W & _)]; [exists JNull; reflexivity|exists (JNum x); split; [reflexivity|eapply whole_number; exact W]]. }
    destruct T as (j & T). rewrite (top_complete w x w' j Sw Sw' T). apply (num_of_iff signed size j x v Hz T), H.
Qed.

Lemma prim_iff je p b v o : jtext b -> b <> bs "null" -> fo_unsafe o = false -> (unjson_prim je p b o = EOk v <-> read_prim p b v).
Proof.
  intros Hb Nb Hu. destruct (text_top b Hb) as (j & J & T).
  assert (Q : forall signed size, int_type p = Some (signed, size, true) -> unjson_prim je p b o = in_quotes b (fun s => with_top s (num_of signed size))).
  { intros signed size E. destruct p; cbn [int_type] in E; try discriminate; injection E as <- <-; reflexivity. }
  assert (N : forall signed size, int_type p = Some (signed, size, false) -> unjson_prim je p b o = with_top b (num_of signed size)).
  { intros signed size E. destruct p; cbn [int_type] in E; try discriminate; injection E as <- <-; reflexivity. }
  assert (Sz : forall signed size q, int_type p = Some (signed, size, q) -> 0 < size).
  { intros signed size q E. destruct p; cbn [int_type] in E; try discriminate; injection E as <- <- <-; lia. }
  destruct (int_type p) as [[[signed size] [|]]|] eqn:I.
  - rewrite (Q _ _ eq_refl), in_quotes_iff. split.
    + intros (s & -> & H). apply quoted_top_iff in H; [|eapply Sz; reflexivity]. destruct H as (w & x & w' & -> & Sw & Sw' & [[-> ->]|(z & W & F & ->)]).
      * eapply rp_quoted_null; eassumption.
      * eapply rp_quoted; eassumption.
    + intros H. destruct H as [b0 E|s n E|sg sz n z E|sg sz w n w' z E Sw Sw' W F|sg sz w w' E Sw Sw']; try (subst p; discriminate I); rewrite I in E; try discriminate E; injection E as <- <-; eexists; (split; [reflexivity|]);
        (apply quoted_top_iff; [eapply Sz; reflexivity|]); exists w; eexists; exists w'; (split; [reflexivity|]); splits; auto. right. eauto.
  - rewrite (N _ _ eq_refl). unfold with_top. rewrite J. rewrite (num_of_iff signed size j b v (Sz _ _ _ eq_refl) T). split.
    + intros [[E _]|(z & W & F & ->)]; [contradiction|]. eapply rp_number; eassumption.
    + intros H. right. destruct H as [b0 E|s n E|sg sz n z E W F|sg sz w n w' z E|sg sz w w' E]; try (subst p; discriminate I); rewrite I in E; try discriminate E; injection E as <- <-. eauto.
  - destruct p; try discriminate I.
    + cbn [unjson_prim]. unfold with_top. rewrite J. split.
      * destruct j; intros H; try discriminate; apply EOk_inj in H; subst v; cbn [top_of] in T; [contradiction|]. subst b. apply rp_bool. reflexivity.
      * intros H. inversion H as [b0 E|s n E|sg sz n z E|sg sz w n w' z E|sg sz w w' E]; subst; try discriminate.
        assert (j = JBool b0) by (destruct b0; vm_compute in J; injection J; auto). subst j. reflexivity.
    + cbn [unjson_prim]. rewrite Hu. split; [discriminate|]. intros H. inversion H; discriminate.
    + cbn [unjson_prim]. rewrite Hu. split; [discriminate|]. intros H. inversion H; discriminate.
    + cbn [unjson_prim]. unfold with_top. rewrite J. split.
      * destruct j as [| | |s| |]; intros H; try discriminate; [cbn [top_of] in T; contradiction|]. destruct T as [-> Hs]. einv H. apply EOk_inj in H. subst v.
        apply rp_string; [reflexivity|exact Hs|]. apply unq_iff; assumption.
      * intros H. inversion H as [b0 E|s n E Hs D|sg sz n z E|sg sz w n w' z E|sg sz w w' E]; subst; try discriminate.
        rewrite (top_ok (JStr s)) in J by (split; [reflexivity|exact Hs]). injection J as <-. rewrite (denotes_unq _ _ D). reflexivity.
Qed.

(** ** Bytes *)

Lemma sym_iff a v : b64_val a = Some v <-> sym a v.
Proof.
  unfold sym. split.
  - intros H. pose proof (b64_val_range _ _ H) as R. split; [lia|]. unfold b64_val in H.
    assert (K : forall n, (n < 64)%nat -> nth_error base64_alphabet n = Some (b64_digit (Z.of_nat n))).
    { intros n Hn. do 64 (destruct n as [|n]; [reflexivity|]). lia. }
    rewrite K by lia. rewrite Z2Nat.id by lia. f_equal. unfold b64_digit.
    repeat match type of H with (if ?x then _ else _) = _ => destruct x eqn:? end; try discriminate; injection H as <-;
      repeat match goal with |- context [if ?x then _ else _] => destruct x eqn:? end; lia.
  - intros [P H]. assert (L : (Z.to_nat v < 64)%nat) by (change 64%nat with (length base64_alphabet); apply nth_error_Some; rewrite H; discriminate).
    rewrite <- (Z2Nat.id v) by lia. generalize dependent (Z.to_nat v). intros n H L.
    do 64 (destruct n as [|n]; [cbn in H; injection H as <-; reflexivity|]). lia.
Qed.
Lemma sym_not_pad a v : sym a v -> (a =? 61) = false.
Proof. intros H. apply sym_iff in H. destruct (a =? 61) eqn:E; [|reflexivity]. apply Z.eqb_eq in E. subst a. discriminate H. Qed.
Lemma base64_iff s r : b64_decode s = Some r <-> base64 s r.
Proof.
  split.
  - remember (length s) as k eqn:Hk. assert (Hl : (length s <= k)%nat) by lia. clear Hk. revert s r Hl. induction k as [|k IH]; intros s r Hl H.
    { destruct s; [|cbn in Hl; lia]. injection H as <-. constructor. }
    destruct s as [|a [|b [|c [|d s]]]]; try discriminate; [injection H as <-; constructor|]. cbn [length] in Hl. cbn [b64_decode] in H.
    assert (G : match b64_val a, b64_val b, b64_val c, b64_val d with
          | Some w, Some x, Some y, Some z => option_map (app [w * 4 + x / 16; x mod 16 * 16 + y / 4; y mod 4 * 64 + z]) (b64_decode s)
          | _, _, _, _ => None end = Some r -> base64 (a :: b :: c :: d :: s) r).
    { destruct (b64_val a) as [w|] eqn:A; [|discriminate]. destruct (b64_val b) as [x|] eqn:B; [|discriminate]. destruct (b64_val c) as [y|] eqn:C; [|discriminate].
      destruct (b64_val d) as [z|] eqn:D; [|discriminate]. destruct (b64_decode s) as [n|] eqn:E; [|discriminate]. cbn [option_map app]. intros X. injection X as <-.
      apply sym_iff in A, B, C, D. apply b6_more; try assumption. apply IH; [lia|exact E]. }
    destruct s as [|e s]; [|apply G; destruct (d =? 61); exact H]. destruct (d =? 61) eqn:Ed; [|apply G, H]. apply Z.eqb_eq in Ed. subst d.
    destruct (c =? 61) eqn:Ec.
    + apply Z.eqb_eq in Ec. subst c. destruct (b64_val a) as [w|] eqn:A; [|discriminate]. destruct (b64_val b) as [x|] eqn:B; [|discriminate]. injection H as <-.
      apply sym_iff in A, B. constructor; assumption.
    + destruct (b64_val a) as [w|] eqn:A; [|discriminate]. destruct (b64_val b) as [x|] eqn:B; [|discriminate]. destruct (b64_val c) as [y|] eqn:C; [|discriminate]. injection H as <-.
      apply sym_iff in A, B, C. constructor; assumption.
  - induction 1 as [|a b w x A B|a b c w x y A B C|a b c d w x y z s n A B C D H IH]; [reflexivity| | |].
    + cbn [b64_decode Z.eqb Pos.eqb]. apply sym_iff in A, B. rewrite A, B. reflexivity.
    + cbn [b64_decode]. rewrite (sym_not_pad _ _ C). change (61 =? 61) with true. apply sym_iff in A, B, C. rewrite A, B, C. reflexivity.
    + cbn [b64_decode]. rewrite (sym_not_pad _ _ D). apply sym_iff in A, B, C, D. rewrite A, B, C, D, IH. destruct s; reflexivity.
Qed.
Lemma byte_elems_iff : forall l old r, Forall jtext l -> (byte_elems l old = EOk r <-> byte_each l old r).
Proof.
  induction l as [|e l IH]; intros old r F; cbn [byte_elems].
  - split; [intros H; apply EOk_inj in H; subst r; constructor|intros H; inversion H; reflexivity].
  - inversion F as [|? ? Fe F']; subst. destruct (text_top e Fe) as (j & J & T).
    set (f := fun j => match j with
        | JNum n => match parse_uint n with Some z => if in_uint 8 z then EOk z else EErr type_error | None => EErr type_error end
        | JNull => EOk (hd 0 old) | _ => EErr type_error end : eres Z).
    assert (K : forall x, f j = EOk x <-> decimal e x /\ 0 <= x < 256 \/ e = bs "null" /\ x = hd 0 old).
    { intros x. unfold f. split.
      - destruct j as [| |n| | |]; intros H; try discriminate; [apply EOk_inj in H; right; auto|]. destruct T as [-> Hn].
        destruct (parse_uint n) as [z|] eqn:P; [|discriminate]. destruct (in_uint 8 z) eqn:R; [|discriminate]. apply EOk_inj in H. subst z. left.
        split; [apply dc_pos, parse_uint_sound; assumption|]. unfold in_uint in R. change (2 ^ 8) with 256 in R. lia.
      - intros [[D R]|[-> ->]].
        + rewrite (top_ok (JNum e)) in J by (split; [reflexivity|eapply decimal_number; exact D]). injection J as <-.
          rewrite (parse_uint_ok e x) by (apply decimal_uint; [exact D|lia]). unfold in_uint. change (2 ^ 8) with 256.
          replace ((0 <=? x) && (x <? 256)) with true by lia. reflexivity.
        + change (json_top (bs "null")) with (Some JNull) in J. injection J as <-. reflexivity. }
    unfold with_top at 1. rewrite J. fold (f j). split.
    + intros H. einv H. rename a into x. einv H. rename a into r'. apply EOk_inj in H. subst r. constructor; [apply K, E|apply IH; assumption].
    + intros H. inversion H as [|? ? x ? r' Hx Hr]; subst. apply K in Hx. rewrite Hx. cbn [ebind]. rewrite (proj2 (IH (tl old) r' F') Hr). reflexivity.
Qed.
Lemma bytes_iff b old r : jtext b -> b <> bs "null" -> (raw_bytes b old = EOk r <-> read_bytes old b r).
Proof.
  intros Hb Nb. destruct (text_top b Hb) as (j & J & T). unfold raw_bytes, with_top. rewrite J. split.
  - destruct j as [| | |s|l|]; intros H; try discriminate.
    + cbn [top_of] in T. contradiction.
    + destruct T as [-> Hs]. einv H. destruct (b64_decode (b64_clean a)) as [x|] eqn:D; [|discriminate]. apply EOk_inj in H. subst x.
      eapply rb_string; [exact Hs|apply unq_iff; [exact Hs|exact E]|]. apply base64_iff. exact D.
    + cbn [top_of] in T. eapply rb_array; [exact T|]. apply byte_elems_iff; [eapply array_texts; exact T|exact H].
  - intros H. inversion H as [s n r' Hs D B|l b' r' A B]; subst.
    + rewrite (top_ok (JStr s)) in J by (split; [reflexivity|exact Hs]). injection J as <-. rewrite (denotes_unq _ _ D). cbn [ebind].
      change (b64_clean n) with (without_line_ends n). rewrite (proj2 (base64_iff _ _) B). reflexivity.
    + rewrite (array_top _ _ A) in J. injection J as <-. apply byte_elems_iff; [eapply array_texts; exact A|exact B].
Qed.

(** ** Members and wrappers *)

Lemma member_cases n l : good_members l -> no_member n l \/ exists x, last_member n l x.
Proof.
  induction 1 as [|[k raw] l [Gk Gr] G IH]; [left; constructor|]. destruct IH as [N|(x & l1 & k1 & l2 & -> & C & N)].
  - destruct (unq_total k Gk) as (n' & E & _). apply unq_iff in E; [|exact Gk]. destruct (beqb n n') eqn:B.
    + apply beqb_eq in B. subst n'. right. exists raw, [], k, l. auto.
    + left. constructor; [|exact N]. unfold called. cbn [fst]. intros D. apply unq_iff in E; [|exact Gk]. apply unq_iff in D; [|exact Gk]. rewrite E in D. apply EOk_inj in D. subst n'. rewrite beqb_refl in B. discriminate.
  - right. exists x, ((k, raw) :: l1), k1, l2. auto.
Qed.
Lemma no_last n l x : no_member n l -> last_member n l x -> False.
Proof. intros N (l1 & k & l2 & -> & C & _). apply Forall_app in N. destruct N as [_ N]. inversion N; contradiction. Qed.

Lemma fill_strings : forall l w w', good_members l -> fill_wrapper l w = EOk w' -> wr_bad w' = false -> only_strings l /\ wr_bad w = false.
Proof.
  induction l as [|[k raw] l IH]; intros w w' G H B; cbn [fill_wrapper] in H.
  - apply EOk_inj in H. subst w'. split; [constructor|exact B].
  - inversion G as [|? ? [Gk Gr] G']; subst. cbn [fst snd] in *. einv H. rename a into n. fold word_type word_value in H.
    pose proof (key_is_unq word_type k n word_type_ok Gk E) as KT.
    destruct (beqb (map lower n) word_type) eqn:BT.
    + destruct (text_top raw Gr) as (j & J & T). rewrite J in H.
      destruct j as [| | |s| |]; try (apply IH in H; [|exact G'|exact B]; destruct H as [_ H]; discriminate H).
      * apply IH in H; [|exact G'|exact B]. destruct H as [H1 H2]. split; [|exact H2]. constructor; [|exact H1]. intros _. left. exact T.
      * einv H. apply IH in H; [|exact G'|exact B]. destruct H as [H1 H2]. split; [|exact H2]. constructor; [|exact H1]. intros _. right. destruct T as [T1 T2]. exists s. auto.
    + assert (Q : only_strings l /\ wr_bad w = false) by (destruct (beqb (map lower n) word_value); apply IH in H; assumption).
      destruct Q as [Q1 Q2]. split; [|exact Q2]. constructor; [|exact Q1]. cbn [fst snd]. intros X. apply KT in X. discriminate.
Qed.
Lemma wrapper_iff b name x : jtext b -> (decode_wrapper b = EOk (name, x) <-> wrapper_of b name x).
Proof.
  intros Hb. split.
  - intros H. destruct (wrapper_sound _ _ _ H) as (w & y & w' & l & E & Sw & Sw' & O & S & T & N & _). exists l.
    destruct (text_top b Hb) as (j & J & Tj). rewrite E, (top_complete w y w' (JObj l) Sw Sw' O) in J. injection J as <-. cbn [top_of] in Tj.
    splits; try assumption. unfold decode_wrapper, raw_wrapper, with_top in H. rewrite (object_top _ _ Tj) in H. einv H. einv E0.
    destruct (wr_bad a0) eqn:Bad; [discriminate|]. eapply fill_strings; [eapply object_members; exact Tj|exact E1|exact Bad].
  - intros (l & O & OS & S & N & T). destruct (wrapper_complete _ _ _ _ O OS S T) as (_ & E). rewrite E. destruct name; [contradiction|reflexivity].
Qed.
Lemma wrapper_text b name x : wrapper_of b name x -> jtext x.
Proof. intros (l & O & OS & S & N & T). destruct (wrapper_complete _ _ _ _ O OS S T) as (J & _). exact J. Qed.

(** ** The entries of a map *)

Lemma put_keys key raw : forall m, map fst (map_put key raw m) = if existsb (beqb key) (map fst m) then map fst m else map fst m ++ [key].
Proof.
  induction m as [|[k r] m IH]; [reflexivity|]. cbn [map_put map fst existsb]. destruct (beqb k key) eqn:B.
  - apply beqb_eq in B. subst k. rewrite beqb_refl. reflexivity.
  - assert (B' : beqb key k = false) by (destruct (beqb key k) eqn:X; [apply beqb_eq in X; subst; rewrite beqb_refl in B; discriminate|reflexivity]).
    rewrite B'. cbn [orb map fst app]. rewrite IH. destruct (existsb _ _); reflexivity.
Qed.
Lemma fill_keys : forall l names, Forall2 (fun m n => called n m) l names -> forall m seen m', fill_map l m = EOk m' ->
  (forall n, existsb (beqb n) seen = existsb (beqb n) (map fst m)) -> map fst m' = map fst m ++ firsts names seen.
Proof.
  induction 1 as [|[k raw] n l names C F IH]; intros m seen m' H S; cbn [fill_map firsts] in *.
  - apply EOk_inj in H. subst m'. rewrite app_nil_r. reflexivity.
  - unfold called in C. cbn [fst] in C. rewrite (denotes_unq _ _ C) in H. cbn [ebind] in H. rewrite S. destruct (existsb (beqb n) (map fst m)) eqn:X.
    + rewrite (IH _ seen _ H); rewrite put_keys, X; [reflexivity|exact S].
    + rewrite (IH _ (n :: seen) _ H); rewrite put_keys, X; [rewrite <- app_assoc; reflexivity|]. intros y. cbn [existsb]. rewrite existsb_app. cbn [existsb]. rewrite S, orb_false_r. apply orb_comm.
Qed.
Lemma firsts_nodup : forall l seen, NoDup (firsts l seen) /\ (forall n, In n (firsts l seen) -> In n l /\ existsb (beqb n) seen = false).
Proof.
  induction l as [|n l IH]; intros seen; cbn [firsts]; [split; [constructor|intros n []]|]. destruct (existsb (beqb n) seen) eqn:X.
  - destruct (IH seen) as [A B]. split; [exact A|]. intros y Hy. destruct (B y Hy). split; [right; assumption|assumption].
  - destruct (IH (n :: seen)) as [A B]. split.
    + constructor; [|exact A]. intros Hn. destruct (B n Hn) as [_ Y]. cbn [existsb] in Y. rewrite beqb_refl in Y. discriminate.
    + intros y [<- |Hy]; [split; [left; reflexivity|exact X]|]. destruct (B y Hy) as [B1 B2]. cbn [existsb] in B2. apply orb_false_iff in B2. split; [right; exact B1|apply B2].
Qed.
Lemma assoc_nodup : forall m n x, NoDup (map fst m) -> In (n, x) m -> assoc beqb n m = Some (x : bytes).
Proof.
  induction m as [|[k r] m IH]; intros n x N H; [destruct H|]. cbn [map fst] in N. inversion N as [|? ? N1 N2]; subst. cbn [assoc]. destruct H as [H|H].
  - injection H as -> ->. rewrite beqb_refl. reflexivity.
  - destruct (beqb n k) eqn:B; [|apply IH; assumption]. apply beqb_eq in B. subst k. exfalso. apply N1. change n with (fst (n, x)). apply in_map, H.
Qed.
Lemma map_entries l b names : jobject l b -> Forall2 (fun m n => called n m) l names ->
  exists m, raw_map b = EOk m /\ Forall2 (fun n e => n = fst e /\ last_member n l (snd e)) (firsts names []) m.
Proof.
  intros H F. destruct (raw_lookup _ _ H) as (m & E & N & L). exists m. split; [exact E|].
  assert (K : map fst m = firsts names []).
  { unfold raw_map, with_top in E. rewrite (object_top _ _ H) in E. rewrite (fill_keys _ _ F [] [] m E) by reflexivity. reflexivity. }
  destruct (firsts_nodup names []) as [ND In_]. rewrite <- K in *.
  assert (A : forall e, In e m -> last_member (fst e) l (snd e)).
  { intros [n x] He. cbn [fst snd]. pose proof (assoc_nodup _ _ _ ND He) as As.
    destruct (member_cases n l (object_members _ _ H)) as [X|(y & X)]; [rewrite (N _ X) in As; discriminate|]. rewrite (L _ _ X) in As. congruence. }
  clear - A. induction m as [|e m IH]; cbn [map]; constructor; [split; [reflexivity|apply A; left; reflexivity]|]. apply IH. intros; apply A; right; assumption.
Qed.
Lemma names_exist l : good_members l -> exists names, Forall2 (fun m n => called n m) l names.
Proof.
  induction 1 as [|[k raw] l [Gk _] G (ns & IH)]; [exists []; constructor|]. destruct (unq_total k Gk) as (n & E & _). exists (n :: ns). constructor; [|exact IH].
  apply unq_iff; assumption.
Qed.
Lemma last_unique n l x y : good_members l -> last_member n l x -> last_member n l y -> x = y.
Proof.
  intros G X Y. destruct (fill_lookup l [] G) as (m & _ & _ & L). pose proof (L _ _ X). pose proof (L _ _ Y). congruence.
Qed.

(** ** Types *)

Section Reading.
  Variable env : tenv.
  Variable je : jenv.
  Variable c : codec.
  Hypothesis We : wf_env env.
  Hypothesis Wc : wf_codec env c.
  Hypothesis Hs : sane_codec env c.

  Lemma known_info t : known env c t = true <-> exists info, get_type_info env c t = EOk info /\ minfo env c info t.
  Proof.
    unfold known. destruct (get_type_info env c t) as [info| | |] eqn:G; split; try discriminate; try (intros (? & X & _); discriminate X); auto.
    intros _. exists info. split; [reflexivity|]. eapply gti_minfo; eassumption.
  Qed.
  Lemma contents_base : forall t v, contents env t v = base_of env t v.
  Proof. induction t; intros v; cbn [contents base_of]; auto. Qed.
  Lemma ptrs_rebuild : forall t v, rebuild t v = ptrs t v.
  Proof. unfold rebuild. induction t; intros v; cbn [ptrs wrap_ptrs]; auto; rewrite IHt; reflexivity. Qed.
  Lemma time_text_iff b : time_text b = true <-> exists x, b = 34 :: x ++ [90; 34].
  Proof.
    unfold time_text. split.
    - intros H. rewrite !andb_true_iff in H. destruct H as (((L & A) & B) & C). apply Nat.leb_le in L. apply Z.eqb_eq in A, B, C.
      destruct (exists_last (l := b)) as (b1 & y & ->); [intros ->; cbn in L; lia|]. rewrite app_length in *. cbn [length] in *.
      rewrite app_nth2 in B by lia. replace (length b1 + 1 - 1 - length b1)%nat with 0%nat in B by lia. cbn [nth] in B. subst y.
      destruct (exists_last (l := b1)) as (b2 & z & ->); [intros ->; cbn in L; lia|]. rewrite app_length in *. cbn [length] in *.
      rewrite <- app_assoc in C. rewrite app_nth2 in C by lia. replace (length b2 + 1 + 1 - 2 - length b2)%nat with 0%nat in C by lia. cbn [app nth] in C. subst z.
      rewrite <- app_assoc in *. cbn [app] in *. destruct b2 as [|u b2]; [cbn in A; discriminate|]. cbn [app nth] in A. subst u. exists b2. reflexivity.
    - intros (x & ->). cbn [length]. rewrite app_length. cbn [length nth]. rewrite !andb_true_iff. repeat split.
      + apply Nat.leb_le. lia.
      + replace (S (length x + 2) - 1)%nat with (S (length x + 1)) by lia. cbn [nth]. rewrite app_nth2 by lia. replace (length x + 1 - length x)%nat with 1%nat by lia. reflexivity.
      + replace (S (length x + 2) - 2)%nat with (S (length x)) by lia. cbn [nth]. rewrite app_nth2 by lia. replace (length x - length x)%nat with 0%nat by lia. reflexivity.
  Qed.

  Section Rec.
    Variable rec : bytes -> tinfo -> gotype -> value -> fopts -> eres value.
    Variable R : gotype -> value -> bytes -> value -> Prop.
    Variable o : fopts.
    Hypothesis Ho : fo_unsafe o = false.
    Hypothesis Hrec : forall b i t v w, jtext b -> minfo env c i t -> has_type env t v = true -> (rec b i t v o = EOk w <-> R t v b w).

    Lemma elems_iff i e : minfo env c i e -> forall l vs ws, Forall jtext l -> forallb (has_type env e) vs = true ->
      (unjson_elems rec i e l vs o = EOk ws <-> Forall2 (fun p w => R e (fst p) (snd p) w) (combine vs l) ws).
    Proof.
      intros M. induction l as [|b l IH]; intros vs ws Fl Fv.
      - assert (X : combine vs (@nil bytes) = []) by (destruct vs; reflexivity). rewrite X. cbn [unjson_elems]. split; intros H.
        + apply EOk_inj in H. subst ws. constructor.
        + inversion H. reflexivity.
      - destruct vs as [|v vs]; cbn [unjson_elems combine].
        + split; intros H; [apply EOk_inj in H; subst ws; constructor|inversion H; reflexivity].
        + inversion Fl as [|? ? Fb Fl']; subst. cbn [forallb] in Fv. apply andb_true_iff in Fv. destruct Fv as [Fv Fvs]. split; intros H.
          * einv H. einv H. apply EOk_inj in H. subst ws. constructor; [apply (Hrec b i e v); assumption|apply IH; assumption].
          * inversion H as [|? w ? ws' H1 H2]; subst. cbn [fst snd] in H1. apply (Hrec b i e v w Fb M Fv) in H1. rewrite H1. cbn [ebind].
            apply (IH vs ws' Fl' Fvs) in H2. rewrite H2. reflexivity.
    Qed.
    Lemma combine_zero e (z : value) : forall l ws, Forall2 (fun p w => R e (fst p) (snd p) w) (combine (repeat z (length l)) l) ws <-> Forall2 (R e z) l ws.
    Proof.
      induction l as [|b l IH]; intros ws; cbn [length repeat combine]; split; intros H; inversion H; subst; constructor; auto; apply IH; assumption.
    Qed.

    Lemma fields_iff l m : good_members l ->
      (forall n, no_member n l -> assoc beqb n m = None) -> (forall n x, last_member n l x -> assoc beqb n m = Some x) ->
      forall fs i num fis pre vs r, parse_fields env fs i num = EOk fis -> length pre = i -> forall2b (fun f w => has_type env (sf_type f) w) fs vs = true ->
      (unjson_fields env c rec fis m (pre ++ vs) o = EOk r <-> exists ws, r = pre ++ ws /\ read_fields env c R l fs vs ws).
    Proof.
      intros G N L. induction fs as [|f fs IH]; intros i num fis pre vs r Hp Hl Ht.
      - destruct vs; [|discriminate Ht]. apply EOk_inj in Hp. subst fis. cbn [unjson_fields]. split.
        + intros H. apply EOk_inj in H. subst r. exists []. split; [reflexivity|constructor].
        + intros (ws & -> & H). inversion H. reflexivity.
      - destruct vs as [|v vs]; [discriminate Ht|]. cbn [forall2b] in Ht. apply andb_true_iff in Ht. destruct Ht as [Hv Ht].
        apply parse_cases in Hp. destruct (json_opts f) as [o'|] eqn:Ej.
        + destruct Hp as (fi & rest & -> & Hi & Hty & Hn & Hom & Hp). cbn [unjson_fields]. cbv zeta. rewrite Hi, Hty, Hn, Hom.
          assert (U : forall u, upd i u (pre ++ v :: vs) = (pre ++ [u]) ++ vs).
          { intros u. rewrite <- Hl. clear. induction pre as [|p pre IHp]; cbn [app length upd]; [reflexivity|]. rewrite IHp. reflexivity. }
          assert (Nv : nth i (pre ++ v :: vs) VInvalid = v) by (rewrite <- Hl; rewrite app_nth2 by lia; rewrite Nat.sub_diag; reflexivity).
          assert (Step : forall u, unjson_fields env c rec rest m ((pre ++ [u]) ++ vs) o = EOk r <-> exists ws, r = pre ++ u :: ws /\ read_fields env c R l fs vs ws).
          { intros u. rewrite (IH (S i) (S num) rest (pre ++ [u]) vs r Hp) by (try assumption; rewrite app_length; cbn [length]; lia).
            split; intros (ws & -> & H); exists ws; (split; [rewrite <- app_assoc; reflexivity|exact H]). }
          assert (Keep : pre ++ v :: vs = (pre ++ [v]) ++ vs) by (rewrite <- app_assoc; reflexivity).
          split.
          * intros H. einv H. rename a into info. pose proof (gti_minfo _ _ _ _ Hs E) as M.
            assert (Kn : known env c (sf_type f) = true) by (unfold known; rewrite E; reflexivity).
            destruct (member_cases (fo_json_name o') l G) as [X|(x & X)].
            -- rewrite (N _ X) in H. assert (H' : unjson_fields env c rec rest m ((pre ++ [if fo_omitempty o' then v else zero env (sf_type f)]) ++ vs) o = EOk r)
                 by (destruct (fo_omitempty o'); [rewrite <- Keep; exact H|rewrite <- U; exact H]).
               apply Step in H'. destruct H' as (ws & -> & H'). eexists. split; [reflexivity|]. eapply rs_absent; eassumption.
            -- rewrite (L _ _ X) in H. pose proof (last_text _ _ _ G X) as Jx. destruct (jtext_nonempty x Jx) as (y & r' & ->). einv H. rewrite Nv in E0. rewrite U in H.
               apply Step in H. destruct H as (ws & -> & H'). eexists. split; [reflexivity|]. eapply rs_member; try eassumption. apply (Hrec _ info); assumption.
          * intros (ws0 & -> & H). inversion H as [|f' fs' v' vs' ws Hj H'|f' fs' o1 v' vs' ws Hj Kn X H'|f' fs' o1 v' vs' w ws x Hj Kn X Hr H']; subst f' fs' v' vs' ws0.
            -- congruence.
            -- rewrite Ej in Hj. injection Hj as <-. apply known_info in Kn. destruct Kn as (info & Gi & M). rewrite Gi. cbn [ebind]. rewrite (N _ X).
               assert (Q : unjson_fields env c rec rest m ((pre ++ [if fo_omitempty o' then v else zero env (sf_type f)]) ++ vs) o = EOk (pre ++ (if fo_omitempty o' then v else zero env (sf_type f)) :: ws))
                 by (apply Step; exists ws; auto).
               destruct (fo_omitempty o'); [rewrite Keep; exact Q|rewrite U; exact Q].
            -- rewrite Ej in Hj. injection Hj as <-. apply known_info in Kn. destruct Kn as (info & Gi & M). rewrite Gi. cbn [ebind]. rewrite (L _ _ X).
               pose proof (last_text _ _ _ G X) as Jx. apply (Hrec x info _ _ _ Jx M Hv) in Hr. destruct (jtext_nonempty x Jx) as (y & r' & Ex). rewrite Ex in *. rewrite Nv, Hr. cbn [ebind]. rewrite U.
               apply Step. exists ws; auto.
        + assert (Keep : pre ++ v :: vs = (pre ++ [v]) ++ vs) by (rewrite <- app_assoc; reflexivity). rewrite Keep.
          rewrite (IH (S i) num fis (pre ++ [v]) vs r Hp) by (try assumption; rewrite app_length; cbn [length]; lia). split.
          * intros (ws & -> & H). exists (v :: ws). split; [rewrite <- app_assoc; reflexivity|]. apply rs_hidden; assumption.
          * intros (ws0 & -> & H). inversion H as [|f' fs' v' vs' ws Hj H'|f' fs' o1 v' vs' ws Hj Kn X H'|f' fs' o1 v' vs' w ws x Hj Kn X Hr H']; subst; try congruence.
            exists ws. split; [rewrite <- app_assoc; reflexivity|exact H'].
    Qed.
    Lemma members_iff vt i : minfo env c i vt -> forall m es, Forall (fun e => jtext (snd e)) m ->
      (unjson_members env rec (TPrim PString) vt i m o = EOk es <->
       Forall2 (fun e r => fst r = VStr (fst e) /\ R vt (zero env vt) (snd e) (snd r)) m es).
    Proof.
      intros M. induction m as [|[k b] m IH]; intros es F; cbn [unjson_members].
      - split; intros H; [apply EOk_inj in H; subst es; constructor|inversion H; reflexivity].
      - inversion F as [|? ? Fb F']; subst. cbn [snd] in Fb. pose proof (has_type_zero env vt We) as Z. cbn [gotype_eqb prim_eqb negb]. split; intros H.
        + einv H. change (negb (gotype_eqb (TPrim PString) (TPrim PString))) with false in H. cbv iota in H. einv H. apply EOk_inj in H. subst es. constructor; [|apply IH; assumption]. cbn [fst snd].
          split; [reflexivity|]. apply (Hrec b i); assumption.
        + inversion H as [|? [k' v] ? es' [H1 H2] H3]; subst. cbn [fst snd] in *. apply (Hrec b i _ _ _ Fb M Z) in H2. rewrite H2. cbn [ebind].
          change (negb (gotype_eqb (TPrim PString) (TPrim PString))) with false. cbv iota. apply (IH es' F') in H3. rewrite H3. cbn [ebind]. subst k'. reflexivity.
    Qed.
  End Rec.

  Lemma switch_iff k i t w0 b w o : fo_unsafe o = false ->
    (forall b i t v w, jtext b -> minfo env c i t -> has_type env t v = true -> (decode_json k env je c b i t v o = EOk w <-> reads env je c k t v b w)) ->
    jtext b -> b <> bs "null" -> minfo env c i t -> has_type env (deref_type t) w0 = true -> unread env je (deref_type t) -> deref_type t <> TTime ->
    (unjson_switch env je c (decode_json k env je c) i b w0 o = EOk w <-> reads_from env je c (reads env je c k) (deref_type t) w0 b w).
  Proof.
    intros Ho IH Hb Nb M Hw U Nt. pose proof (minfo_type _ _ _ _ M) as T. unfold unjson_switch. rewrite T.
    assert (Jo : forall l, jobject l b -> json_top b = Some (JObj l)) by (intros; apply object_top; assumption).
    assert (Ja : forall l, jarray l b -> json_top b = Some (JArr l)) by (intros; apply array_top; assumption).
    assert (Ta : forall l, json_top b = Some (JArr l) -> jarray l b) by (intros l E; destruct (text_top b Hb) as (j & J & Tj); rewrite J in E; injection E as ->; exact Tj).
    assert (To : forall l, json_top b = Some (JObj l) -> jobject l b) by (intros l E; destruct (text_top b Hb) as (j & J & Tj); rewrite J in E; injection E as ->; exact Tj).
    assert (Tn : json_top b <> Some JNull) by (intros E; destruct (text_top b Hb) as (j & J & Tj); rewrite J in E; injection E as ->; exact (Nb Tj)).
    assert (Rl : forall l, raw_list b = EOk l <-> jarray l b).
    { intros l. unfold raw_list, with_top. split; [|intros H; rewrite (Ja _ H); reflexivity]. destruct (json_top b) as [[| | | |l'|]|] eqn:J; try discriminate; [congruence|].
      intros H. apply EOk_inj in H. subst l'. apply Ta. reflexivity. }
    assert (Rm : forall m, raw_map b = EOk m -> exists l, jobject l b).
    { intros m. unfold raw_map, with_top. destruct (json_top b) as [[| | | | |l']|] eqn:J; try discriminate; [congruence|]. intros _. exists l'. apply To. reflexivity. }
    assert (Ti : is_iface (deref_type t) = true -> exists ii, i = TIFace ii).
    { intros X. destruct i as [ci|ii]; [|eauto]. destruct M as [M Hi]. destruct (info_ok_parts _ _ Hi) as (K & _). rewrite M in K. destruct (deref_type t); discriminate. }
    assert (Td : forall id, deref_type t = TNamed id -> je_unmarshal je id = None /\ te_unmarshal env id = None) by (intros id E; rewrite E in U; exact U).
    remember (deref_type t) as d eqn:Ed.
    assert (Inv : forall v, reads_from env je c (reads env je c k) d w0 b v ->
      match resolve env d with
      | RPrim p => read_prim p b v
      | RSlice e => if is_uint8 env e then exists r, v = slice_of (bytes_val r) /\ read_bytes (match w0 with VSlice (Some l) => val_bytes l | _ => [] end) b r
                    else exists l vs, known env c e = true /\ jarray l b /\ Forall2 (reads env je c k e (zero env e)) l vs /\ v = slice_of vs
      | RArray n e => if is_uint8 env e then exists r, e = TPrim PUint8 /\ read_bytes [] b r /\ length r = n /\ v = VArr (bytes_val r)
                      else exists l vs ws, known env c e = true /\ jarray l b /\ length l = n /\ w0 = VArr vs /\
                             Forall2 (fun p w => reads env je c k e (fst p) (snd p) w) (combine vs l) ws /\ v = VArr ws
      | RStruct fs => exists l vs ws, jobject l b /\ w0 = VStruct vs /\ read_fields env c (reads env je c k) l fs vs ws /\ v = VStruct ws
      | RMap kt vt => known env c vt = true /\
          ((exists l names es, kt = TPrim PString /\ jobject l b /\ Forall2 (fun m n => called n m) l names /\
             Forall2 (fun n e => fst e = VStr n /\ exists x, last_member n l x /\ reads env je c k vt (zero env vt) x (snd e)) (firsts names []) es /\ v = VMap (Some es)) \/
           resolve env kt = RPrim PString /\ jobject [] b /\ v = VMap (Some []))
      | RIface _ => exists id name x ct ptr u, d = TIface id /\ wrapper_of b name x /\ registration c ct = Some (name, ptr) /\
          te_impl env (if ptr then TPtr ct else ct) id = true /\ reads env je c k ct (zero env ct) x u /\
          v = VIface (Some (if ptr then TPtr ct else ct, if ptr then VPtr (Some u) else u))
      | _ => False
      end).
    { intros v H. destruct H as [x s ns E|id g v E X|id r g x v E X Y|p v Ux Rx H|e r Ux Rx I H|n r Ux Rx H L|e l vs Ux Rx I K J H|n e l vs ws Ux Rx I K J L Ew H|fs l vs ws Ux Rx J Ew H
        |vt l names es Ux Rx K J N H|kt vt Ux Rx Rk K J|id name x ct ptr v E Wr Rg Im H]; try (rewrite Rx).
      - contradiction.
      - destruct (Td _ E). congruence.
      - destruct (Td _ E). congruence.
      - exact H.
      - rewrite I. exists r. auto.
      - change (is_uint8 env (TPrim PUint8)) with true. cbv iota. exists r. auto.
      - rewrite I. exists l, vs. auto.
      - rewrite I. exists l, vs, ws. auto 10.
      - exists l, vs, ws. auto.
      - split; [exact K|]. left. exists l, names, es. auto.
      - split; [exact K|]. right. auto.
      - rewrite E. cbn [resolve]. exists id, name, x, ct, ptr, v. auto 10. }
    split.
    - destruct (resolve env d) as [p| |n e|e|e|kt vt| | |id|fs|] eqn:Rd; intros H; try discriminate.
      + eapply rf_prim; [exact U|exact Rd|]. apply prim_iff in H; assumption.
      + (* time: the target is not a struct *) destruct i as [ci|ii]; [|discriminate]. unfold unjson_struct in H. einv H. destruct w0; try discriminate. cbn [has_type] in Hw. rewrite Rd in Hw. discriminate.
      + unfold unjson_array in H. destruct (is_uint8 env e) eqn:I.
        * einv H. rename a into r. destruct (gotype_eqb e (TPrim PUint8)) eqn:Ge; cbn [negb] in H; [|discriminate]. apply gotype_eqb_eq in Ge. subst e.
          destruct (Nat.eqb_spec (length r) n) as [Ln|Ln]; cbn [negb] in H; [|discriminate]. apply EOk_inj in H. subst w.
          eapply rf_byte_array; [exact U|exact Rd| |exact Ln]. apply bytes_iff; assumption.
        * einv H. rename a into ei. einv H. rename a into l. destruct (Nat.eqb_spec (length l) n) as [Ln|Ln]; cbn [negb] in H; [|discriminate].
          destruct w0 as [| | | | | |vs| | | | | | | |]; try discriminate. einv H. rename a into ws. apply EOk_inj in H. subst w. apply Rl in E0.
          cbn [has_type] in Hw. rewrite Rd in Hw. apply andb_true_iff in Hw. destruct Hw as [_ Hw].
          eapply rf_array; try eassumption; try reflexivity; [unfold known; rewrite E; reflexivity|].
          apply (elems_iff (decode_json k env je c) (reads env je c k) o IH ei e (gti_minfo _ _ _ _ Hs E)); [eapply array_texts; exact E0|exact Hw|exact E1].
      + unfold unjson_slice in H. destruct (is_uint8 env e) eqn:I.
        * einv H. rename a into r. apply EOk_inj in H. subst w. eapply rf_bytes; [exact U|exact Rd|exact I|]. apply bytes_iff; assumption.
        * einv H. rename a into ei. einv H. rename a into l. einv H. rename a into ws. apply EOk_inj in H. subst w. apply Rl in E0.
          eapply rf_slice; try eassumption; [unfold known; rewrite E; reflexivity|]. apply combine_zero.
          apply (elems_iff (decode_json k env je c) (reads env je c k) o IH ei e (gti_minfo _ _ _ _ Hs E)); [eapply array_texts; exact E0| |exact E1].
          apply forallb_forall. intros x Hx. apply repeat_spec in Hx. subst x. apply has_type_zero, We.
      + unfold unjson_map in H. einv H. rename a into m. destruct (Rm _ E) as (l & J). destruct (names_exist l (object_members _ _ J)) as (names & N).
        destruct (map_entries _ _ _ J N) as (m' & E' & F). rewrite E in E'. apply EOk_inj in E'. subst m'.
        destruct (resolve env kt) as [[]| | | | | | | | | |] eqn:Rk; try discriminate. einv H. rename a into vi. einv H. rename a into es. apply EOk_inj in H. subst w.
        assert (Kn : known env c vt = true) by (unfold known; rewrite E0; reflexivity).
        destruct (gotype_eqb kt (TPrim PString)) eqn:Gk.
        * apply gotype_eqb_eq in Gk. subst kt. eapply rf_map; try eassumption.
          apply (members_iff (decode_json k env je c) (reads env je c k) o IH vt vi (gti_minfo _ _ _ _ Hs E0)) in E1.
          -- clear - F E1. revert es E1. induction F as [|n e ns m [H1 H2] F IHF]; intros es E1; inversion E1 as [|? r ? es' [A B] C]; subst; constructor; [|apply IHF, C].
             split; [exact A|]. exists (snd e). auto.
          -- clear - F J. induction F as [|n e ns m [H1 H2] F IHF]; constructor; [|exact IHF]. eapply last_text; [eapply object_members; exact J|exact H2].
        * destruct m as [|[kk bb] m].
          -- assert (l = []) as ->.
             { destruct N as [|p n l names Cn N]; [reflexivity|]. cbn [firsts existsb] in F. inversion F. }
             apply EOk_inj in E1. subst es. eapply rf_empty_map; eassumption.
          -- cbn [unjson_members] in E1. einv E1. rewrite Gk in E1. discriminate E1.
      + destruct i as [ci|ii]; [discriminate|]. destruct M as [_ M]. rewrite <- Ed in M. unfold unjson_interface in H. einv H. destruct a as [name x]. cbn [fst snd] in H.
        apply wrapper_iff in E; [|exact Hb]. einv H. rename a into ci. destruct (named_info env c Wc Hs _ _ E0) as (Mi & ptr & Rg).
        cbv zeta in H. assert (Ep : match ci_reg ci with Some r => ri_ptr r | None => false end = ptr).
        { destruct (registration_info env c Wc _ _ _ Rg) as (ci' & r & _ & _ & Er & _ & Ep & _ & Ef & _). rewrite E0 in Ef. apply EOk_inj in Ef. subst ci'. rewrite Er. exact Ep. }
        rewrite Ep in H. destruct (decode_json k env je c x (TIConc ci) (ci_type ci) (zero env (ci_type ci)) o) as [u| | |] eqn:D; try discriminate; [|destruct (te_impl _ _ _); discriminate].
        destruct (te_impl env (if ptr then TPtr (ci_type ci) else ci_type ci) (ii_id ii)) eqn:Im; [|discriminate]. apply EOk_inj in H. subst w.
        eapply rf_iface; [exact M|exact E|exact Rg|exact Im|]. apply (IH x (TIConc ci)); try assumption; [eapply wrapper_text; exact E|apply has_type_zero, We].
      + destruct i as [ci|ii]; [|discriminate]. unfold unjson_struct in H. einv H. rename a into m. destruct (Rm _ E) as (l & J). destruct (raw_lookup _ _ J) as (m' & E' & N & L).
        rewrite E in E'. apply EOk_inj in E'. subst m'. destruct w0 as [| | | | | | | | |vs| | | | |]; try discriminate. einv H. rename a into ws. apply EOk_inj in H. subst w.
        cbn [has_type] in Hw. rewrite Rd in Hw. destruct M as [M Hi]. rewrite <- Ed in M. destruct (info_ok_parts _ _ Hi) as (_ & Hp & _). unfold parse_struct_info in Hp. rewrite M, Rd in Hp.
        change vs with ([] ++ vs) in E0.
        apply (fields_iff (decode_json k env je c) (reads env je c k) o IH l m (object_members _ _ J) N L fs 0 0 (ci_fields ci) [] vs ws Hp eq_refl Hw) in E0.
        destruct E0 as (ws' & Ew & F). cbn [app] in Ew. subst ws'. eapply rf_struct; try eassumption. reflexivity.
    - intros H. apply Inv in H. destruct (resolve env d) as [p| |n e|e|e|kt vt| | |id|fs|] eqn:Rd; try contradiction.
      + apply prim_iff; assumption.
      + unfold unjson_array. destruct (is_uint8 env e) eqn:I.
        * destruct H as (r & -> & H & Ln & ->). apply bytes_iff in H; [|assumption|assumption]. rewrite H. cbn [ebind].
          change (gotype_eqb (TPrim PUint8) (TPrim PUint8)) with true. cbn [negb]. rewrite Ln, Nat.eqb_refl. reflexivity.
        * destruct H as (l & vs & ws & Kn & J & Ln & -> & H & ->). apply known_info in Kn. destruct Kn as (ei & Gi & Me). rewrite Gi. cbn [ebind]. rewrite (proj2 (Rl l) J). cbn [ebind].
          rewrite Ln, Nat.eqb_refl. cbn [negb]. cbn [has_type] in Hw. rewrite Rd in Hw. apply andb_true_iff in Hw. destruct Hw as [_ Hw].
          apply (elems_iff (decode_json k env je c) (reads env je c k) o IH ei e Me l vs ws (array_texts _ _ J) Hw) in H. rewrite H. reflexivity.
      + unfold unjson_slice. destruct (is_uint8 env e) eqn:I.
        * destruct H as (r & -> & H). apply bytes_iff in H; [|assumption|assumption]. rewrite H. reflexivity.
        * destruct H as (l & ws & Kn & J & H & ->). apply known_info in Kn. destruct Kn as (ei & Gi & Me). rewrite Gi. cbn [ebind]. rewrite (proj2 (Rl l) J). cbn [ebind].
          apply combine_zero in H. apply (elems_iff (decode_json k env je c) (reads env je c k) o IH ei e Me l _ ws (array_texts _ _ J)) in H; [rewrite H; reflexivity|].
          apply forallb_forall. intros x Hx. apply repeat_spec in Hx. subst x. apply has_type_zero, We.
      + destruct H as (Kn & [(l & names & es & -> & J & N & F & ->)|(Rk & J & ->)]); apply known_info in Kn; destruct Kn as (vi & Gi & Me); unfold unjson_map.
        * destruct (map_entries _ _ _ J N) as (m & E & Fm). rewrite E. cbn [ebind]. change (resolve env (TPrim PString)) with (RPrim PString). cbv iota. rewrite Gi. cbn [ebind].
          assert (Q : unjson_members env (decode_json k env je c) (TPrim PString) vt vi m o = EOk es).
          { apply (members_iff (decode_json k env je c) (reads env je c k) o IH vt vi Me).
            - clear - Fm J. induction Fm as [|n e ns m [H1 H2] F IHF]; constructor; [|exact IHF]. eapply last_text; [eapply object_members; exact J|exact H2].
            - clear - Fm F J. revert es F. induction Fm as [|n e ns m [H1 H2] Fm IHF]; intros es F; inversion F as [|? r ? es' [A (x & B1 & B2)] C]; subst; constructor; [|apply IHF, C].
              split; [exact A|]. rewrite (last_unique _ _ _ _ (object_members _ _ J) H2 B1). exact B2. }
          rewrite Q. reflexivity.
        * destruct (map_entries _ _ [] J (Forall2_nil _)) as (m & E & Fm). cbn [firsts] in Fm. inversion Fm; subst m. rewrite E. cbn [ebind]. rewrite Rk, Gi. reflexivity.
      + destruct H as (id' & name & x & ct & ptr & u & E & Wr & Rg & Im & H & ->). destruct (Ti ltac:(rewrite E; reflexivity)) as (ii & ->). destruct M as [_ M]. rewrite <- Ed in M. rewrite M in E. injection E as <-.
        pose proof (wrapper_text _ _ _ Wr) as Jx. apply wrapper_iff in Wr; [|exact Hb]. unfold unjson_interface. rewrite Wr. cbn [ebind fst snd].
        destruct (registration_info env c Wc _ _ _ Rg) as (ci & r & _ & Et & Er & _ & Ep & _ & Ef & _). rewrite Ef. cbn [ebind]. cbv zeta. rewrite Er, Ep, Et.
        destruct (named_info env c Wc Hs _ _ Ef) as (Mi & _). rewrite Et in Mi. apply (IH x (TIConc ci) ct (zero env ct) u Jx Mi (has_type_zero env ct We)) in H. rewrite H, Im. reflexivity.
      + destruct H as (l & vs & ws & J & -> & F & ->). destruct i as [ci|ii].
        * unfold unjson_struct. destruct (raw_lookup _ _ J) as (m & E & N & L). rewrite E. cbn [ebind].
          cbn [has_type] in Hw. rewrite Rd in Hw. destruct M as [M Hi]. rewrite <- Ed in M. destruct (info_ok_parts _ _ Hi) as (_ & Hp & _). unfold parse_struct_info in Hp. rewrite M, Rd in Hp.
          assert (Q : unjson_fields env c (decode_json k env je c) (ci_fields ci) m ([] ++ vs) o = EOk ws).
          { apply (fields_iff (decode_json k env je c) (reads env je c k) o IH l m (object_members _ _ J) N L fs 0 0 (ci_fields ci) [] vs ws Hp eq_refl Hw). exists ws. auto. }
          cbn [app] in Q. rewrite Q. reflexivity.
        * destruct M as [_ M]. rewrite <- Ed in M. rewrite M in Rd. discriminate Rd.
  Qed.

  Lemma body_iff k i t w0 b w o : fo_unsafe o = false ->
    (forall b i t v w, jtext b -> minfo env c i t -> has_type env t v = true -> (decode_json k env je c b i t v o = EOk w <-> reads env je c k t v b w)) ->
    jtext b -> b <> bs "null" -> minfo env c i t -> has_type env (deref_type t) w0 = true ->
    (body env je c k b i t w0 o = EOk w <-> reads_from env je c (reads env je c k) (deref_type t) w0 b w).
  Proof.
    intros Ho IH Hb Nb M Hw.
    assert (Nr : forall id, deref_type t = TNamed id -> ~ unread env je (TNamed id) -> forall v, reads_from env je c (reads env je c k) (TNamed id) w0 b v ->
      (exists g, je_unmarshal je id = Some g /\ g b w0 = EOk v) \/
      je_unmarshal je id = None /\ exists r g x, te_unmarshal env id = Some (UOk r g) /\ known env c r = true /\ reads env je c k r (zero env r) b x /\ g w0 x = EOk (v, None)).
    { intros id _ Nu v H. destruct H as [x s ns E|id' g v E X Y|id' r g x v E X Y K H Z| | | | | | | | |]; try contradiction; try discriminate E.
      - injection E as <-. left. exists g. auto.
      - injection E as <-. right. split; [exact X|]. exists r, g, x. auto.
      - discriminate. }
    destruct (deref_type t) as [p| | | | | | | |id'|id] eqn:D.
    2:{ unfold body. rewrite D. split.
        - destruct (time_text b) eqn:Tt; [|discriminate]. intros H. einv H. destruct a as [s ns]. cbn [fst snd] in H. apply EOk_inj in H. subst w.
          apply time_text_iff in Tt. destruct Tt as (x & Tt). eapply rf_time; [reflexivity|exact Tt|exact E].
        - intros H. inversion H as [x s ns E Eb Eu| | | | | | | | | | |]; subst; try discriminate.
          rewrite (proj2 (time_text_iff (34 :: x ++ [90; 34]))) by (exists x; reflexivity). rewrite Eu. reflexivity. }
    9:{ destruct (je_unmarshal je id) as [g|] eqn:Ej.
        - unfold body. rewrite D, Ej. split.
          + intros H. eapply rf_method; [reflexivity|exact Ej|exact H].
          + intros H. apply (Nr id eq_refl) in H; [|intros [X _]; congruence]. destruct H as [(g' & X & Y)|[X _]]; congruence.
        - destruct (te_unmarshal env id) as [u|] eqn:Eu.
          + destruct i as [[ct fs mr u' rg]|ii]; [|destruct M as [_ M]; congruence].
            pose proof M as [M0 Hi]. destruct (info_ok_parts _ _ Hi) as (_ & _ & _ & Q). cbn [ci_type ci_unmarshal] in M0, Q. rewrite M0, D in Q. unfold unmarshal_repr in Q. rewrite Eu in Q.
            destruct u as [pp|r g]; [discriminate Q|]. assert (Eq : u' = Some r) by (destruct r; try discriminate Q; apply EOk_inj in Q; symmetry; exact Q). subst u'.
            unfold body. rewrite D, Ej. rewrite M0, D. split.
            * intros H. einv H. rename a into ri. einv H. rename a into x. einv H. destruct a as [v e]. cbn [fst snd] in H. destruct e; [discriminate|]. apply EOk_inj in H. subst v.
              unfold from_repr in E1. rewrite Eu in E1. eapply rf_amino; [reflexivity|exact Ej|exact Eu|unfold known; rewrite E; reflexivity| |exact E1].
              apply (IH b ri); try assumption; [eapply gti_minfo; eassumption|apply has_type_zero, We].
            * intros H. apply (Nr id eq_refl) in H; [|intros [_ X]; congruence]. destruct H as [(g' & X & _)|(_ & r' & g' & x & X & K & H & Z)]; [congruence|].
              rewrite Eu in X. injection X as <- <-. apply known_info in K. destruct K as (ri & Gi & Mr). rewrite Gi. cbn [ebind].
              apply (IH b ri r (zero env r) x Hb Mr (has_type_zero env r We)) in H. rewrite H. cbn [ebind]. unfold from_repr. rewrite Eu, Z. reflexivity.
          + assert (U : unread env je (deref_type t)) by (rewrite D; split; assumption). assert (Nt : deref_type t <> TTime) by congruence.
            rewrite (unread_repr env je c _ _ M U Nt). rewrite <- D in *. apply switch_iff; assumption. }
    all: assert (U : unread env je (deref_type t)) by (rewrite D; exact I); assert (Nt : deref_type t <> TTime) by congruence;
      rewrite (unread_repr env je c _ _ M U Nt); rewrite <- D in *; apply switch_iff; assumption.
  Qed.

  Theorem reads_iff : forall k b i t v w o, fo_unsafe o = false -> jtext b -> minfo env c i t -> has_type env t v = true ->
    (decode_json k env je c b i t v o = EOk w <-> reads env je c k t v b w).
  Proof.
    induction k as [|k IH]; intros b i t v w o Ho Hb M Hv; [cbn [decode_json reads]; split; [discriminate|contradiction]|].
    rewrite (decode_body env je c). cbn [reads]. change (bs "null") with null.
    assert (Pi : (exists ii, i = TIFace ii) /\ is_ptr t = true -> is_iface (deref_type t) = true).
    { intros [[ii ->] _]. destruct M as [_ M]. rewrite M. reflexivity. }
    assert (Ip : is_ptr t = true -> is_iface (deref_type t) = true -> exists ii, i = TIFace ii).
    { intros _ X. destruct i as [ci|ii]; [|eauto]. destruct M as [M Hi]. destruct (info_ok_parts _ _ Hi) as (K & _). rewrite M in K. destruct (deref_type t); discriminate. }
    assert (G : (if beqb b null then EOk (zero env t) else elet w := body env je c k b i t (base_of env t v) o in EOk (rebuild t w)) = EOk w <->
      b = null /\ w = zero env t \/ b <> null /\ exists w', reads_from env je c (reads env je c k) (deref_type t) (contents env t v) b w' /\ w = ptrs t w').
    { destruct (beqb b null) eqn:B.
      - apply beqb_eq in B. split; [intros H; apply EOk_inj in H; left; auto|]. intros [[_ ->]|[N _]]; [reflexivity|contradiction].
      - assert (Nb : b <> null) by (intros ->; rewrite beqb_refl in B; discriminate).
        assert (Bi : forall w', body env je c k b i t (base_of env t v) o = EOk w' <-> reads_from env je c (reads env je c k) (deref_type t) (contents env t v) b w').
        { intros w'. change (contents env t v) with (base_of env t v). apply body_iff; try assumption; [intros; apply IH; assumption|]. apply has_type_base; assumption. }
        split.
        + intros H. einv H. apply EOk_inj in H. right. split; [exact Nb|]. exists a. rewrite <- ptrs_rebuild. split; [apply Bi, E|auto].
        + intros [[N _]|(_ & w' & H & ->)]; [contradiction|]. apply Bi in H. rewrite H. cbn [ebind]. rewrite ptrs_rebuild. reflexivity. }
    destruct i as [ci|ii].
    - assert (Q : is_ptr t = true -> is_iface (deref_type t) = false).
      { intros X. destruct (is_iface (deref_type t)) eqn:Y; [|reflexivity]. destruct (Ip X eq_refl) as (ii & Z). discriminate Z. }
      rewrite <- G. split; [intros H; split; [exact Q|destruct t; exact H]|intros [_ H]; destruct t; exact H].
    - destruct (is_ptr t) eqn:P.
      + destruct t; try discriminate P. split; [discriminate|]. intros [X _]. rewrite (X eq_refl) in Pi. assert (false = true) by (apply Pi; eauto). discriminate.
      + rewrite <- G. assert (Q : (match t with TPtr _ => EPanic "should not happen"%string | _ => if beqb b null then EOk (zero env t) else elet w := body env je c k b (TIFace ii) t (base_of env t v) o in EOk (rebuild t w) end) =
          (if beqb b null then EOk (zero env t) else elet w := body env je c k b (TIFace ii) t (base_of env t v) o in EOk (rebuild t w))) by (destruct t; try discriminate P; reflexivity).
        split; [intros H; split; [discriminate|rewrite <- Q; exact H]|intros [_ H]; rewrite <- Q in H; exact H].
  Qed.

  Theorem reads_top_iff k b t v w : jtext b -> has_type env t v = true -> (unmarshal_json k env je c b t v = EOk w <-> reads_top env je c k t v b w).
  Proof.
    intros Hb Hv. unfold unmarshal_json, reads_top. destruct (jtext_nonempty b Hb) as (y & r & E). rewrite E. rewrite <- E. clear y r E.
    destruct (get_type_info env c t) as [info| | |] eqn:G; cbn [ebind].
    2,3,4: split; [discriminate|]; intros [K _]; unfold known in K; rewrite G in K; discriminate K.
    assert (K : known env c t = true) by (unfold known; rewrite G; reflexivity). pose proof (gti_minfo _ _ _ _ Hs G) as M.
    pose proof (fun b' H => reads_iff k b' info t v w no_opts eq_refl H M Hv) as D.
    assert (C : (exists ci r, info = TIConc ci /\ ci_reg ci = Some r /\ registration c (deref_type t) = Some (ri_name r, ri_ptr r)) \/
                registration c (deref_type t) = None /\ match info with TIConc ci => ci_reg ci = None | _ => True end).
    { destruct info as [ci|].
      - destruct (ci_reg ci) as [rg|] eqn:Er; [left|right].
        + exists ci, rg. splits; [reflexivity|exact Er|]. eapply info_registration; eassumption.
        + split; [|reflexivity]. destruct (registration c (deref_type t)) as [[nm ptr]|] eqn:Er'; [|reflexivity]. exfalso.
          destruct (registration_info env c Wc _ _ _ Er') as (ci' & r & Hin & Hty & Hr & Hn & Hp & Hg & _).
          assert (Hg' : get_type_info env c t = EOk (TIConc ci')) by (rewrite <- Hg; unfold get_type_info; rewrite deref_deref; reflexivity).
          rewrite Hg' in G. apply EOk_inj in G. injection G as ->. congruence.
      - right. split; [|exact I]. destruct (registration c (deref_type t)) as [[nm ptr]|] eqn:Er'; [|reflexivity]. exfalso.
        destruct (registration_info env c Wc _ _ _ Er') as (ci' & r & Hin & Hty & Hr & Hn & Hp & Hg & _).
        assert (Hg' : get_type_info env c t = EOk (TIConc ci')) by (rewrite <- Hg; unfold get_type_info; rewrite deref_deref; reflexivity).
        rewrite Hg' in G. apply EOk_inj in G. discriminate. }
    destruct C as [(ci & rg & -> & Er & Q)|[Q C]]; rewrite Q.
    - destruct ci as [ct fs m un rg']. cbn [ci_reg] in Er. subst rg'. split.
      + intros H. split; [exact K|]. einv H. destruct a as [name x]. cbn [fst snd] in H. destruct (beqb name (ri_name rg)) eqn:B; cbn [negb] in H; [|discriminate].
        apply beqb_eq in B. subst name. apply wrapper_iff in E; [|exact Hb]. exists x. split; [exact E|]. apply D; [eapply wrapper_text; exact E|exact H].
      + intros (_ & x & Wr & H). apply D in H; [|eapply wrapper_text; exact Wr]. apply wrapper_iff in Wr; [|exact Hb]. rewrite Wr. cbn [ebind fst snd]. rewrite beqb_refl. exact H.
    - rewrite <- (D b Hb). split; [intros H; split; [exact K|]|intros [_ H]]; (destruct info as [[ct fs m un rg]|ii]; [cbn [ci_reg] in C; subst rg|]; exact H).
  Qed.
End Reading.

(** ** Deeper readings *)

Lemma forall2_impl {A B} (P Q : A -> B -> Prop) : (forall a b, P a b -> Q a b) -> forall l m, Forall2 P l m -> Forall2 Q l m.
Proof. intros H l m F. induction F; constructor; auto. Qed.
Lemma read_fields_impl env c (R R' : gotype -> value -> bytes -> value -> Prop) : (forall t v b w, R t v b w -> R' t v b w) ->
  forall l fs vs ws, read_fields env c R l fs vs ws -> read_fields env c R' l fs vs ws.
Proof. intros H l fs vs ws F. induction F; [constructor|apply rs_hidden|eapply rs_absent|eapply rs_member]; eauto. Qed.
Lemma reads_from_impl env je c (R R' : gotype -> value -> bytes -> value -> Prop) : (forall t v b w, R t v b w -> R' t v b w) ->
  forall t v0 b v, reads_from env je c R t v0 b v -> reads_from env je c R' t v0 b v.
Proof.
  intros H t v0 b v F. destruct F.
  - eapply rf_time; eassumption.
  - eapply rf_method; eassumption.
  - eapply rf_amino; eauto.
  - eapply rf_prim; eassumption.
  - eapply rf_bytes; eassumption.
  - eapply rf_byte_array; eassumption.
  - eapply rf_slice; try eassumption. eapply forall2_impl; [|eassumption]. intros; apply H; assumption.
  - eapply rf_array; try eassumption. eapply forall2_impl; [|eassumption]. intros; apply H; assumption.
  - eapply rf_struct; try eassumption. eapply read_fields_impl; eassumption.
  - eapply rf_map; try eassumption. eapply forall2_impl; [|eassumption]. intros a e (E & x & L & X). split; [exact E|]. exists x. split; [exact L|apply H, X].
  - eapply rf_empty_map; eassumption.
  - eapply rf_iface; eauto.
Qed.
Lemma reads_more env je c : forall k k' t v0 b v, (k <= k')%nat -> reads env je c k t v0 b v -> reads env je c k' t v0 b v.
Proof.
  induction k as [|k IH]; intros k' t v0 b v Hk H; [contradiction|]. destruct k' as [|k']; [lia|]. cbn [reads] in *. destruct H as [P [H|(N & w & H & E)]]; (split; [exact P|]); [left; exact H|right].
  split; [exact N|]. exists w. split; [|exact E]. eapply reads_from_impl; [|exact H]. intros. eapply IH; [lia|eassumption].
Qed.
Lemma reads_top_more env je c k k' t v0 b v : (k <= k')%nat -> reads_top env je c k t v0 b v -> reads_top env je c k' t v0 b v.
Proof.
  intros Hk [K H]. split; [exact K|]. destruct (registration c (deref_type t)) as [[name ptr]|]; [|eapply reads_more; eassumption].
  destruct H as (x & W & H). exists x. split; [exact W|]. eapply reads_more; eassumption.
Qed.
