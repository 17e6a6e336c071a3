(** Facts about the texts of JsonText.v: UTF-8, strings, numerals, base64 and the
    scanner against the grammar of SpecJson.v. *)
From Coq Require Import ZArith String List Bool Lia ZifyBool ZifyNat.
From Verif Require Import Base PrimFacts RegistryFacts JsonText Json SpecJson.
Import ListNotations.
Local Open Scope Z_scope.

Ltac Zify.zify_post_hook ::= Z.div_mod_to_equations.

(** ** UTF-8 *)

Lemma cont_mod c : cont (128 + c mod 64) = true.
Proof. unfold cont. pose proof (Z.mod_pos_bound c 64 ltac:(lia)). lia. Qed.
Lemma utf8_decode c b rest : utf8_char c b -> decode_rune (b ++ rest) = Some (c, length b).
Proof.
  intros H. destruct H as [c H|c H|c H H'|c H]; cbn [app length decode_rune]; rewrite ?cont_mod; cbn [andb].
  - replace (c <? 128) with true by lia. reflexivity.
  - replace (192 + c / 64 <? 128) with false by lia. replace ((194 <=? 192 + c / 64) && (192 + c / 64 <? 224)) with true by lia.
    f_equal. f_equal. lia.
  - replace (224 + c / 4096 <? 128) with false by lia. replace ((194 <=? 224 + c / 4096) && (224 + c / 4096 <? 224)) with false by lia.
    replace ((224 <=? 224 + c / 4096) && (224 + c / 4096 <? 240)) with true by lia.
    assert (E1 : negb (224 + c / 4096 =? 224) || (160 <=? 128 + c / 64 mod 64) = true) by lia.
    assert (E2 : negb (224 + c / 4096 =? 237) || (128 + c / 64 mod 64 <? 160) = true) by lia.
    rewrite E1, E2. cbn [andb]. f_equal. f_equal. lia.
  - replace (240 + c / 262144 <? 128) with false by lia. replace ((194 <=? 240 + c / 262144) && (240 + c / 262144 <? 224)) with false by lia.
    replace ((224 <=? 240 + c / 262144) && (240 + c / 262144 <? 240)) with false by lia.
    replace ((240 <=? 240 + c / 262144) && (240 + c / 262144 <? 245)) with true by lia.
    assert (E1 : negb (240 + c / 262144 =? 240) || (144 <=? 128 + c / 4096 mod 64) = true) by lia.
    assert (E2 : negb (240 + c / 262144 =? 244) || (128 + c / 4096 mod 64 <? 144) = true) by lia.
    rewrite E1, E2. cbn [andb]. f_equal. f_equal. lia.
Qed.
Lemma decode_utf8 s c n : Forall (fun b => 0 <= b) s -> decode_rune s = Some (c, n) ->
  utf8_char c (firstn n s) /\ (0 < n)%nat /\ s = firstn n s ++ skipn n s.
Proof.
  intros Hs H. split; [|split; [|symmetry; apply firstn_skipn]].
  - destruct s as [|b0 r]; [discriminate|]. cbn [decode_rune] in H. inversion Hs as [|? ? H0 Hr]; subst.
    destruct (b0 <? 128) eqn:E0. { inversion H; subst. cbn [firstn]. constructor. lia. }
    destruct ((194 <=? b0) && (b0 <? 224)) eqn:E1.
    { destruct r as [|b1 r]; [discriminate|]. unfold cont in H. destruct (_ && _) eqn:Ec in H; [|discriminate]. inversion H; subst. cbn [firstn].
      replace [b0; b1] with [192 + ((b0 - 192) * 64 + (b1 - 128)) / 64; 128 + ((b0 - 192) * 64 + (b1 - 128)) mod 64]; [constructor; lia|].
      f_equal; [lia|]. f_equal. lia. }
    destruct ((224 <=? b0) && (b0 <? 240)) eqn:E2.
    { destruct r as [|b1 [|b2 r]]; try discriminate. unfold cont in H. destruct (_ && _) eqn:Ec in H; [|discriminate]. inversion H; subst. cbn [firstn].
      set (c := (b0 - 224) * 4096 + (b1 - 128) * 64 + (b2 - 128)) in *.
      replace [b0; b1; b2] with [224 + c / 4096; 128 + c / 64 mod 64; 128 + c mod 64]; [constructor; lia|].
      f_equal; [lia|]. f_equal; [lia|]. f_equal. lia. }
    destruct ((240 <=? b0) && (b0 <? 245)) eqn:E3; [|discriminate].
    destruct r as [|b1 [|b2 [|b3 r]]]; try discriminate. unfold cont in H. destruct (_ && _) eqn:Ec in H; [|discriminate]. inversion H; subst. cbn [firstn].
    set (c := (b0 - 240) * 262144 + (b1 - 128) * 4096 + (b2 - 128) * 64 + (b3 - 128)) in *.
    replace [b0; b1; b2; b3] with [240 + c / 262144; 128 + c / 4096 mod 64; 128 + c / 64 mod 64; 128 + c mod 64]; [constructor; lia|].
    f_equal; [lia|]. f_equal; [lia|]. f_equal; [lia|]. f_equal. lia.
  - destruct s as [|b0 r]; [discriminate|]. cbn [decode_rune] in H.
    repeat match type of H with
    | (if ?x then _ else _) = _ => destruct x
    | match ?x with _ => _ end = _ => destruct x
    end; try discriminate; inversion H; lia.
Qed.

Lemma utf8_app a b : utf8 a -> utf8 b -> utf8 (a ++ b).
Proof. induction 1 as [|c x s Hc H IH]; intros Hb; [exact Hb|]. rewrite <- app_assoc. econstructor; eauto. Qed.
Lemma utf8_ascii s : Forall (fun b => 0 <= b < 128) s -> utf8 s.
Proof. induction 1 as [|b s Hb H IH]; [constructor|]. apply (u8_cons b [b]); [constructor; exact Hb|exact IH]. Qed.
Lemma utf8_nonneg c b : utf8_char c b -> Forall (fun x => 0 <= x) b.
Proof. destruct 1; repeat constructor; lia. Qed.
Lemma utf8_len c b : utf8_char c b -> (0 < length b)%nat.
Proof. destruct 1; cbn; lia. Qed.
Lemma utf8_high c b : utf8_char c b -> Forall (fun x => 32 <= x /\ x <> 34 /\ x <> 92) b \/ exists d, 0 <= d < 128 /\ b = [d] /\ c = d.
Proof.
  destruct 1 as [c H|c H|c H H'|c H]; [right; exists c; auto|left..]; repeat constructor; lia.
Qed.

(** ** Strings *)

Lemma jchars_app a b : jchars a -> jchars b -> jchars (a ++ b).
Proof. intros Ha Hb. induction Ha; cbn [app]; [exact Hb|constructor; assumption..]. Qed.
Lemma jchars_plain s : Forall (fun x => 32 <= x /\ x <> 34 /\ x <> 92) s -> jchars s.
Proof. induction 1 as [|x s (H1 & H2 & H3) H IH]; constructor; assumption. Qed.
Lemma hex_digit_ok d : 0 <= d < 16 -> hexdigit (hex_digit d) /\ hex_val (hex_digit d) = Some d.
Proof.
  intros H. unfold hexdigit, hex_digit, hex_val. destruct (d <? 10) eqn:E.
  - split; [lia|]. replace ((48 <=? 48 + d) && (48 + d <=? 57)) with true by lia. f_equal. lia.
  - split; [lia|]. replace ((48 <=? 87 + d) && (87 + d <=? 57)) with false by lia.
    replace ((97 <=? 87 + d) && (87 + d <=? 102)) with true by lia. f_equal. lia.
Qed.

(** One character as it is written. *)
Definition esc (c : Z) (b : bytes) : bytes :=
  if c <? 128 then esc_ascii c
  else if (c =? 8232) || (c =? 8233) then [92; 117; 50; 48; 50; hex_digit (c mod 16)] else b.
Lemma quote_step k c b s : utf8_char c b -> (length (b ++ s) <= k)%nat ->
  exists k', quote_body k (b ++ s) = esc c b ++ quote_body k' s /\ (length s <= k')%nat.
Proof.
  intros H Hl. destruct k as [|k]; [exfalso; destruct H; cbn in Hl; lia|].
  pose proof (utf8_decode c b s H) as D. rewrite app_length in Hl.
  destruct H as [c H|c H|c H H'|c H]; cbn [app quote_body]; unfold esc; cbn [length] in *.
  - replace (c <? 128) with true by lia. exists k. split; [reflexivity|lia].
  - replace (192 + c / 64 <? 128) with false by lia. replace (c <? 128) with false by lia. cbn [app] in D. rewrite D. exists k.
    replace ((c =? 8232) || (c =? 8233)) with false by lia. split; [reflexivity|lia].
  - replace (224 + c / 4096 <? 128) with false by lia. replace (c <? 128) with false by lia. cbn [app] in D. rewrite D. exists k.
    destruct ((c =? 8232) || (c =? 8233)); split; try reflexivity; lia.
  - replace (240 + c / 262144 <? 128) with false by lia. replace (c <? 128) with false by lia. cbn [app] in D. rewrite D. exists k.
    replace ((c =? 8232) || (c =? 8233)) with false by lia. split; [reflexivity|lia].
Qed.
Lemma esc_ascii_ok c : 0 <= c < 128 -> jchars (esc_ascii c) /\ Forall (fun b => 0 <= b < 128) (esc_ascii c).
Proof.
  intros H. unfold esc_ascii.
  destruct ((c =? 34) || (c =? 92)) eqn:E1. { split; [|repeat constructor; lia]. apply jc_escape; [|constructor]. cbn. lia. }
  destruct (c =? 10) eqn:E2. { split; [|repeat constructor; lia]. apply jc_escape; [|constructor]. cbn. lia. }
  destruct (c =? 13) eqn:E3. { split; [|repeat constructor; lia]. apply jc_escape; [|constructor]. cbn. lia. }
  destruct (c =? 9) eqn:E4. { split; [|repeat constructor; lia]. apply jc_escape; [|constructor]. cbn. lia. }
  destruct ((c <? 32) || (c =? 60) || (c =? 62) || (c =? 38)) eqn:E5.
  - destruct (hex_digit_ok (c / 16) ltac:(lia)) as [A _]. destruct (hex_digit_ok (c mod 16) ltac:(lia)) as [B _].
    split; [apply jc_hex; try assumption; try (unfold hexdigit; lia); constructor|].
    unfold hexdigit in *. repeat constructor; lia.
  - split; [|repeat constructor; lia]. apply jc_plain; try lia. constructor.
Qed.
Lemma esc_ok c b : utf8_char c b -> jchars (esc c b) /\ utf8 (esc c b).
Proof.
  intros H. unfold esc. destruct (c <? 128) eqn:E.
  - destruct (esc_ascii_ok c) as [A B]; [destruct H; lia|]. split; [exact A|apply utf8_ascii; exact B].
  - destruct ((c =? 8232) || (c =? 8233)) eqn:E2.
    + destruct (hex_digit_ok (c mod 16) ltac:(lia)) as [A _]. split; [apply jc_hex; try assumption; try (unfold hexdigit; lia); constructor|].
      apply utf8_ascii. unfold hexdigit in A. repeat constructor; lia.
    + split.
      * destruct (utf8_high c b H) as [X|(d & X & -> & ->)]; [apply jchars_plain; exact X|lia].
      * rewrite <- (app_nil_r b). econstructor; [exact H|constructor].
Qed.
(** Whatever the bytes, what is written is a proper string in UTF-8. *)
Lemma quote_body_ok : forall k s, Forall (fun b => 0 <= b) s -> (length s <= k)%nat -> jchars (quote_body k s) /\ utf8 (quote_body k s).
Proof.
  induction k as [|k IH]; intros s Hs Hl; [destruct s; [|cbn in Hl; lia]; split; constructor|].
  destruct s as [|b r]; [split; constructor|]. cbn [quote_body length] in *. inversion Hs as [|? ? Hb Hr]; subst.
  destruct (b <? 128) eqn:E.
  - destruct (IH r Hr ltac:(lia)) as [A B]. destruct (esc_ascii_ok b ltac:(lia)) as [C D].
    split; [apply jchars_app; assumption|apply utf8_app; [apply utf8_ascii; exact D|exact B]].
  - destruct (decode_rune (b :: r)) as [[c n]|] eqn:D.
    + destruct (decode_utf8 _ _ _ Hs D) as (U & Hn & Es). assert (Hn' : (length (skipn n (b :: r)) <= k)%nat) by (rewrite skipn_length; cbn [length]; lia).
      assert (Hs' : Forall (fun b => 0 <= b) (skipn n (b :: r))) by (rewrite Es in Hs; apply Forall_app in Hs; tauto).
      destruct (IH _ Hs' Hn') as [A B]. destruct (esc_ok c _ U) as [C F].
      assert (Hc : (c <? 128) = false).
      { destruct n; [lia|]. cbn [firstn] in U. inversion U; subst; lia. }
      unfold esc in C, F. rewrite Hc in C, F. split; [apply jchars_app; assumption|apply utf8_app; assumption].
    + destruct (IH r Hr ltac:(lia)) as [A B].
      split; [apply jchars_app; [apply jc_hex; try (unfold hexdigit; lia); constructor|exact A]|].
      apply utf8_app; [|exact B]. apply utf8_ascii. repeat constructor; lia.
Qed.

Lemma unquote_other k x l : x <> 92 -> unquote (S k) (x :: l) =
  if (x =? 34) || (x <? 32) then None
  else if x <? 128 then option_map (cons x) (unquote k l)
  else match decode_rune (x :: l) with
       | None => option_map (app [239; 191; 189]) (unquote k l)
       | Some (_, n) => option_map (app (firstn n (x :: l))) (unquote k (skipn n (x :: l)))
       end.
Proof. intros H. cbn [unquote]. replace (x =? 92) with false by lia. reflexivity. Qed.
Lemma unquote_ascii k c r : 0 <= c < 128 -> unquote (S k) (esc_ascii c ++ r) = option_map (cons c) (unquote k r).
Proof.
  intros H. unfold esc_ascii.
  destruct ((c =? 34) || (c =? 92)) eqn:E1. { cbn [app unquote]. cbn [Z.eqb Pos.eqb]. rewrite E1. reflexivity. }
  destruct (c =? 10) eqn:E2. { apply Z.eqb_eq in E2. subst c. reflexivity. }
  destruct (c =? 13) eqn:E3. { apply Z.eqb_eq in E3. subst c. reflexivity. }
  destruct (c =? 9) eqn:E4. { apply Z.eqb_eq in E4. subst c. reflexivity. }
  destruct ((c <? 32) || (c =? 60) || (c =? 62) || (c =? 38)) eqn:E5.
  - destruct (hex_digit_ok (c / 16) ltac:(lia)) as [_ A]. destruct (hex_digit_ok (c mod 16) ltac:(lia)) as [_ B].
    cbn [app unquote]. cbn [Z.eqb Pos.eqb orb]. unfold hex4. change (hex_val 48) with (Some 0). rewrite A, B.
    replace (((0 * 16 + 0) * 16 + c / 16) * 16 + c mod 16) with c by lia.
    replace ((55296 <=? c) && (c <? 57344)) with false by lia. unfold encode_rune. replace (c <? 128) with true by lia.
    destruct (unquote k r); reflexivity.
  - cbn [app]. rewrite unquote_other by lia. assert (G : (c =? 34) || (c <? 32) = false) by lia.
    assert (G2 : (c <? 128) = true) by lia. rewrite G, G2. reflexivity.
Qed.
Lemma unquote_step k c b r : utf8_char c b -> unquote (S k) (esc c b ++ r) = option_map (app b) (unquote k r).
Proof.
  intros H. unfold esc. destruct (c <? 128) eqn:E.
  - assert (b = [c]) as -> by (destruct H; [reflexivity|lia..]). rewrite unquote_ascii by (destruct H; lia).
    destruct (unquote k r); reflexivity.
  - destruct ((c =? 8232) || (c =? 8233)) eqn:E2.
    + destruct (hex_digit_ok (c mod 16) ltac:(lia)) as [_ A].
      cbn [app unquote]. cbn [Z.eqb Pos.eqb orb]. unfold hex4. change (hex_val 50) with (Some 2). change (hex_val 48) with (Some 0). rewrite A.
      replace (((2 * 16 + 0) * 16 + 2) * 16 + c mod 16) with c by lia.
      replace ((55296 <=? c) && (c <? 57344)) with false by lia.
      assert (Eb : b = encode_rune c).
      { unfold encode_rune. replace (c <? 128) with false by lia. replace (c <? 2048) with false by lia.
        replace ((1114111 <? c) || ((55296 <=? c) && (c <? 57344))) with false by lia. replace (c <? 65536) with true by lia.
        destruct H; [lia|lia|reflexivity|lia]. }
      rewrite <- Eb. reflexivity.
    + pose proof (utf8_decode c b r H) as D. assert (Hb : exists x t, b = x :: t /\ 128 <= x).
      { destruct H; try (exfalso; lia); eexists; eexists; split; try reflexivity; lia. }
      destruct Hb as (x & t & -> & Hx). cbn [app] in *. rewrite unquote_other by lia.
      assert (G : (x =? 34) || (x <? 32) = false) by lia.
      assert (G2 : (x <? 128) = false) by lia.
      rewrite G, G2, D.
      assert (F1 : firstn (length (x :: t)) (x :: t ++ r) = x :: t).
      { change (x :: t ++ r) with ((x :: t) ++ r). rewrite firstn_app, Nat.sub_diag, firstn_all. cbn [firstn]. apply app_nil_r. }
      assert (F2 : skipn (length (x :: t)) (x :: t ++ r) = r).
      { change (x :: t ++ r) with ((x :: t) ++ r). rewrite skipn_app, Nat.sub_diag, skipn_all. reflexivity. }
      rewrite F1, F2. reflexivity.
Qed.
Lemma esc_len c b : utf8_char c b -> (0 < length (esc c b))%nat.
Proof.
  intros H. unfold esc, esc_ascii.
  repeat match goal with |- context [if ?x then _ else _] => destruct x end; cbn [length]; try lia. apply (utf8_len c b H).
Qed.
Lemma unquote_body : forall s, utf8 s -> forall k k', (length s <= k)%nat -> (length (quote_body k s) <= k')%nat ->
  unquote k' (quote_body k s) = Some s.
Proof.
  induction 1 as [|c b s Hc Hs IH]; intros k k' Hk Hk'.
  - destruct k; destruct k'; reflexivity.
  - destruct (quote_step k c b s Hc Hk) as (k1 & E & Hk1). rewrite E in Hk' |- *. rewrite app_length in Hk'.
    pose proof (esc_len c b Hc). destruct k' as [|k']; [lia|]. rewrite unquote_step by exact Hc.
    rewrite (IH k1 k' Hk1 ltac:(lia)). reflexivity.
Qed.
Lemma unquoted_quote s : utf8 s -> unquoted (quote_body (length s) s) = Some s.
Proof. intros H. apply unquote_body; [exact H|lia|lia]. Qed.
Lemma unquoted_ascii s : Forall (fun b => 32 <= b < 128 /\ b <> 34 /\ b <> 92) s -> unquoted s = Some s.
Proof.
  unfold unquoted. induction 1 as [|x s (H1 & H2 & H3) Hs IH]; [reflexivity|]. cbn [length]. rewrite unquote_other by exact H3.
  assert (G : (x =? 34) || (x <? 32) = false) by lia.
  assert (G2 : (x <? 128) = true) by lia. rewrite G, G2, IH. reflexivity.
Qed.
Lemma utf8_low c x t : utf8_char c (x :: t) -> x < 128 -> t = [].
Proof.
  intros H Hx. remember (x :: t) as b eqn:E. destruct H; pose proof (f_equal (hd 0) E) as E1; pose proof (f_equal (@tl Z) E) as E2; cbn [hd tl] in E1, E2; [symmetry; exact E2|exfalso; clear E E2; lia..].
Qed.
(** A name in UTF-8 without characters that need escaping. *)
Lemma unquoted_plain s : utf8 s -> Forall (fun x => 32 <= x /\ x <> 34 /\ x <> 92) s -> unquoted s = Some s.
Proof.
  intros Hs Hp. unfold unquoted. enough (G : forall k, (length s <= k)%nat -> unquote k s = Some s) by (apply G; lia).
  induction Hs as [|c b s Hc Hs IH]; intros k Hk; [destruct k; reflexivity|].
  apply Forall_app in Hp. destruct Hp as [Hb Hp]. specialize (IH Hp). rewrite app_length in Hk.
  pose proof (utf8_len c b Hc). destruct k as [|k]; [lia|].
  pose proof (utf8_decode c b s Hc) as D. destruct b as [|x t]; [cbn in H; lia|]. cbn [length] in *.
  inversion Hb as [|? ? (H1 & H2 & H3) Ht]; subst. cbn [app]. rewrite unquote_other by exact H3.
  assert (G : (x =? 34) || (x <? 32) = false) by lia. rewrite G.
  assert (R : (if x <? 128 then option_map (cons x) (unquote k (t ++ s)) else
     match decode_rune (x :: t ++ s) with
     | None => option_map (app [239; 191; 189]) (unquote k (t ++ s))
     | Some (_, n) => option_map (app (firstn n (x :: t ++ s))) (unquote k (skipn n (x :: t ++ s)))
     end) = Some (x :: t ++ s)).
  { destruct (x <? 128) eqn:E.
    - assert (t = []) as -> by (apply (utf8_low c x t Hc); lia). cbn [app]. rewrite IH by (cbn [length app] in *; lia). reflexivity.
    - cbn [app] in D. rewrite D.
      assert (F1 : firstn (length (x :: t)) (x :: t ++ s) = x :: t).
      { change (x :: t ++ s) with ((x :: t) ++ s). rewrite firstn_app, Nat.sub_diag, firstn_all. cbn [firstn]. apply app_nil_r. }
      assert (F2 : skipn (length (x :: t)) (x :: t ++ s) = s).
      { change (x :: t ++ s) with ((x :: t) ++ s). rewrite skipn_app, Nat.sub_diag, skipn_all. reflexivity. }
      cbn [length] in F1, F2. rewrite F1, F2, IH by lia. reflexivity. }
  exact R.
Qed.

(** ** Scanning strings *)
Lemma hexdigit_is w : hexdigit w <-> is_hex w = true.
Proof.
  unfold hexdigit, is_hex, hex_val.
  destruct ((48 <=? w) && (w <=? 57)) eqn:E1; [split; intros; [reflexivity|lia]|].
  destruct ((97 <=? w) && (w <=? 102)) eqn:E2; [split; intros; [reflexivity|lia]|].
  destruct ((65 <=? w) && (w <=? 70)) eqn:E3; [split; intros; [reflexivity|lia]|].
  split; [lia|discriminate].
Qed.
Lemma scan_string_ok s r : jchars s -> scan_string (s ++ 34 :: r) = Some (s, r).
Proof.
  induction 1 as [|b s H1 H2 H3 H IH|e s He H IH|w x y z s Hw Hx Hy Hz H IH]; cbn [app]; cbn [scan_string].
  - reflexivity.
  - rewrite IH. replace (b =? 34) with false by lia. replace (b =? 92) with false by lia. replace (b <? 32) with false by lia. reflexivity.
  - rewrite IH. cbn [In] in He. cbn [Z.eqb Pos.eqb].
    assert (G : (e =? 34) || (e =? 92) || (e =? 47) || (e =? 98) || (e =? 102) || (e =? 110) || (e =? 114) || (e =? 116) = true) by lia.
    rewrite G. reflexivity.
  - cbn [Z.eqb Pos.eqb orb]. apply hexdigit_is in Hw, Hx, Hy, Hz. rewrite Hw, Hx, Hy, Hz. cbn [andb]. rewrite IH. reflexivity.
Qed.
Lemma scan_string_sound : forall n s b r, (length s <= n)%nat -> scan_string s = Some (b, r) -> jchars b /\ s = b ++ 34 :: r.
Proof.
  induction n as [|n IH]; intros s b r Hl H; (destruct s as [|x s]; [discriminate|]); [cbn in Hl; lia|]. cbn [length] in Hl.
  cbn [scan_string] in H.
  destruct (x =? 34) eqn:N1; [injection H as <- <-; apply Z.eqb_eq in N1; subst x; split; [constructor|reflexivity]|].
  destruct (x =? 92) eqn:N2.
  - apply Z.eqb_eq in N2. subst x. destruct s as [|e s]; [discriminate|]. cbn [length] in Hl.
    destruct ((e =? 34) || (e =? 92) || (e =? 47) || (e =? 98) || (e =? 102) || (e =? 110) || (e =? 114) || (e =? 116)) eqn:E.
    + destruct (scan_string s) as [[b' r']|] eqn:S; [|discriminate]. injection H as <- <-.
      destruct (IH s _ _ ltac:(lia) S) as [A ->]. split; [apply jc_escape; [cbn; lia|exact A]|reflexivity].
    + destruct (e =? 117) eqn:E2; [|discriminate]. apply Z.eqb_eq in E2. subst e.
      destruct s as [|w [|x [|y [|z s]]]]; try discriminate.
      destruct (is_hex w && is_hex x && is_hex y && is_hex z) eqn:Hx; [|discriminate].
      destruct (scan_string s) as [[b' r']|] eqn:S; [|discriminate]. injection H as <- <-. cbn [length] in Hl.
      destruct (IH s _ _ ltac:(lia) S) as [A ->]. rewrite !andb_true_iff in Hx. destruct Hx as [[[Ha Hb] Hc] Hd].
      split; [apply jc_hex; try (apply hexdigit_is; assumption); exact A|reflexivity].
  - destruct (x <? 32) eqn:E; [discriminate|].
    destruct (scan_string s) as [[b' r']|] eqn:S; [|discriminate]. injection H as <- <-.
    destruct (IH s _ _ ltac:(lia) S) as [A ->]. split; [apply jc_plain; [lia|lia|lia|exact A]|reflexivity].
Qed.

(** ** Scanning numbers *)
Lemma is_digit_ok b : is_digit b = true <-> digit b.
Proof. unfold is_digit, digit. lia. Qed.
Definition nodigit (s : bytes) : Prop := match s with [] => True | b :: _ => is_digit b = false end.
(** What follows does not continue a number. *)
Definition stops (s : bytes) : Prop :=
  match s with [] => True | b :: _ => is_digit b = false /\ b <> 46 /\ b <> 101 /\ b <> 69 end.
Lemma take_digits_ok d r : Forall digit d -> nodigit r -> take_digits (d ++ r) = (d, r).
Proof.
  intros Hd Hr. induction Hd as [|b d Hb Hd IH]; cbn [app take_digits].
  - destruct r as [|b r]; [reflexivity|]. cbn [nodigit] in Hr. cbn [take_digits]. rewrite Hr. reflexivity.
  - apply is_digit_ok in Hb. rewrite Hb, IH. reflexivity.
Qed.
Lemma take_digits_sound : forall s d r, take_digits s = (d, r) -> s = d ++ r /\ Forall digit d.
Proof.
  induction s as [|b s IH]; intros d r H; cbn [take_digits] in H; [injection H as <- <-; split; [reflexivity|constructor]|].
  destruct (is_digit b) eqn:E; [|injection H as <- <-; split; [reflexivity|constructor]].
  destruct (take_digits s) as [d' r'] eqn:T. injection H as <- <-. destruct (IH _ _ eq_refl) as [-> B].
  split; [reflexivity|constructor; [apply is_digit_ok; exact E|exact B]].
Qed.
Lemma digits1_ok d r : digits1 d -> nodigit r -> JsonText.digits1 (d ++ r) = Some (d, r).
Proof.
  intros [H1 H2] Hr. unfold JsonText.digits1. rewrite take_digits_ok by assumption. destruct d; [congruence|reflexivity].
Qed.
Lemma digits1_sound s d r : JsonText.digits1 s = Some (d, r) -> s = d ++ r /\ digits1 d.
Proof.
  unfold JsonText.digits1. destruct (take_digits s) as [d' r'] eqn:T. intros H. destruct d' as [|x d']; [discriminate|].
  injection H as <- <-. destruct (take_digits_sound _ _ _ T) as [A B]. split; [exact A|split; [discriminate|exact B]].
Qed.
Lemma stops_nodigit r : stops r -> nodigit r.
Proof. destruct r; cbn; tauto. Qed.
Lemma scan_exp_ok e r : exp_part e -> stops r -> scan_exp (e ++ r) = Some (e, r).
Proof.
  intros [->|(e0 & g & d & -> & He & Hg & Hd)] Hr.
  - cbn [app]. destruct r as [|b r]; [reflexivity|]. cbn [stops] in Hr. unfold scan_exp. replace ((b =? 101) || (b =? 69)) with false by lia. reflexivity.
  - cbn [app]. unfold scan_exp. replace ((e0 =? 101) || (e0 =? 69)) with true by lia. rewrite <- app_assoc.
    pose proof (digits1_ok d r Hd (stops_nodigit r Hr)) as D.
    destruct Hg as [->|[->| ->]].
    + cbn [app]. destruct Hd as [N Hd]. destruct d as [|x d]; [congruence|]. cbn [app] in *. inversion Hd as [|? ? Hx _]; subst. unfold digit in Hx.
      replace ((x =? 43) || (x =? 45)) with false by lia. rewrite D. reflexivity.
    + cbn [app Z.eqb Pos.eqb orb]. rewrite D. reflexivity.
    + cbn [app Z.eqb Pos.eqb orb]. rewrite D. reflexivity.
Qed.
Lemma scan_exp_sound s e r : scan_exp s = Some (e, r) -> exp_part e /\ s = e ++ r.
Proof.
  unfold scan_exp. destruct s as [|b s]; [intros H; injection H as <- <-; split; [left|]; reflexivity|].
  destruct ((b =? 101) || (b =? 69)) eqn:E; [|intros H; injection H as <- <-; split; [left|]; reflexivity].
  destruct s as [|g s]; [discriminate|]. destruct ((g =? 43) || (g =? 45)) eqn:G.
  - destruct (JsonText.digits1 s) as [[d r']|] eqn:D; [|discriminate]. intros H. injection H as <- <-.
    destruct (digits1_sound _ _ _ D) as [-> Hd]. split; [|reflexivity]. right. exists b, [g], d. split; [reflexivity|].
    split; [lia|]. split; [|exact Hd]. destruct (Z.eq_dec g 43) as [->|]; [tauto|]. assert (g = 45) as -> by lia. tauto.
  - destruct (JsonText.digits1 (g :: s)) as [[d r']|] eqn:D; [|discriminate]. intros H. injection H as <- <-.
    destruct (digits1_sound _ _ _ D) as [A Hd]. rewrite A. split; [|reflexivity]. right. exists b, [], d. split; [reflexivity|].
    split; [lia|]. split; [tauto|exact Hd].
Qed.
Lemma exp_nodigit e r : exp_part e -> stops r -> nodigit (e ++ r).
Proof.
  intros [->|(e0 & g & d & -> & He & Hg & Hd)] Hr; [apply stops_nodigit; exact Hr|]. cbn [app nodigit]. unfold is_digit. lia.
Qed.
Lemma scan_frac_ok f e r : frac_part f -> exp_part e -> stops r -> scan_frac (f ++ e ++ r) = Some (f, e ++ r).
Proof.
  intros Hf He Hr. pose proof (exp_nodigit e r He Hr) as N. destruct Hf as [->|(d & -> & Hd)].
  - cbn [app]. assert (G : forall b t, e ++ r = b :: t -> b <> 46).
    { intros b t E. destruct He as [->|(e0 & g & d & -> & He & Hg & Hd)]; cbn [app] in E.
      - subst r. cbn [stops] in Hr. tauto.
      - injection E as <- _. lia. }
    destruct (e ++ r) as [|b t]; [reflexivity|]. specialize (G b t eq_refl). unfold scan_frac. replace (b =? 46) with false by lia. reflexivity.
  - cbn [app]. unfold scan_frac. cbn [Z.eqb Pos.eqb]. rewrite (digits1_ok d _ Hd N). reflexivity.
Qed.
Lemma scan_frac_sound s f r : scan_frac s = Some (f, r) -> frac_part f /\ s = f ++ r.
Proof.
  unfold scan_frac. destruct s as [|b s]; [intros H; injection H as <- <-; split; [left|]; reflexivity|].
  destruct (b =? 46) eqn:E; [|intros H; injection H as <- <-; split; [left|]; reflexivity].
  destruct (JsonText.digits1 s) as [[d r']|] eqn:D; [|discriminate]. intros H. injection H as <- <-.
  destruct (digits1_sound _ _ _ D) as [-> Hd]. apply Z.eqb_eq in E. subst b. split; [|reflexivity]. right. exists d. split; [reflexivity|exact Hd].
Qed.
Lemma frac_nodigit f e r : frac_part f -> exp_part e -> stops r -> nodigit (f ++ e ++ r).
Proof.
  intros Hf He Hr. destruct Hf as [->|(d & -> & Hd)]; [apply (exp_nodigit e r); assumption|]. cbn. reflexivity.
Qed.
Lemma scan_unsigned_ok i f e r : int_part i -> frac_part f -> exp_part e -> stops r ->
  scan_unsigned ((i ++ f ++ e) ++ r) = Some (i ++ f ++ e, r).
Proof.
  intros Hi Hf He Hr. unfold scan_unsigned. replace ((i ++ f ++ e) ++ r) with (i ++ f ++ e ++ r) by (rewrite <- !app_assoc; reflexivity).
  assert (S : scan_int (i ++ f ++ e ++ r) = Some (i, f ++ e ++ r)).
  { destruct Hi as [->|(x & t & -> & Hx & Nx & Ht)]; [reflexivity|].
    cbn [app]. unfold scan_int. replace (x =? 48) with false by lia. apply (digits1_ok (x :: t)); [split; [discriminate|constructor; assumption]|].
    apply frac_nodigit; assumption. }
  rewrite S, scan_frac_ok, scan_exp_ok by assumption. reflexivity.
Qed.
Lemma scan_unsigned_sound s n r : scan_unsigned s = Some (n, r) ->
  exists i f e, int_part i /\ frac_part f /\ exp_part e /\ n = i ++ f ++ e /\ s = n ++ r.
Proof.
  unfold scan_unsigned. destruct (scan_int s) as [[i r1]|] eqn:E1; [|discriminate].
  destruct (scan_frac r1) as [[f r2]|] eqn:E2; [|discriminate]. destruct (scan_exp r2) as [[e r3]|] eqn:E3; [|discriminate].
  intros H. injection H as <- <-. apply scan_frac_sound in E2. apply scan_exp_sound in E3. destruct E2 as [Hf ->]. destruct E3 as [He ->].
  assert (Hi : int_part i /\ s = i ++ f ++ e ++ r3).
  { unfold scan_int in E1. destruct s as [|b s]; [discriminate|]. destruct (b =? 48) eqn:E.
    - injection E1 as <- ->. apply Z.eqb_eq in E. subst b. split; [left; reflexivity|reflexivity].
    - apply digits1_sound in E1. destruct E1 as [A [N Hd]]. split; [|exact A]. right. destruct i as [|x t]; [congruence|].
      cbn [app] in A. injection A as -> _. inversion Hd as [|? ? Hx Ht]; subst. exists x, t. split; [reflexivity|]. split; [exact Hx|]. split; [lia|exact Ht]. }
  destruct Hi as [Hi ->]. exists i, f, e. split; [exact Hi|]. split; [exact Hf|]. split; [exact He|]. split; [reflexivity|].
  rewrite <- !app_assoc. reflexivity.
Qed.
Lemma scan_number_ok n r : jnumber n -> stops r -> scan_number (n ++ r) = Some (n, r).
Proof.
  intros [m i f e [->| ->] Hi Hf He] Hr; cbn [app]; unfold scan_number.
  - destruct ((i ++ f ++ e) ++ r) as [|b t] eqn:E.
    + exfalso. destruct Hi as [->|(x & t & -> & _)]; discriminate.
    + assert (N : b <> 45).
      { destruct Hi as [->|(x & t' & -> & Hx & _)]; cbn [app] in E; injection E as <- _; [lia|unfold digit in Hx; lia]. }
      replace (b =? 45) with false by lia. rewrite <- E. apply scan_unsigned_ok; assumption.
  - cbn [Z.eqb Pos.eqb]. rewrite scan_unsigned_ok by assumption. reflexivity.
Qed.
Lemma scan_number_sound s n r : scan_number s = Some (n, r) -> jnumber n /\ s = n ++ r.
Proof.
  unfold scan_number. destruct s as [|b s]; [discriminate|]. destruct (b =? 45) eqn:E.
  - destruct (scan_unsigned s) as [[n' r']|] eqn:U; [|discriminate]. intros H. injection H as <- <-.
    destruct (scan_unsigned_sound _ _ _ U) as (i & f & e & Hi & Hf & He & -> & ->). apply Z.eqb_eq in E. subst b.
    split; [apply (jn_intro [45]); tauto|reflexivity].
  - intros U. destruct (scan_unsigned_sound _ _ _ U) as (i & f & e & Hi & Hf & He & -> & A). rewrite A.
    split; [apply (jn_intro []); tauto|reflexivity].
Qed.
Lemma jnumber_head n : jnumber n -> exists x t, n = x :: t /\ (x = 45 \/ digit x).
Proof.
  intros [m i f e [->| ->] Hi Hf He]; cbn [app]; [|exists 45, (i ++ f ++ e); tauto].
  destruct Hi as [->|(x & t & -> & Hx & _)]; cbn [app]; eexists; eexists; (split; [reflexivity|]); unfold digit in *; lia.
Qed.

(** ** Scanning values *)
Lemma is_ws_ok b : is_ws b = true <-> space b.
Proof. unfold is_ws, space. lia. Qed.
Lemma skip_spaces w s : spaces w -> skip_ws (w ++ s) = skip_ws s.
Proof. induction 1 as [|b w Hb Hw IH]; [reflexivity|]. cbn [app skip_ws]. apply is_ws_ok in Hb. rewrite Hb. exact IH. Qed.
Lemma skip_here x s : ~ space x -> skip_ws (x :: s) = x :: s.
Proof. intros H. cbn [skip_ws]. destruct (is_ws x) eqn:E; [apply is_ws_ok in E; tauto|reflexivity]. Qed.
Lemma skip_sound s : exists w, spaces w /\ s = w ++ skip_ws s.
Proof.
  induction s as [|b s (w & Hw & E)]; [exists []; split; [constructor|reflexivity]|]. cbn [skip_ws]. destruct (is_ws b) eqn:B.
  - exists (b :: w). split; [constructor; [apply is_ws_ok; exact B|exact Hw]|]. cbn [app]. rewrite <- E. reflexivity.
  - exists []. split; [constructor|reflexivity].
Qed.
Lemma jtext_head v : jtext v -> exists x t, v = x :: t /\ ~ space x /\ x <> 93 /\ x <> 44 /\ x <> 125 /\ x <> 58.
Proof.
  intros H. assert (Q : forall x, In x [110; 116; 102; 34; 91; 123] -> ~ space x /\ x <> 93 /\ x <> 44 /\ x <> 125 /\ x <> 58).
  { intros x Hx. cbn [In] in Hx. unfold space. lia. }
  destruct H as [| | |n Hn|s Hs|l b Hb|l b Hb].
  - exists 110, (bs "ull"). split; [reflexivity|apply Q; cbn; tauto].
  - exists 116, (bs "rue"). split; [reflexivity|apply Q; cbn; tauto].
  - exists 102, (bs "alse"). split; [reflexivity|apply Q; cbn; tauto].
  - destruct (jnumber_head n Hn) as (x & t & -> & Hx). exists x, t. split; [reflexivity|]. unfold digit, space in *. lia.
  - exists 34, (s ++ [34]). split; [reflexivity|apply Q; cbn; tauto].
  - destruct Hb; eexists; eexists; (split; [reflexivity|apply Q; cbn; tauto]).
  - destruct Hb; eexists; eexists; (split; [reflexivity|apply Q; cbn; tauto]).
Qed.
Lemma before_app v r : before (v ++ r) r = v.
Proof. unfold before. rewrite app_length. replace (length v + length r - length r)%nat with (length v) by lia. rewrite firstn_app, Nat.sub_diag, firstn_all. cbn [firstn]. apply app_nil_r. Qed.
Lemma stops_spaces w s : spaces w -> stops s -> stops (w ++ s).
Proof. intros Hw Hs. destruct Hw as [|b w Hb Hw]; [exact Hs|]. cbn [app stops]. unfold is_digit, space in *. lia. Qed.

Definition reads (v : bytes) : Prop :=
  forall k rest, (length v <= S k)%nat -> stops rest -> exists j, scan_level (scan_value k) (v ++ rest) = Some (j, rest).
Lemma reads_value v k rest : reads v -> (length v <= k)%nat -> (0 < k)%nat -> stops rest -> scan_value k (v ++ rest) = Some (v, rest).
Proof.
  intros H Hk H0 Hr. destruct k as [|k]; [lia|]. cbn [scan_value]. destruct (H k rest Hk Hr) as (j & ->). rewrite before_app. reflexivity.
Qed.
Lemma scan_grammar :
  (forall v, jtext v -> reads v) /\
  (forall l b, jarray l b -> forall k rest, (length b <= S k)%nat -> scan_level (scan_value k) (b ++ rest) = Some (JArr l, rest)) /\
  (forall l b, jelems l b -> forall k n rest, (length b <= k)%nat -> (length b < n)%nat ->
     scan_elems (scan_value k) n (b ++ 93 :: rest) = Some (l, rest) /\ exists x t, skip_ws (b ++ 93 :: rest) = x :: t /\ x <> 93) /\
  (forall l b, jobject l b -> forall k rest, (length b <= S k)%nat -> scan_level (scan_value k) (b ++ rest) = Some (JObj l, rest)) /\
  (forall l b, jmembers l b -> forall k n rest, (length b <= k)%nat -> (length b < n)%nat ->
     scan_members (scan_value k) n (b ++ 125 :: rest) = Some (l, rest) /\ exists x t, skip_ws (b ++ 125 :: rest) = x :: t /\ x <> 125).
Proof.
  apply json_grammar.
  - intros k rest Hk Hr. eexists. reflexivity.
  - intros k rest Hk Hr. eexists. reflexivity.
  - intros k rest Hk Hr. eexists. reflexivity.
  - intros n Hn k rest Hk Hr. pose proof (scan_number_ok n rest Hn Hr) as S. destruct (jnumber_head n Hn) as (x & t & -> & Hx).
    cbn [app] in *. unfold scan_level. unfold digit in Hx.
    replace (x =? 110) with false by lia. replace (x =? 116) with false by lia. replace (x =? 102) with false by lia.
    replace (x =? 34) with false by lia. replace (x =? 91) with false by lia. replace (x =? 123) with false by lia. rewrite S. eexists. reflexivity.
  - intros s Hs k rest Hk Hr. cbn [app scan_level Z.eqb Pos.eqb]. rewrite <- app_assoc. cbn [app]. rewrite scan_string_ok by exact Hs. eexists. reflexivity.
  - intros l b Hb IH k rest Hk Hr. rewrite IH by exact Hk. eexists. reflexivity.
  - intros l b Hb IH k rest Hk Hr. rewrite IH by exact Hk. eexists. reflexivity.
  - intros w Hw k rest Hk. cbn [app scan_level Z.eqb Pos.eqb]. rewrite <- app_assoc. rewrite skip_spaces by exact Hw. reflexivity.
  - intros l b Hb IH k rest Hk. cbn [app scan_level Z.eqb Pos.eqb length] in *. rewrite <- app_assoc. cbn [app].
    rewrite app_length in Hk. cbn [length] in Hk.
    destruct (IH k (length (b ++ 93%Z :: rest)) rest ltac:(lia) ltac:(rewrite app_length; cbn [length]; lia)) as (E & x & t & Ex & Nx).
    rewrite Ex, E. replace (x =? 93) with false by lia. reflexivity.
  - intros w v w' Hw Hv IH Hw' k n rest Hk Hn. rewrite !app_length in Hk, Hn. destruct (jtext_head v Hv) as (x & t & Ev & Nx & N93 & _).
    destruct n as [|n]; [lia|]. cbn [scan_elems]. rewrite <- !app_assoc, skip_spaces by exact Hw.
    assert (E : skip_ws (v ++ w' ++ 93 :: rest) = v ++ w' ++ 93 :: rest) by (subst v; apply skip_here; exact Nx).
    rewrite E. assert (Hl : (0 < length v)%nat) by (subst v; cbn; lia).
    rewrite (reads_value v k (w' ++ 93 :: rest)); [|exact IH|lia|lia|apply stops_spaces; [exact Hw'|repeat split; lia]].
    rewrite skip_spaces by exact Hw'. split; [reflexivity|]. exists x, (t ++ w' ++ 93 :: rest). subst v. split; [reflexivity|exact N93].
  - intros w v w' l b Hw Hv IH Hw' Hb IHb k n rest Hk Hn. rewrite !app_length in Hk, Hn. cbn [length] in Hk, Hn. destruct (jtext_head v Hv) as (x & t & Ev & Nx & N93 & _).
    destruct n as [|n]; [lia|]. cbn [scan_elems]. rewrite <- !app_assoc, skip_spaces by exact Hw. cbn [app]. 
    assert (E : skip_ws (v ++ w' ++ 44 :: b ++ 93 :: rest) = v ++ w' ++ 44 :: b ++ 93 :: rest) by (subst v; apply skip_here; exact Nx).
    rewrite E. assert (Hl : (0 < length v)%nat) by (subst v; cbn; lia).
    rewrite (reads_value v k (w' ++ 44 :: b ++ 93 :: rest)); [|exact IH|lia|lia|apply stops_spaces; [exact Hw'|repeat split; lia]].
    rewrite skip_spaces by exact Hw'. split.
    + cbn [skip_ws is_ws Z.eqb Pos.eqb orb]. destruct (IHb k n rest ltac:(lia) ltac:(lia)) as [-> _]. reflexivity.
    + exists x, (t ++ w' ++ 44 :: b ++ 93 :: rest). subst v. split; [reflexivity|exact N93].
  - intros w Hw k rest Hk. cbn [app scan_level Z.eqb Pos.eqb]. rewrite <- app_assoc. rewrite skip_spaces by exact Hw. reflexivity.
  - intros l b Hb IH k rest Hk. cbn [app scan_level Z.eqb Pos.eqb length] in *. rewrite <- app_assoc. cbn [app].
    rewrite app_length in Hk. cbn [length] in Hk.
    destruct (IH k (length (b ++ 125%Z :: rest)) rest ltac:(lia) ltac:(rewrite app_length; cbn [length]; lia)) as (E & x & t & Ex & Nx).
    rewrite Ex, E. replace (x =? 125) with false by lia. reflexivity.
  - intros w key w1 w2 v w' Hw Hkey Hw1 Hw2 Hv IH Hw' k n rest Hk Hn.
    repeat (rewrite app_length in Hk; cbn [length] in Hk). repeat (rewrite app_length in Hn; cbn [length] in Hn).
    destruct (jtext_head v Hv) as (x & t & Ev & Nx & N93 & _). assert (Hl : (0 < length v)%nat) by (subst v; cbn; lia).
    destruct n as [|n]; [lia|]. cbn [scan_members]. rewrite <- !app_assoc, skip_spaces by exact Hw. cbn [app]. repeat (rewrite <- app_assoc; cbn [app]).
    rewrite (skip_here 34) by (unfold space; lia). unfold scan_member. cbn [Z.eqb Pos.eqb]. rewrite scan_string_ok by exact Hkey.
    rewrite skip_spaces by exact Hw1. rewrite (skip_here 58) by (unfold space; lia). cbn [Z.eqb Pos.eqb]. rewrite skip_spaces by exact Hw2.
    assert (E : skip_ws (v ++ w' ++ 125 :: rest) = v ++ w' ++ 125 :: rest) by (subst v; apply skip_here; exact Nx). rewrite E.
    rewrite (reads_value v k (w' ++ 125 :: rest)); [|exact IH|lia|lia|apply stops_spaces; [exact Hw'|repeat split; lia]].
    rewrite skip_spaces by exact Hw'. split; [reflexivity|]. eexists; eexists; split; [reflexivity|lia].
  - intros w key w1 w2 v w' l b Hw Hkey Hw1 Hw2 Hv IH Hw' Hb IHb k n rest Hk Hn.
    repeat (rewrite app_length in Hk; cbn [length] in Hk). repeat (rewrite app_length in Hn; cbn [length] in Hn).
    destruct (jtext_head v Hv) as (x & t & Ev & Nx & N93 & _). assert (Hl : (0 < length v)%nat) by (subst v; cbn; lia).
    destruct n as [|n]; [lia|]. cbn [scan_members]. rewrite <- !app_assoc, skip_spaces by exact Hw. cbn [app]. repeat (rewrite <- app_assoc; cbn [app]).
    rewrite (skip_here 34) by (unfold space; lia). unfold scan_member. cbn [Z.eqb Pos.eqb]. rewrite scan_string_ok by exact Hkey.
    rewrite skip_spaces by exact Hw1. rewrite (skip_here 58) by (unfold space; lia). cbn [Z.eqb Pos.eqb]. rewrite skip_spaces by exact Hw2.
    assert (E : skip_ws (v ++ w' ++ 44 :: b ++ 125 :: rest) = v ++ w' ++ 44 :: b ++ 125 :: rest) by (subst v; apply skip_here; exact Nx). rewrite E.
    rewrite (reads_value v k (w' ++ 44 :: b ++ 125 :: rest)); [|exact IH|lia|lia|apply stops_spaces; [exact Hw'|repeat split; lia]].
    rewrite skip_spaces by exact Hw'. split; [|eexists; eexists; split; [reflexivity|lia]].
    cbn [skip_ws is_ws Z.eqb Pos.eqb orb]. destruct (IHb k n rest ltac:(lia) ltac:(lia)) as [-> _]. reflexivity.
Qed.

(** ** The first level of a text *)
(** [j] is the first level of the text [v]. *)
Definition top_of (j : jtop) (v : bytes) : Prop :=
  match j with
  | JNull => v = bs "null"
  | JBool b => v = if b then bs "true" else bs "false"
  | JNum n => v = n /\ jnumber n
  | JStr s => v = 34 :: s ++ [34] /\ jchars s
  | JArr l => jarray l v
  | JObj l => jobject l v
  end.
Lemma top_text j v : top_of j v -> jtext v.
Proof.
  destruct j as [|b|n|s|l|l]; cbn [top_of].
  - intros ->. apply jt_null.
  - intros ->. destruct b; [apply jt_true|apply jt_false].
  - intros [-> H]. apply jt_number, H.
  - intros [-> H]. apply jt_string, H.
  - intros H. apply (jt_array l), H.
  - intros H. apply (jt_object l), H.
Qed.
Lemma top_level j v k : top_of j v -> (length v <= S k)%nat -> scan_level (scan_value k) v = Some (j, []).
Proof.
  destruct scan_grammar as (_ & GA & _ & GO & _). intros H Hk. destruct j as [|b|n|s|l|l]; cbn [top_of] in H.
  - subst v. reflexivity.
  - subst v. destruct b; reflexivity.
  - destruct H as [-> H]. pose proof (scan_number_ok n [] H I) as S. rewrite app_nil_r in S.
    destruct (jnumber_head n H) as (x & t & -> & Hx). unfold scan_level. unfold digit in Hx.
    replace (x =? 110) with false by lia. replace (x =? 116) with false by lia. replace (x =? 102) with false by lia.
    replace (x =? 34) with false by lia. replace (x =? 91) with false by lia. replace (x =? 123) with false by lia. rewrite S. reflexivity.
  - destruct H as [-> H]. cbn [scan_level Z.eqb Pos.eqb]. rewrite scan_string_ok by exact H. reflexivity.
  - specialize (GA l v H k [] Hk). rewrite app_nil_r in GA. exact GA.
  - specialize (GO l v H k [] Hk). rewrite app_nil_r in GO. exact GO.
Qed.
Lemma top_ok j v : top_of j v -> json_top v = Some j.
Proof.
  intros H. destruct (jtext_head v (top_text j v H)) as (x & t & Ev & Nx & _). unfold json_top.
  assert (E : skip_ws v = v) by (rewrite Ev; apply skip_here; exact Nx). rewrite E.
  rewrite (top_level j v (length v) H) by lia. reflexivity.
Qed.

Section Sound.
  Variable rec : bytes -> option (bytes * bytes).
  Hypothesis rec_sound : forall s raw r, rec s = Some (raw, r) -> jtext raw /\ s = raw ++ r.
  Lemma elems_sound : forall k s l r, scan_elems rec k s = Some (l, r) -> exists b, jelems l b /\ s = b ++ 93 :: r.
  Proof.
    induction k as [|k IH]; intros s l r H; [discriminate|]. cbn [scan_elems] in H.
    destruct (rec (skip_ws s)) as [[raw r1]|] eqn:E; [|discriminate]. destruct (rec_sound _ _ _ E) as [Hraw E1].
    destruct (skip_sound s) as (w & Hw & Es). destruct (skip_sound r1) as (w' & Hw' & Er).
    destruct (skip_ws r1) as [|x r2]; [discriminate|]. destruct (x =? 44) eqn:X.
    - destruct (scan_elems rec k r2) as [[l' r']|] eqn:S; [|discriminate]. injection H as <- <-.
      destruct (IH _ _ _ S) as (b & Hb & Eb). apply Z.eqb_eq in X. subst x.
      exists (w ++ raw ++ w' ++ 44 :: b). split; [apply jl_cons; assumption|]. rewrite Es, E1, Er, Eb. rewrite <- !app_assoc. reflexivity.
    - destruct (x =? 93) eqn:X2; [|discriminate]. injection H as <- <-. apply Z.eqb_eq in X2. subst x.
      exists (w ++ raw ++ w'). split; [apply jl_one; assumption|]. rewrite Es, E1, Er. rewrite <- !app_assoc. reflexivity.
  Qed.
  Lemma member_sound s key raw r : scan_member rec s = Some (key, raw, r) ->
    exists w1 w2, jchars key /\ jtext raw /\ spaces w1 /\ spaces w2 /\ s = 34 :: key ++ 34 :: w1 ++ 58 :: w2 ++ raw ++ r.
  Proof.
    unfold scan_member. destruct s as [|q s1]; [discriminate|]. destruct (q =? 34) eqn:Q; [|discriminate]. apply Z.eqb_eq in Q. subst q.
    destruct (scan_string s1) as [[k s2]|] eqn:S; [|discriminate]. destruct (scan_string_sound _ _ _ _ (Nat.le_refl _) S) as [Hk ->].
    destruct (skip_sound s2) as (w1 & Hw1 & E1). destruct (skip_ws s2) as [|x s3]; [discriminate|]. destruct (x =? 58) eqn:X; [|discriminate].
    apply Z.eqb_eq in X. subst x. destruct (skip_sound s3) as (w2 & Hw2 & E2).
    destruct (rec (skip_ws s3)) as [[raw' r']|] eqn:E; [|discriminate]. intros H. injection H as <- <- <-. destruct (rec_sound _ _ _ E) as [Hraw E3].
    exists w1, w2. split; [exact Hk|]. split; [exact Hraw|]. split; [exact Hw1|]. split; [exact Hw2|].
    rewrite E1, E2, E3. reflexivity.
  Qed.
  Lemma members_sound : forall k s l r, scan_members rec k s = Some (l, r) -> exists b, jmembers l b /\ s = b ++ 125 :: r.
  Proof.
    induction k as [|k IH]; intros s l r H; [discriminate|]. cbn [scan_members] in H.
    destruct (scan_member rec (skip_ws s)) as [[[key raw] r1]|] eqn:E; [|discriminate].
    destruct (member_sound _ _ _ _ E) as (w1 & w2 & Hk & Hraw & Hw1 & Hw2 & E1).
    destruct (skip_sound s) as (w & Hw & Es). destruct (skip_sound r1) as (w' & Hw' & Er).
    destruct (skip_ws r1) as [|x r2]; [discriminate|]. destruct (x =? 44) eqn:X.
    - destruct (scan_members rec k r2) as [[l' r']|] eqn:S; [|discriminate]. injection H as <- <-.
      destruct (IH _ _ _ S) as (b & Hb & Eb). apply Z.eqb_eq in X. subst x.
      exists (w ++ 34 :: key ++ 34 :: w1 ++ 58 :: w2 ++ raw ++ w' ++ 44 :: b). split; [apply jm_cons; assumption|].
      rewrite Es, E1, Er, Eb. repeat (rewrite <- app_assoc; cbn [app]). reflexivity.
    - destruct (x =? 125) eqn:X2; [|discriminate]. injection H as <- <-. apply Z.eqb_eq in X2. subst x.
      exists (w ++ 34 :: key ++ 34 :: w1 ++ 58 :: w2 ++ raw ++ w'). split; [apply jm_one; assumption|].
      rewrite Es, E1, Er. repeat (rewrite <- app_assoc; cbn [app]). reflexivity.
  Qed.
  Lemma word_sound w j s j' r : scan_word w j s = Some (j', r) -> j' = j /\ s = w ++ r.
  Proof.
    unfold scan_word. destruct (beqb (firstn (length w) s) w) eqn:E; [|discriminate]. intros H. injection H as <- <-.
    split; [reflexivity|]. apply beqb_eq in E. rewrite <- E at 1. symmetry. apply firstn_skipn.
  Qed.
  Lemma level_sound s j r : scan_level rec s = Some (j, r) -> exists v, top_of j v /\ s = v ++ r.
  Proof.
    unfold scan_level. destruct s as [|b s]; [discriminate|].
    destruct (b =? 110). { intros H. destruct (word_sound _ _ _ _ _ H) as [-> ->]. eexists. split; [|reflexivity]. reflexivity. }
    destruct (b =? 116). { intros H. destruct (word_sound _ _ _ _ _ H) as [-> ->]. eexists. split; [|reflexivity]. reflexivity. }
    destruct (b =? 102). { intros H. destruct (word_sound _ _ _ _ _ H) as [-> ->]. eexists. split; [|reflexivity]. reflexivity. }
    destruct (b =? 34) eqn:E1.
    { apply Z.eqb_eq in E1. subst b. destruct (scan_string s) as [[l r']|] eqn:S; [|discriminate]. intros H. injection H as <- <-.
      destruct (scan_string_sound _ _ _ _ (Nat.le_refl _) S) as [Hk ->]. exists (34 :: l ++ [34]). split; [split; [reflexivity|exact Hk]|].
      cbn [app]. rewrite <- app_assoc. reflexivity. }
    destruct (b =? 91) eqn:E2.
    { apply Z.eqb_eq in E2. subst b. destruct (skip_sound s) as (w & Hw & Es). destruct (skip_ws s) as [|x r1]; [discriminate|].
      destruct (x =? 93) eqn:X.
      - intros H. injection H as <- <-. apply Z.eqb_eq in X. subst x. exists (91 :: w ++ [93]). split; [apply ja_empty; exact Hw|].
        rewrite Es. cbn [app]. rewrite <- app_assoc. reflexivity.
      - destruct (scan_elems rec (length s) s) as [[l r']|] eqn:S; [|discriminate]. intros H. injection H as <- <-.
        destruct (elems_sound _ _ _ _ S) as (c & Hc & Ec). exists (91 :: c ++ [93]). split; [apply ja_elems; exact Hc|].
        rewrite Ec. cbn [app]. rewrite <- app_assoc. reflexivity. }
    destruct (b =? 123) eqn:E3.
    { apply Z.eqb_eq in E3. subst b. destruct (skip_sound s) as (w & Hw & Es). destruct (skip_ws s) as [|x r1]; [discriminate|].
      destruct (x =? 125) eqn:X.
      - intros H. injection H as <- <-. apply Z.eqb_eq in X. subst x. exists (123 :: w ++ [125]). split; [apply jo_empty; exact Hw|].
        rewrite Es. cbn [app]. rewrite <- app_assoc. reflexivity.
      - destruct (scan_members rec (length s) s) as [[l r']|] eqn:S; [|discriminate]. intros H. injection H as <- <-.
        destruct (members_sound _ _ _ _ S) as (c & Hc & Ec). exists (123 :: c ++ [125]). split; [apply jo_members; exact Hc|].
        rewrite Ec. cbn [app]. rewrite <- app_assoc. reflexivity. }
    destruct (scan_number (b :: s)) as [[n r']|] eqn:S; [|discriminate]. intros H. injection H as <- <-.
    destruct (scan_number_sound _ _ _ S) as [Hn ->]. exists n. split; [split; [reflexivity|exact Hn]|reflexivity].
  Qed.
End Sound.
Lemma value_sound : forall k s raw r, scan_value k s = Some (raw, r) -> jtext raw /\ s = raw ++ r.
Proof.
  induction k as [|k IH]; intros s raw r H; [discriminate|]. cbn [scan_value] in H.
  destruct (scan_level (scan_value k) s) as [[j r']|] eqn:L; [|discriminate]. injection H as <- <-.
  destruct (level_sound _ IH _ _ _ L) as (v & Hv & ->). rewrite before_app. split; [apply (top_text j); exact Hv|reflexivity].
Qed.
(** A text with blanks around it. *)
Lemma top_sound bz j : json_top bz = Some j -> exists w v w', bz = w ++ v ++ w' /\ spaces w /\ spaces w' /\ top_of j v.
Proof.
  unfold json_top. destruct (skip_sound bz) as (w & Hw & E).
  destruct (scan_level (scan_value (length (skip_ws bz))) (skip_ws bz)) as [[j' r]|] eqn:L; [|discriminate].
  destruct (level_sound _ (value_sound _) _ _ _ L) as (v & Hv & E2).
  destruct (skip_sound r) as (w' & Hw' & E3). destruct (skip_ws r); [|discriminate]. intros H. injection H as <-.
  rewrite app_nil_r in E3. subst r. exists w, v, w'. rewrite E, E2. repeat split; try assumption.
Qed.
(** ... and conversely. *)
Lemma top_complete w v w' j : spaces w -> spaces w' -> top_of j v -> json_top (w ++ v ++ w') = Some j.
Proof.
  intros Hw Hw' Hv. unfold json_top. rewrite skip_spaces by exact Hw.
  destruct (jtext_head v (top_text j v Hv)) as (x & t & Ev & Nx & _).
  assert (E : skip_ws (v ++ w') = v ++ w') by (rewrite Ev; apply skip_here; exact Nx). rewrite E.
  assert (St : stops w') by (rewrite <- (app_nil_r w'); apply stops_spaces; [exact Hw'|exact I]).
  assert (G : exists j', scan_level (scan_value (length (v ++ w'))) (v ++ w') = Some (j', w') /\ j' = j).
  { destruct scan_grammar as (GT & GA & _ & GO & _). assert (Hl : (length v <= S (length (v ++ w')))%nat) by (rewrite app_length; lia).
    destruct (GT v (top_text j v Hv) (length (v ++ w')) w' Hl St) as (j' & L). exists j'. split; [exact L|].
    destruct j as [|b|n|s|l|l]; cbn [top_of] in Hv.
    - subst v. cbn in L. injection L as <-. reflexivity.
    - destruct b; subst v; cbn in L; injection L as <-; reflexivity.
    - destruct Hv as [-> Hn]. destruct (jnumber_head n Hn) as (y & u & En & Hy). pose proof (scan_number_ok n w' Hn St) as S.
      rewrite En in S. rewrite En in L. cbn [app] in L, S. unfold scan_level in L. unfold digit in Hy.
      replace (y =? 110) with false in L by lia. replace (y =? 116) with false in L by lia. replace (y =? 102) with false in L by lia.
      replace (y =? 34) with false in L by lia. replace (y =? 91) with false in L by lia. replace (y =? 123) with false in L by lia.
      rewrite S in L. injection L as <-. rewrite En. reflexivity.
    - destruct Hv as [-> Hs]. cbn [app scan_level Z.eqb Pos.eqb] in L. rewrite <- app_assoc in L. cbn [app] in L.
      rewrite scan_string_ok in L by exact Hs. injection L as <-. reflexivity.
    - rewrite (GA l v Hv _ w' Hl) in L. injection L as <-. reflexivity.
    - rewrite (GO l v Hv _ w' Hl) in L. injection L as <-. reflexivity. }
  destruct G as (j' & L & ->). rewrite L.
  assert (E2 : skip_ws w' = []) by (rewrite <- (app_nil_r w'), skip_spaces by exact Hw'; reflexivity). rewrite E2. reflexivity.
Qed.

(** ** Decimal numerals *)
Lemma dec_digits_ok : forall k z acc, 0 <= z < 2 ^ Z.of_nat k -> (0 < k)%nat -> exists d, dec_digits k z acc = d ++ acc /\ numeral d z.
Proof.
  induction k as [|k IH]; intros z acc Hz Hk; [lia|]. cbn [dec_digits]. destruct (z <? 10) eqn:E.
  - exists [48 + z]. split; [replace (z mod 10) with z by lia; reflexivity|]. constructor. lia.
  - assert (P : 2 ^ Z.of_nat (S k) = 2 * 2 ^ Z.of_nat k) by (rewrite Nat2Z.inj_succ, Z.pow_succ_r by lia; reflexivity).
    assert (Q : 0 <= z / 10 < 2 ^ Z.of_nat k) by lia.
    destruct (IH (z / 10) ((48 + z mod 10) :: acc) Q) as (d & -> & Hd).
    { destruct k; [exfalso; cbn in Hz; lia|lia]. }
    exists (d ++ [48 + z mod 10]). split; [rewrite <- app_assoc; reflexivity|].
    assert (Ez : z = 10 * (z / 10) + z mod 10) by lia. rewrite Ez at 2. constructor; [exact Hd|lia|lia].
Qed.
Lemma dec_ok z : 0 <= z -> numeral (dec z) z.
Proof.
  intros Hz. unfold dec. destruct (dec_digits_ok (S (Z.to_nat (Z.log2 z))) z []) as (d & E & Hd).
  - split; [exact Hz|]. rewrite Nat2Z.inj_succ, Z2Nat.id by apply Z.log2_nonneg. destruct (Z.eq_dec z 0) as [->|N]; [reflexivity|].
    apply Z.log2_spec. lia.
  - lia.
  - rewrite E, app_nil_r. exact Hd.
Qed.
Lemma itoa_ok z : decimal (itoa z) z.
Proof.
  unfold itoa. destruct (z <? 0) eqn:E; [|constructor; apply dec_ok; lia].
  replace z with (- (- z)) at 2 by lia. constructor; [apply dec_ok|]; lia.
Qed.
Lemma numeral_form b z : numeral b z -> (b = [48] /\ z = 0) \/ (0 < z /\ exists x r, b = x :: r /\ digit x /\ x <> 48 /\ Forall digit r).
Proof.
  induction 1 as [d Hd|b z d Hb IH Nz Hd].
  - destruct (Z.eq_dec d 0) as [->|N]; [left; split; reflexivity|]. right. split; [lia|]. exists (48 + d), [].
    split; [reflexivity|]. unfold digit. split; [lia|]. split; [lia|constructor].
  - right. destruct IH as [[_ ?]|(Hz & x & r & -> & Hx & Nx & Hr)]; [lia|]. split; [lia|]. exists x, (r ++ [48 + d]).
    split; [reflexivity|]. split; [exact Hx|]. split; [exact Nx|]. apply Forall_app. split; [exact Hr|]. constructor; [unfold digit; lia|constructor].
Qed.
Lemma numeral_int b z : numeral b z -> int_part b /\ 0 <= z /\ Forall digit b.
Proof.
  intros H. destruct (numeral_form b z H) as [[-> ->]|(Hz & x & r & -> & Hx & Nx & Hr)].
  - split; [left; reflexivity|]. split; [lia|]. repeat constructor; lia.
  - split; [right; exists x, r; split; [reflexivity|split; [exact Hx|split; [exact Nx|exact Hr]]]|]. split; [lia|constructor; assumption].
Qed.
Lemma decimal_number b z : decimal b z -> jnumber b.
Proof.
  intros [b' z' H|b' z' H N]; destruct (numeral_int _ _ H) as (Hi & _).
  - rewrite <- (app_nil_r b'). apply (jn_intro [] b' [] []); [tauto|exact Hi|left; reflexivity|left; reflexivity].
  - rewrite <- (app_nil_r b'). apply (jn_intro [45] b' [] []); [tauto|exact Hi|left; reflexivity|left; reflexivity].
Qed.
Lemma parse_digits_app : forall a b acc, parse_digits (a ++ b) acc = match parse_digits a acc with Some x => parse_digits b x | None => None end.
Proof. induction a as [|x a IH]; intros b acc; [reflexivity|]. cbn [app parse_digits]. destruct (is_digit x); [apply IH|reflexivity]. Qed.
Lemma parse_numeral b z : numeral b z -> parse_digits b 0 = Some z.
Proof.
  induction 1 as [d Hd|b z d Hb IH Nz Hd]; cbn [parse_digits].
  - replace (is_digit (48 + d)) with true by (unfold is_digit; lia). f_equal. lia.
  - rewrite parse_digits_app, IH. cbn [parse_digits]. replace (is_digit (48 + d)) with true by (unfold is_digit; lia). f_equal. lia.
Qed.
Lemma parse_uint_ok b z : numeral b z -> parse_uint b = Some z.
Proof. intros H. unfold parse_uint. rewrite (parse_numeral b z H). destruct b; [exfalso; destruct (numeral_form _ _ H) as [[? ?]|(_ & x & r & ? & _)]; discriminate|reflexivity]. Qed.
Lemma parse_int_ok b z : decimal b z -> parse_int b = Some z.
Proof.
  intros [b' z' H|b' z' H N]; pose proof (parse_uint_ok b' z' H) as P; unfold parse_int.
  - destruct (numeral_int _ _ H) as (_ & _ & D). destruct D as [|x r Hx Hr]; [discriminate|]. unfold digit in Hx. replace (x =? 45) with false by lia. exact P.
  - cbn [Z.eqb Pos.eqb]. rewrite P. reflexivity.
Qed.
Lemma itoa_ascii z : Forall (fun b => 32 <= b < 128 /\ b <> 34 /\ b <> 92) (itoa z).
Proof.
  assert (G : forall b z, numeral b z -> Forall (fun b => 32 <= b < 128 /\ b <> 34 /\ b <> 92) b).
  { intros b y H. destruct (numeral_int _ _ H) as (_ & _ & D). eapply Forall_impl; [|exact D]. unfold digit. intros. lia. }
  destruct (itoa_ok z) as [b y H|b y H N]; [apply (G b y H)|]. constructor; [lia|apply (G b y H)].
Qed.

(** ** Base64 *)
Lemma b64_digit_ok d : 0 <= d < 64 -> b64_val (b64_digit d) = Some d /\ 43 <= b64_digit d < 123 /\ b64_digit d <> 61 /\ b64_digit d <> 92.
Proof.
  intros H. unfold b64_digit, b64_val. destruct (d <? 26) eqn:E1.
  { replace ((65 <=? 65 + d) && (65 + d <=? 90)) with true by lia. split; [f_equal; lia|lia]. }
  destruct (d <? 52) eqn:E2.
  { replace ((65 <=? 71 + d) && (71 + d <=? 90)) with false by lia. replace ((97 <=? 71 + d) && (71 + d <=? 122)) with true by lia. split; [f_equal; lia|lia]. }
  destruct (d <? 62) eqn:E3.
  { replace ((65 <=? d - 4) && (d - 4 <=? 90)) with false by lia. replace ((97 <=? d - 4) && (d - 4 <=? 122)) with false by lia.
    replace ((48 <=? d - 4) && (d - 4 <=? 57)) with true by lia. split; [f_equal; lia|lia]. }
  destruct (d =? 62) eqn:E4; [assert (d = 62) as -> by lia|assert (d = 63) as -> by lia]; split; try reflexivity; lia.
Qed.
Definition list3_ind (P : list Z -> Prop) (H0 : P []) (H1 : forall a, P [a]) (H2 : forall a b, P [a; b])
  (H3 : forall a b c s, P s -> P (a :: b :: c :: s)) : forall s, P s :=
  fix F s := match s with
             | [] => H0
             | [a] => H1 a
             | [a; b] => H2 a b
             | a :: b :: c :: r => H3 a b c r (F r)
             end.
Lemma b64_round (s : list Z) : Forall (fun b => 0 <= b < 256) s -> b64_decode (b64_encode s) = Some s.
Proof.
  induction s as [|a|a b|a b c s IH] using list3_ind; intros H; [reflexivity| | |].
  - inversion H as [|? ? Ha _]; subst. cbn [b64_encode b64_decode Z.eqb Pos.eqb].
    destruct (b64_digit_ok (a / 4) ltac:(lia)) as [E1 _]. destruct (b64_digit_ok (a mod 4 * 16) ltac:(lia)) as [E2 _]. rewrite E1, E2.
    f_equal. f_equal. lia.
  - inversion H as [|? ? Ha H']; subst. inversion H' as [|? ? Hb _]; subst. cbn [b64_encode b64_decode Z.eqb Pos.eqb].
    destruct (b64_digit_ok (a / 4) ltac:(lia)) as [E1 _]. destruct (b64_digit_ok (a mod 4 * 16 + b / 16) ltac:(lia)) as [E2 _].
    destruct (b64_digit_ok (b mod 16 * 4) ltac:(lia)) as (E3 & _ & N & _). rewrite E1, E2, E3. replace (b64_digit (b mod 16 * 4) =? 61) with false by lia.
    f_equal. f_equal; [lia|]. f_equal. lia.
  - inversion H as [|? ? Ha H']; subst. inversion H' as [|? ? Hb H'']; subst. inversion H'' as [|? ? Hc Hs]; subst. specialize (IH Hs).
    cbn [b64_encode]. cbn [b64_decode].
    destruct (b64_digit_ok (a / 4) ltac:(lia)) as [E1 _]. destruct (b64_digit_ok (a mod 4 * 16 + b / 16) ltac:(lia)) as [E2 _].
    destruct (b64_digit_ok (b mod 16 * 4 + c / 64) ltac:(lia)) as [E3 _]. destruct (b64_digit_ok (c mod 64) ltac:(lia)) as (E4 & _ & N & _).
    rewrite E1, E2, E3, E4, IH. replace (b64_digit (c mod 64) =? 61) with false by lia. cbn [option_map app].
    assert (G : [a / 4 * 4 + (a mod 4 * 16 + b / 16) / 16; (a mod 4 * 16 + b / 16) mod 16 * 16 + (b mod 16 * 4 + c / 64) / 4; (b mod 16 * 4 + c / 64) mod 4 * 64 + c mod 64] = [a; b; c]).
    { f_equal; [lia|]. f_equal; [lia|]. f_equal. lia. }
    injection G as G1 G2 G3. rewrite G1, G2, G3. destruct (b64_encode s); reflexivity.
Qed.
Lemma b64_chars (s : list Z) : Forall (fun b => 0 <= b < 256) s -> Forall (fun b => 43 <= b < 123 /\ b <> 92) (b64_encode s).
Proof.
  induction s as [|a|a b|a b c s IH] using list3_ind; intros H; [constructor| | |].
  - inversion H as [|? ? Ha _]; subst. cbn [b64_encode].
    pose proof (b64_digit_ok (a / 4) ltac:(lia)). pose proof (b64_digit_ok (a mod 4 * 16) ltac:(lia)). repeat constructor; lia.
  - inversion H as [|? ? Ha H']; subst. inversion H' as [|? ? Hb _]; subst. cbn [b64_encode].
    pose proof (b64_digit_ok (a / 4) ltac:(lia)). pose proof (b64_digit_ok (a mod 4 * 16 + b / 16) ltac:(lia)).
    pose proof (b64_digit_ok (b mod 16 * 4) ltac:(lia)). repeat constructor; lia.
  - inversion H as [|? ? Ha H']; subst. inversion H' as [|? ? Hb H'']; subst. inversion H'' as [|? ? Hc Hs]; subst. specialize (IH Hs).
    cbn [b64_encode].
    pose proof (b64_digit_ok (a / 4) ltac:(lia)). pose proof (b64_digit_ok (a mod 4 * 16 + b / 16) ltac:(lia)).
    pose proof (b64_digit_ok (b mod 16 * 4 + c / 64) ltac:(lia)). pose proof (b64_digit_ok (c mod 64) ltac:(lia)).
    repeat (constructor; [lia|]). exact IH.
Qed.
Lemma b64_clean_ok s : Forall (fun b => 43 <= b < 123 /\ b <> 92) s -> b64_clean s = s.
Proof.
  unfold b64_clean. induction 1 as [|b s H Hs IH]; [reflexivity|]. cbn [filter]. replace ((b =? 10) || (b =? 13)) with false by lia.
  cbn [negb]. rewrite IH. reflexivity.
Qed.

(** ** The test for UTF-8 *)
Lemma utf8_from_ok : forall k s, Forall (fun b => 0 <= b) s -> utf8_from k s = true -> utf8 s.
Proof.
  induction k as [|k IH]; intros s Hs H; destruct s as [|b s]; try discriminate; try constructor. cbn [utf8_from] in H.
  destruct (decode_rune (b :: s)) as [[c n]|] eqn:D; [|discriminate]. destruct (decode_utf8 _ _ _ Hs D) as (U & Hn & E).
  rewrite E. econstructor; [exact U|]. apply IH; [|exact H]. rewrite E in Hs. apply Forall_app in Hs. tauto.
Qed.
Lemma utf8_from_complete s : utf8 s -> forall k, (length s <= k)%nat -> utf8_from k s = true.
Proof.
  induction 1 as [|c b s Hc Hs IH]; intros k Hk; [destruct k; reflexivity|]. rewrite app_length in Hk. pose proof (utf8_len c b Hc) as Hl.
  destruct k as [|k]; [lia|]. destruct b as [|x b]; [cbn in Hl; lia|]. cbn [app]. cbn [utf8_from].
  pose proof (utf8_decode c (x :: b) s Hc) as D. cbn [app] in D. rewrite D.
  assert (F2 : skipn (length (x :: b)) (x :: b ++ s) = s).
  { change (x :: b ++ s) with ((x :: b) ++ s). rewrite skipn_app, Nat.sub_diag, skipn_all. reflexivity. }
  rewrite F2. apply IH. lia.
Qed.
Lemma bytes_nonneg s : forallb byte_ok s = true -> Forall (fun b => 0 <= b) s.
Proof. intros H. apply Forall_forall. intros b Hb. rewrite forallb_forall in H. specialize (H b Hb). unfold byte_ok in H. lia. Qed.
Lemma utf8_byte_ok s : utf8 s -> forallb byte_ok s = true.
Proof.
  induction 1 as [|c b s Hc Hs IH]; [reflexivity|]. rewrite forallb_app, IH, andb_true_r.
  destruct Hc; cbn [forallb]; unfold byte_ok; lia.
Qed.
Lemma valid_utf8_ok s : valid_utf8 s = true <-> utf8 s.
Proof.
  unfold valid_utf8. rewrite andb_true_iff. split.
  - intros [H1 H2]. apply (utf8_from_ok (length s)); [apply bytes_nonneg; exact H1|exact H2].
  - intros H. split; [apply utf8_byte_ok; exact H|apply utf8_from_complete; [exact H|lia]].
Qed.
Lemma unescaped_ok s : unescaped s = true -> utf8 s /\ Forall (fun x => 32 <= x /\ x <> 34 /\ x <> 92) s.
Proof.
  unfold unescaped. rewrite andb_true_iff, valid_utf8_ok, forallb_forall. intros [H1 H2]. split; [exact H1|].
  apply Forall_forall. intros x Hx. specialize (H2 x Hx). lia.
Qed.

(** ** Composite texts *)
Lemma utf8_one b : 0 <= b < 128 -> utf8 [b].
Proof. intros H. apply utf8_ascii. constructor; [exact H|constructor]. Qed.
Lemma utf8_cons b s : 0 <= b < 128 -> utf8 s -> utf8 (b :: s).
Proof. intros H Hs. apply (utf8_app [b] s); [apply utf8_one; exact H|exact Hs]. Qed.
Lemma join_utf8 l : Forall utf8 l -> utf8 (join l).
Proof.
  induction 1 as [|b l Hb Hl IH]; [constructor|]. cbn [join]. destruct l as [|x l]; [exact Hb|].
  apply utf8_app; [exact Hb|]. apply utf8_cons; [lia|exact IH].
Qed.
Lemma join_elems l : Forall jtext l -> l <> [] -> jelems l (join l).
Proof.
  induction 1 as [|b l Hb Hl IH]; [congruence|]. intros _. cbn [join]. destruct l as [|x l].
  - rewrite <- (app_nil_r b) at 2. apply (jl_one [] b []); [constructor|exact Hb|constructor].
  - apply (jl_cons [] b [] (x :: l)); [constructor|exact Hb|constructor|apply IH; discriminate].
Qed.
Lemma array_text l : Forall jtext l -> jarray l (91 :: join l ++ [93]).
Proof.
  intros H. destruct l as [|b l]; [apply (ja_empty []); constructor|]. apply ja_elems, join_elems; [exact H|discriminate].
Qed.
Definition member (m : bytes * bytes) : bytes := quote (fst m) ++ 58 :: snd m.
Definition raw_member (m : bytes * bytes) : bytes * bytes := (quote_body (length (fst m)) (fst m), snd m).
Definition member_ok (m : bytes * bytes) : Prop := utf8 (fst m) /\ jtext (snd m) /\ utf8 (snd m).
Lemma utf8_nonneg_all s : utf8 s -> Forall (fun b => 0 <= b) s.
Proof. intros H. apply bytes_nonneg, utf8_byte_ok, H. Qed.
Lemma quote_text s : Forall (fun b => 0 <= b) s -> jtext (quote s) /\ utf8 (quote s).
Proof.
  intros H. unfold quote. destruct (quote_body_ok (length s) s H (Nat.le_refl _)) as [A B].
  split; [apply jt_string; exact A|]. apply utf8_cons; [lia|]. apply utf8_app; [exact B|apply utf8_one; lia].
Qed.
Lemma join_members l : Forall (fun m => Forall (fun b => 0 <= b) (fst m) /\ jtext (snd m)) l -> l <> [] -> jmembers (map raw_member l) (join (map member l)).
Proof.
  induction 1 as [|[n v] l [Hn Hv] Hl IH]; [congruence|]. intros _. cbn [map fst snd] in *.
  destruct (quote_body_ok (length n) n Hn (Nat.le_refl _)) as [A _]. destruct l as [|x l].
  - cbn [map join]. unfold member, raw_member, quote. cbn [fst snd].
    replace ((34 :: quote_body (length n) n ++ [34]) ++ 58 :: v) with ([] ++ 34 :: quote_body (length n) n ++ 34 :: [] ++ 58 :: [] ++ v ++ [])
      by (cbn [app]; rewrite app_nil_r, <- app_assoc; reflexivity).
    apply jm_one; [constructor|exact A|constructor|constructor|exact Hv|constructor].
  - cbn [map join]. unfold member at 1, raw_member at 1, quote. cbn [fst snd].
    match goal with |- jmembers _ (?a ++ 44 :: ?b) =>
      replace (a ++ 44 :: b) with ([] ++ 34 :: quote_body (length n) n ++ 34 :: [] ++ 58 :: [] ++ v ++ [] ++ 44 :: b)
        by (repeat (cbn [app]; rewrite <- app_assoc); reflexivity) end.
    apply jm_cons; [constructor|exact A|constructor|constructor|exact Hv|constructor|apply IH; discriminate].
Qed.
Lemma object_text l : Forall (fun m => Forall (fun b => 0 <= b) (fst m) /\ jtext (snd m)) l ->
  jobject (map raw_member l) (123 :: join (map member l) ++ [125]).
Proof.
  intros H. destruct l as [|b l]; [apply (jo_empty []); constructor|]. apply jo_members, join_members; [exact H|discriminate].
Qed.
Lemma object_utf8 l : Forall (fun m => Forall (fun b => 0 <= b) (fst m) /\ utf8 (snd m)) l -> utf8 (123 :: join (map member l) ++ [125]).
Proof.
  intros H. apply utf8_cons; [lia|]. apply utf8_app; [|apply utf8_one; lia]. apply join_utf8. apply Forall_forall. intros x Hx.
  apply in_map_iff in Hx. destruct Hx as ([n v] & <- & Hin). rewrite Forall_forall in H. destruct (H _ Hin) as [Hn Hv].
  unfold member. cbn [fst snd] in *. apply utf8_app; [apply quote_text; exact Hn|apply utf8_cons; [lia|exact Hv]].
Qed.

(** Reading the members into a map. *)
Lemma map_put_new key raw m : ~ In key (map fst m) -> map_put key raw m = m ++ [(key, raw)].
Proof.
  induction m as [|[k r] m IH]; cbn [map map_put app]; [reflexivity|]. intros N. cbn [In fst] in N.
  destruct (beqb k key) eqn:E; [exfalso; apply beqb_eq in E; apply N; left; exact E|]. rewrite IH by tauto. reflexivity.
Qed.
Lemma fill_map_ok : forall l m, Forall (fun p => utf8 (fst p)) l -> NoDup (map fst m ++ map fst l) -> fill_map (map raw_member l) m = EOk (m ++ l).
Proof.
  induction l as [|[n v] l IH]; intros m Hl Hd; cbn [map fill_map]; [rewrite app_nil_r; reflexivity|].
  inversion Hl as [|? ? Hn Hl']; subst. cbn [fst] in Hn. unfold raw_member at 1. cbn [fst snd fill_map]. unfold unq. rewrite unquoted_quote by exact Hn. cbn [ebind].
  cbn [map fst] in Hd. rewrite map_put_new.
  - rewrite IH; [rewrite <- app_assoc; reflexivity|exact Hl'|]. rewrite map_app. cbn [map fst]. rewrite <- app_assoc. exact Hd.
  - intros Hin. apply NoDup_remove in Hd. destruct Hd as [_ Hd]. apply Hd. apply in_or_app. left. exact Hin.
Qed.
Lemma raw_map_ok l : Forall member_ok l -> NoDup (map fst l) -> raw_map (123 :: join (map member l) ++ [125]) = EOk l.
Proof.
  intros H Hd. unfold raw_map, with_top.
  assert (O : jobject (map raw_member l) (123 :: join (map member l) ++ [125])).
  { apply object_text. eapply Forall_impl; [|exact H]. intros m (A & B & C). split; [apply utf8_nonneg_all; exact A|exact B]. }
  rewrite (top_ok (JObj (map raw_member l))) by exact O. rewrite fill_map_ok; [reflexivity| |exact Hd].
  eapply Forall_impl; [|exact H]. intros m (A & _). exact A.
Qed.
Lemma raw_list_ok l : Forall jtext l -> raw_list (91 :: join l ++ [93]) = EOk l.
Proof. intros H. unfold raw_list, with_top. rewrite (top_ok (JArr l)) by (apply array_text; exact H). reflexivity. Qed.
Lemma raw_bytes_ok s old : Forall (fun b => 0 <= b < 256) s -> raw_bytes (34 :: b64_encode s ++ [34]) old = EOk s.
Proof.
  intros H. pose proof (b64_chars s H) as B. unfold raw_bytes, with_top.
  assert (J : jchars (b64_encode s)) by (apply jchars_plain; eapply Forall_impl; [|exact B]; cbv beta; intros; lia).
  rewrite (top_ok (JStr (b64_encode s))) by (split; [reflexivity|exact J]). unfold unq.
  rewrite unquoted_ascii by (eapply Forall_impl; [|exact B]; cbv beta; intros; lia). cbn [ebind]. rewrite b64_clean_ok by exact B.
  rewrite b64_round by exact H. reflexivity.
Qed.
Lemma bytes_text s : Forall (fun b => 0 <= b < 256) s -> jtext (34 :: b64_encode s ++ [34]) /\ utf8 (34 :: b64_encode s ++ [34]).
Proof.
  intros H. pose proof (b64_chars s H) as B. split.
  - apply jt_string, jchars_plain. eapply Forall_impl; [|exact B]; cbv beta; intros; lia.
  - apply utf8_ascii. constructor; [lia|]. apply Forall_app. split; [eapply Forall_impl; [|exact B]; cbv beta; intros; lia|repeat constructor; lia].
Qed.

(** The wrapper around registered types. *)
Definition wrap_members (name body : bytes) : list (bytes * bytes) := [(bs "type", 34 :: name ++ [34]); (bs "value", body)].
Lemma wrap_text name body : Forall (fun x => 32 <= x /\ x <> 34 /\ x <> 92) name -> jtext body -> jobject (wrap_members name body) (wrap_name name body).
Proof.
  intros Hn Hb. unfold wrap_members, wrap_name.
  assert (Q : forall s, Forall (fun x => 32 <= x /\ x <> 34 /\ x <> 92) (bs s) -> jchars (bs s)) by (intros; apply jchars_plain; assumption).
  assert (M : jmembers [(bs "type", 34 :: name ++ [34]); (bs "value", body)]
    ([] ++ 34 :: bs "type" ++ 34 :: [] ++ 58 :: [] ++ (34 :: name ++ [34]) ++ [] ++ 44 :: ([] ++ 34 :: bs "value" ++ 34 :: [] ++ 58 :: [] ++ body ++ []))).
  { apply (jm_cons [] (bs "type") [] [] (34 :: name ++ [34]) [] [(bs "value", body)] ([] ++ 34 :: bs "value" ++ 34 :: [] ++ 58 :: [] ++ body ++ [])).
    - constructor.
    - apply Q. cbn. repeat (apply Forall_cons; [lia|]). apply Forall_nil.
    - constructor.
    - constructor.
    - apply jt_string, jchars_plain. exact Hn.
    - constructor.
    - apply (jm_one [] (bs "value") [] [] body []).
      + constructor.
      + apply Q. cbn. repeat (apply Forall_cons; [lia|]). apply Forall_nil.
      + constructor.
      + constructor.
      + exact Hb.
      + constructor. }
  apply jo_members in M. cbn [bs app] in *. rewrite app_nil_r in M. rewrite <- !app_assoc in M. cbn [app] in M. repeat rewrite <- app_assoc in M.
  exact M.
Qed.
Lemma wrap_utf8 name body : utf8 name -> utf8 body -> utf8 (wrap_name name body).
Proof.
  intros Hn Hb. unfold wrap_name. repeat (apply utf8_app; [try assumption; apply utf8_ascii; repeat constructor; lia|]).
  apply utf8_ascii; repeat constructor; lia.
Qed.
Lemma wrapper_ok name body : utf8 name -> Forall (fun x => 32 <= x /\ x <> 34 /\ x <> 92) name -> name <> [] -> jtext body ->
  decode_wrapper (wrap_name name body) = EOk (name, body).
Proof.
  intros Hu Hn Ne Hb. unfold decode_wrapper, raw_wrapper, with_top. rewrite (top_ok (JObj (wrap_members name body))) by (apply wrap_text; assumption).
  unfold wrap_members. cbn [fill_wrapper]. change (unq (bs "type")) with (@EOk bytes (bs "type")). change (unq (bs "value")) with (@EOk bytes (bs "value")).
  cbn [ebind]. change (beqb (map lower (bs "type")) (bs "type")) with true. change (beqb (map lower (bs "value")) (bs "type")) with false.
  change (beqb (map lower (bs "value")) (bs "value")) with true. cbv iota.
  rewrite (top_ok (JStr name)) by (split; [reflexivity|apply jchars_plain; exact Hn]). unfold unq. rewrite unquoted_plain by assumption. cbn [ebind].
  cbn [wr_name wr_data wr_bad]. cbn [ebind wr_name wr_data wr_bad].
  destruct (jtext_head body Hb) as (x & t & -> & _). destruct name; [congruence|]. reflexivity.
Qed.

(** ** What strings stand for *)
Lemma hex_val_spec w v : hex_val w = Some v <-> hexval w v.
Proof.
  unfold hex_val, hexval. destruct ((48 <=? w) && (w <=? 57)) eqn:E1; [split; [intros H; injection H as <-; lia|intros; f_equal; lia]|].
  destruct ((97 <=? w) && (w <=? 102)) eqn:E2; [split; [intros H; injection H as <-; lia|intros; f_equal; lia]|].
  destruct ((65 <=? w) && (w <=? 70)) eqn:E3; [split; [intros H; injection H as <-; lia|intros; f_equal; lia]|].
  split; [discriminate|lia].
Qed.
Lemma hex4_spec w x y z u : hex4 w x y z = Some u <-> code_unit [92; 117; w; x; y; z] u.
Proof.
  unfold hex4. split.
  - destruct (hex_val w) as [a|] eqn:A; [|discriminate]. destruct (hex_val x) as [b|] eqn:B; [|discriminate].
    destruct (hex_val y) as [c|] eqn:C; [|discriminate]. destruct (hex_val z) as [d|] eqn:D; [|discriminate].
    apply hex_val_spec in A, B, C, D. intros H. injection H as <-.
    replace (((a * 16 + b) * 16 + c) * 16 + d) with (4096 * a + 256 * b + 16 * c + d) by lia. apply cu_intro; assumption.
  - intros H. inversion H as [w' x' y' z' a b c d A B C D]; subst. apply hex_val_spec in A, B, C, D. rewrite A, B, C, D. f_equal. lia.
Qed.
Lemma code_unit_range e u : code_unit e u -> 0 <= u < 65536.
Proof. intros [w x y z a b c d A B C D]. unfold hexval in *. lia. Qed.
Lemma encode_rune_spec u : 0 <= u < 1114112 -> ~ 55296 <= u < 57344 -> utf8_char u (encode_rune u).
Proof.
  intros H H'. unfold encode_rune. destruct (u <? 128) eqn:E1; [constructor; lia|]. destruct (u <? 2048) eqn:E2; [constructor; lia|].
  replace ((1114111 <? u) || ((55296 <=? u) && (u <? 57344))) with false by lia. destruct (u <? 65536) eqn:E3; constructor; lia.
Qed.
Lemma jchars_app_skip b s : Forall (fun x => 128 <= x) b -> jchars (b ++ s) -> jchars s.
Proof.
  induction 1 as [|x b Hx Hb IH]; [auto|]. cbn [app]. intros H. apply IH. inversion H; subst; [assumption|lia|lia].
Qed.
Lemma utf8_high_bytes c x t : utf8_char c (x :: t) -> 128 <= x -> Forall (fun y => 128 <= y) (x :: t) /\ 128 <= c.
Proof.
  intros H Hx. remember (x :: t) as b eqn:E. destruct H as [c H|c H|c H H'|c H].
  - apply (f_equal (hd 0)) in E. cbn [hd] in E. lia.
  - split; [|lia]. repeat (apply Forall_cons; [lia|]); apply Forall_nil.
  - split; [|lia]. repeat (apply Forall_cons; [lia|]); apply Forall_nil.
  - split; [|lia]. repeat (apply Forall_cons; [lia|]); apply Forall_nil.
Qed.
Lemma utf8_char_rune c b : utf8_char c b -> b = encode_rune c.
Proof.
  unfold encode_rune. destruct 1 as [c H|c H|c H H'|c H].
  - replace (c <? 128) with true by lia. reflexivity.
  - replace (c <? 128) with false by lia. replace (c <? 2048) with true by lia. reflexivity.
  - replace (c <? 128) with false by lia. replace (c <? 2048) with false by lia. replace ((1114111 <? c) || ((55296 <=? c) && (c <? 57344))) with false by lia.
    replace (c <? 65536) with true by lia. reflexivity.
  - replace (c <? 128) with false by lia. replace (c <? 2048) with false by lia. replace ((1114111 <? c) || ((55296 <=? c) && (c <? 57344))) with false by lia.
    replace (c <? 65536) with false by lia. reflexivity.
Qed.
Lemma jchars_nonneg s : jchars s -> Forall (fun x => 0 <= x) s.
Proof.
  induction 1 as [|b s H1 H2 H3 H IH|e s He H IH|w x y z s Hw Hx Hy Hz H IH]; unfold hexdigit in *.
  - constructor.
  - constructor; [lia|exact IH].
  - constructor; [lia|]. constructor; [cbn [In] in He; lia|exact IH].
  - repeat (apply Forall_cons; [lia|]). exact IH.
Qed.
Lemma unquote_sound : forall k s n, jchars s -> unquote k s = Some n -> denotes s n.
Proof.
  induction k as [|k IH]; intros s n Hj H; (destruct s as [|b s]; [injection H as <-; constructor|]); [discriminate|].
  destruct (Z.eq_dec b 92) as [->|N].
  - cbn [unquote] in H. change (92 =? 92) with true in H. cbv iota in H. inversion Hj as [|? ? ? ? ? ?|e r He Hr|w x y z r Hw Hx Hy Hz Hr]; subst; [lia| |].
    + assert (E : forall v, option_map (cons v) (unquote k r) = Some n -> In (e, v) [(34, 34); (92, 92); (47, 47); (98, 8); (102, 12); (110, 10); (114, 13); (116, 9)] -> denotes (92 :: e :: r) n).
      { intros v Hv Hi. destruct (unquote k r) as [n'|] eqn:U; [|discriminate]. cbn [option_map] in Hv. injection Hv as <-. apply dn_escape; [exact Hi|]. apply IH; assumption. }
      cbn [In] in He. destruct He as [<-|[<-|[<-|[<-|[<-|[<-|[<-|[<-|[]]]]]]]]]; cbn [Z.eqb Pos.eqb orb] in H;
        (eapply E; [exact H|cbn [In]; tauto]).
    + change (117 =? 34) with false in H. cbn [Z.eqb Pos.eqb orb] in H.
      destruct (hex4 w x y z) as [u|] eqn:U; [|discriminate]. apply hex4_spec in U. pose proof (code_unit_range _ _ U) as Ru.
      assert (E : forall v n', option_map (app v) (unquote k r) = Some n -> (forall m, denotes r m -> denotes (92 :: 117 :: w :: x :: y :: z :: r) (v ++ m)) -> n' = n -> denotes (92 :: 117 :: w :: x :: y :: z :: r) n).
      { intros v n' Hv Hi _. destruct (unquote k r) as [m|] eqn:Q; [|discriminate]. cbn [option_map] in Hv. injection Hv as <-. apply Hi. apply IH; assumption. }
      destruct ((55296 <=? u) && (u <? 57344)) eqn:Su.
      * assert (Half : (forall f v r', code_unit f v -> r = f ++ r' -> ~ (u < 56320 /\ 56320 <= v < 57344)) ->
          option_map (app [239; 191; 189]) (unquote k r) = Some n -> denotes (92 :: 117 :: w :: x :: y :: z :: r) n).
        { intros Hh HX. eapply (E _ n HX); [|reflexivity]. intros m Hm. apply (dn_half [92; 117; w; x; y; z] u r m U); [lia|exact Hh|exact Hm]. }
        assert (NU : forall f v r', code_unit f v -> r = f ++ r' -> exists a' b' c' d', r = 92 :: 117 :: a' :: b' :: c' :: d' :: r' /\ hex4 a' b' c' d' = Some v).
        { intros f v r' Hf ->. pose proof Hf as Hf'. destruct Hf'. eexists _, _, _, _. split; [reflexivity|]. apply hex4_spec. exact Hf. }
        destruct r as [|x1 [|x2 [|x3 [|x4 [|x5 [|x6 r2]]]]]];
          try (apply Half; [|exact H]; intros f v r' Hf Hr'; destruct (NU f v r' Hf Hr') as (? & ? & ? & ? & Q & _); discriminate).
        destruct ((x1 =? 92) && (x2 =? 117)) eqn:Ex.
        -- apply andb_true_iff in Ex. destruct Ex as [E1 E2]. apply Z.eqb_eq in E1, E2. subst x1 x2.
           destruct (hex4 x3 x4 x5 x6) as [u'|] eqn:U'.
           ++ destruct (surrogates u u') as [p|] eqn:Sp.
              ** destruct (unquote k r2) as [m|] eqn:Q; [|discriminate]. cbn [option_map] in H. injection H as <-.
                 unfold surrogates in Sp. destruct (_ && _) eqn:C in Sp; [|discriminate]. injection Sp as <-.
                 apply hex4_spec in U'. apply (dn_pair [92; 117; w; x; y; z] [92; 117; x3; x4; x5; x6] u u' _ r2 m U U'); [lia|lia| |].
                 --- replace ((u - 55296) * 1024 + (u' - 56320) + 65536) with (65536 + 1024 * (u - 55296) + (u' - 56320)) by lia.
                     apply encode_rune_spec; lia.
                 --- apply IH; [|exact Q]. inversion Hr; subst; [lia|cbn [In] in *; lia|assumption].
              ** apply Half; [|exact H]. intros f v r' Hf Hr'. destruct (NU f v r' Hf Hr') as (? & ? & ? & ? & Q & V). injection Q as -> -> -> -> ->.
                 rewrite V in U'. injection U' as ->. unfold surrogates in Sp. destruct (_ && _) eqn:C in Sp; [discriminate|]. lia.
           ++ apply Half; [|exact H]. intros f v r' Hf Hr'. destruct (NU f v r' Hf Hr') as (? & ? & ? & ? & Q & V). injection Q as -> -> -> -> ->. congruence.
        -- apply Half; [|exact H]. intros f v r' Hf Hr'. destruct (NU f v r' Hf Hr') as (? & ? & ? & ? & Q & V). injection Q as -> -> -> -> -> ->. discriminate.
      * eapply (E _ n H); [|reflexivity]. intros m Hm. apply (dn_unit [92; 117; w; x; y; z] u _ r m U); [lia|apply encode_rune_spec; lia|exact Hm].
  - rewrite unquote_other in H by exact N. destruct ((b =? 34) || (b <? 32)) eqn:Eb; [discriminate|].
    assert (Js : jchars s) by (inversion Hj; subst; [assumption|lia|lia]).
    destruct (b <? 128) eqn:E8.
    + destruct (unquote k s) as [m|] eqn:Q; [|discriminate]. cbn [option_map] in H. injection H as <-.
      apply (dn_char b [b] s m); [constructor; lia|lia|lia|lia|]. apply IH; assumption.
    + pose proof (jchars_nonneg _ Hj) as Hn. destruct (decode_rune (b :: s)) as [[c q]|] eqn:D.
      * destruct (unquote k (skipn q (b :: s))) as [m|] eqn:Q; [|discriminate]. cbn [option_map] in H. injection H as <-.
        destruct (decode_utf8 _ _ _ Hn D) as (U & Hq & E). destruct q as [|q]; [lia|]. cbn [firstn] in *.
        destruct (utf8_high_bytes _ _ _ U ltac:(lia)) as [Hh Hc]. rewrite E. rewrite E in Hj. pose proof (jchars_app_skip _ _ Hh Hj) as J2.
        apply (dn_char c (b :: firstn q s)); [exact U|lia|lia|lia|]. apply IH; assumption.
      * destruct (unquote k s) as [m|] eqn:Q; [|discriminate]. cbn [option_map] in H. injection H as <-.
        apply dn_bad; [lia| |apply IH; assumption]. intros c u r Hu E. rewrite E, (utf8_decode c u r Hu) in D. discriminate.
Qed.
Lemma unq_sound s n : jchars s -> unq s = EOk n -> denotes s n.
Proof.
  unfold unq, unquoted. intros Hj H. destruct (unquote _ s) as [m|] eqn:U; [|discriminate]. injection H as <-. eapply unquote_sound; eassumption.
Qed.
(** A string stands for one thing only. *)
Lemma denotes_unquote s n : denotes s n -> forall k, (length s <= k)%nat -> unquote k s = Some n.
Proof.
  induction 1 as [|c b s n Hc H1 H2 H3 Hd IH|b s n Hb Hn Hd IH|e x s n Hi Hd IH|e u b s n He Hu Hb Hd IH|e f u v b s n He Hf Hu Hv Hb Hd IH|e u s n He Hu Hn Hd IH]; intros k Hk.
  - destruct k; reflexivity.
  - rewrite app_length in Hk. pose proof (utf8_len c b Hc) as Hl. destruct k as [|k]; [lia|].
    pose proof (utf8_decode c b s Hc) as D. destruct b as [|y t]; [cbn in Hl; lia|]. cbn [length] in Hk, Hl. cbn [app] in D |- *.
    assert (N : y <> 92 /\ (y =? 34) || (y <? 32) = false).
    { destruct (Z_lt_le_dec y 128) as [L|L]; [|split; lia]. pose proof (utf8_low c y t Hc ltac:(lia)) as ->. pose proof (utf8_char_rune _ _ Hc) as Q. destruct (utf8_high c [y] Hc) as [F|(d & Hd1 & Hd2 & ->)]; [inversion F; split; lia|]. injection Hd2 as ->. split; lia. }
    rewrite unquote_other by tauto. rewrite (proj2 N). destruct (y <? 128) eqn:E.
    + assert (t = []) as -> by (apply (utf8_low c y t Hc); lia). cbn [app]. cbn [length] in Hk. rewrite IH by lia. reflexivity.
    + rewrite D.
      assert (F1 : firstn (length (y :: t)) (y :: t ++ s) = y :: t).
      { change (y :: t ++ s) with ((y :: t) ++ s). rewrite firstn_app, Nat.sub_diag, firstn_all. cbn [firstn]. apply app_nil_r. }
      assert (F2 : skipn (length (y :: t)) (y :: t ++ s) = s).
      { change (y :: t ++ s) with ((y :: t) ++ s). rewrite skipn_app, Nat.sub_diag, skipn_all. reflexivity. }
      rewrite F1, F2, IH by lia. reflexivity.
  - cbn [length] in Hk. destruct k as [|k]; [lia|]. rewrite unquote_other by lia. replace ((b =? 34) || (b <? 32)) with false by lia.
    replace (b <? 128) with false by lia. destruct (decode_rune (b :: s)) as [[c q]|] eqn:D; [|rewrite IH by lia; reflexivity].
    exfalso. assert (Hs : exists r, True /\ exists u, utf8_char c u /\ b :: s = u ++ r).
    { exists (skipn q (b :: s)). split; [exact I|]. exists (firstn q (b :: s)). split; [|symmetry; apply firstn_skipn].
      assert (F : Forall (fun x => 0 <= x) (firstn q (b :: s))).
      { apply Forall_forall. intros x0 Hx0. cbn [decode_rune] in D. replace (b <? 128) with false in D by lia. unfold cont in D.
        destruct ((194 <=? b) && (b <? 224)) eqn:C1; [destruct s as [|b1 s]; [discriminate|]; destruct (_ && _) eqn:C in D; [|discriminate]; injection D as _ <-; cbn in Hx0; lia|].
        destruct ((224 <=? b) && (b <? 240)) eqn:C2; [destruct s as [|b1 [|b2 s]]; try discriminate; destruct (_ && _) eqn:C in D; [|discriminate]; injection D as _ <-; cbn in Hx0; lia|].
        destruct ((240 <=? b) && (b <? 245)) eqn:C3; [|discriminate]. destruct s as [|b1 [|b2 [|b3 s]]]; try discriminate. destruct (_ && _) eqn:C in D; [|discriminate]. injection D as _ <-. cbn in Hx0. lia. }
      assert (D' : decode_rune (firstn q (b :: s)) = Some (c, q)).
      { revert D. cbn [decode_rune]. replace (b <? 128) with false by lia.
        destruct ((194 <=? b) && (b <? 224)) eqn:C1; [destruct s as [|b1 s]; [discriminate|]; destruct (cont b1) eqn:C; [|discriminate]; intros D; injection D as <- <-; cbn [firstn decode_rune]; replace (b <? 128) with false by lia; rewrite C1, C; reflexivity|].
        destruct ((224 <=? b) && (b <? 240)) eqn:C2; [destruct s as [|b1 [|b2 s]]; try discriminate; match goal with |- (if ?q then _ else _) = _ -> _ => destruct q eqn:C end; [|discriminate]; intros D; injection D as <- <-; cbn [firstn decode_rune]; replace (b <? 128) with false by lia; rewrite C1, C2, C; reflexivity|].
        destruct ((240 <=? b) && (b <? 245)) eqn:C3; [|discriminate]. destruct s as [|b1 [|b2 [|b3 s]]]; try discriminate. match goal with |- (if ?q then _ else _) = _ -> _ => destruct q eqn:C end; [|discriminate]. intros D; injection D as <- <-; cbn [firstn decode_rune]; replace (b <? 128) with false by lia; rewrite C1, C2, C3, C; reflexivity. }
      destruct (decode_utf8 _ _ _ F D') as (U & _ & _). rewrite firstn_firstn, Nat.min_id in U. exact U. }
    destruct Hs as (r & _ & u & Hu & Hr). exact (Hn c u r Hu Hr).
  - cbn [length] in Hk. destruct k as [|k]; [lia|]. cbn [unquote]. change (92 =? 92) with true. cbv iota.
    cbn [In] in Hi. repeat (destruct Hi as [Hi|Hi]; [injection Hi as <- <-; cbn [Z.eqb Pos.eqb orb]; rewrite IH by lia; reflexivity|]). destruct Hi.
  - pose proof (code_unit_range _ _ He) as Ru. inversion He as [w x y z a' b' c' d' A B C D]; subst. clear A B C D.
    cbn [app length] in *. destruct k as [|k]; [lia|]. cbn [unquote]. change (92 =? 92) with true. cbn [Z.eqb Pos.eqb orb].
    rewrite (proj2 (hex4_spec _ _ _ _ _) He). match goal with |- context [if ?q then _ else _] => replace q with false by lia end.
    rewrite IH by lia. cbn [option_map]. rewrite <- (utf8_char_rune _ _ Hb). reflexivity.
  - pose proof (code_unit_range _ _ He) as Ru. inversion He as [w x y z a' b' c' d' A B C D]; subst. clear A B C D.
    inversion Hf as [w1 x1 y1 z1 a1 b1 c1 d1 A B C D]; subst. clear A B C D.
    cbn [app length] in *. destruct k as [|k]; [lia|]. cbn [unquote]. change (92 =? 92) with true. cbn [Z.eqb Pos.eqb orb andb].
    rewrite (proj2 (hex4_spec _ _ _ _ _) He), (proj2 (hex4_spec _ _ _ _ _) Hf).
    match goal with |- context [if ?q then _ else _] => replace q with true by lia end. unfold surrogates.
    match goal with |- context [if ?q then _ else _] => replace q with true by lia end.
    rewrite IH by lia. cbn [option_map]. f_equal. f_equal.
    match goal with Hb : utf8_char ?q b |- encode_rune ?p = b => replace p with q by lia; symmetry; exact (utf8_char_rune _ _ Hb) end.
  - pose proof (code_unit_range _ _ He) as Ru. inversion He as [w x y z a' b' c' d' A B C D]; subst. clear A B C D.
    cbn [app length] in *. destruct k as [|k]; [lia|]. cbn [unquote]. change (92 =? 92) with true. cbn [Z.eqb Pos.eqb orb].
    rewrite (proj2 (hex4_spec _ _ _ _ _) He). match goal with |- context [if ?q then _ else _] => replace q with true by lia end.
    assert (G : option_map (app [239; 191; 189]) (unquote k s) = Some (replacement ++ n)) by (rewrite IH by lia; reflexivity).
    destruct s as [|x1 [|x2 [|x3 [|x4 [|x5 [|x6 r2]]]]]]; try exact G.
    destruct ((x1 =? 92) && (x2 =? 117)) eqn:Ex; [|exact G]. destruct (hex4 x3 x4 x5 x6) as [u'|] eqn:U'; [|exact G].
    destruct (surrogates _ u') as [p|] eqn:Sp; [|exact G]. exfalso. apply andb_true_iff in Ex. destruct Ex as [E1 E2]. apply Z.eqb_eq in E1, E2. subst x1 x2.
    apply hex4_spec in U'. apply (Hn _ _ r2 U' eq_refl). unfold surrogates in Sp. destruct (_ && _) eqn:C in Sp; [lia|discriminate].
Qed.
Lemma denotes_unq s n : denotes s n -> unq s = EOk n.
Proof. intros H. unfold unq, unquoted. rewrite (denotes_unquote s n H) by lia. reflexivity. Qed.
Lemma denotes_fun s n n' : denotes s n -> denotes s n' -> n = n'.
Proof. intros H H'. apply denotes_unq in H, H'. congruence. Qed.
