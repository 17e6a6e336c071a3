(** Facts about layout: json.Indent, and reading texts laid out in different ways. *)
From Coq Require Import ZArith String List Bool Lia ZifyBool.
From Verif Require Import Base SpecWire Prims PrimFacts Types Codec BinEnc BinDec Amino JsonText Json JsonIndent SpecNorm SpecJson SpecLayout
  JsonTextFacts.
Import ListNotations.
Local Open Scope Z_scope.
Local Open Scope amino_scope.

(** ** Indent *)

Section Indent.
  Variable prefix indent : bytes.
  Notation go := (indent_from prefix indent).
  Notation line := (line prefix indent).
  Notation lines := (lines prefix indent).
  Notation laid := (laid_out prefix indent).

  (** Plain bytes outside strings are copied. *)
  Definition plain (b : Z) : Prop := is_ws b = false /\ b <> 34 /\ b <> 123 /\ b <> 125 /\ b <> 91 /\ b <> 93 /\ b <> 44 /\ b <> 58.
  Lemma go_plain : forall v d st r, Forall plain v -> v <> [] -> go (v ++ r) d false st false false = v ++ go r d false true false false.
  Proof.
    assert (G : forall v d st r b, plain b -> go ((b :: v) ++ r) d false st false false = b :: go (v ++ r) d false true false false).
    { intros v d st r b (Hw & H). cbn [app indent_from]. rewrite Hw. cbn [andb].
      replace (b =? 123) with false by lia. replace (b =? 91) with false by lia. replace (b =? 44) with false by lia.
      replace (b =? 58) with false by lia. replace (b =? 125) with false by lia. replace (b =? 93) with false by lia. cbn [orb app].
      replace (b =? 34) with false by lia. reflexivity. }
    intros v d st r H Hn. destruct H as [|b v Hb Hv]; [contradiction|]. rewrite G by exact Hb. cbn [app]. f_equal.
    clear b Hb Hn. induction Hv as [|b v Hb Hv IH]; [reflexivity|]. rewrite G by exact Hb. cbn [app]. f_equal. exact IH.
  Qed.
  (** So are strings. *)
  Lemma go_chars s : jchars s -> forall d st r, go (s ++ 34 :: r) d false st true false = s ++ 34 :: go r d false st false false.
  Proof.
    induction 1 as [|b s H1 H2 H3 Hs IH|e s He Hs IH|w x y z s Hw Hx Hy Hz Hs IH]; intros d st r.
    - reflexivity.
    - cbn [app indent_from]. replace (b =? 92) with false by lia. replace (b =? 34) with false by lia. cbn [negb]. rewrite IH. reflexivity.
    - cbn [app indent_from Z.eqb Pos.eqb]. rewrite IH. reflexivity.
    - cbn [app indent_from Z.eqb Pos.eqb].
      assert (Q : forall h, hexdigit h -> (h =? 92) = false /\ (h =? 34) = false) by (unfold hexdigit; lia).
      destruct (Q w Hw) as [-> ->], (Q x Hx) as [-> ->], (Q y Hy) as [-> ->], (Q z Hz) as [-> ->]. cbn [negb]. rewrite IH. reflexivity.
  Qed.
  Lemma go_string s : jchars s -> forall d st r,
    go ((34 :: s ++ [34]) ++ r) d false st false false = (34 :: s ++ [34]) ++ go r d false true false false.
  Proof.
    intros Hs d st r. cbn [app indent_from is_ws Z.eqb Pos.eqb orb andb]. rewrite <- app_assoc. cbn [app]. rewrite go_chars by exact Hs.
    rewrite <- app_assoc. reflexivity.
  Qed.
  Lemma go_spaces : forall w d need st r, spaces w -> (d <> 0%nat \/ need = true) -> go (w ++ r) d need st false false = go r d need st false false.
  Proof.
    intros w d need st r Hw Hd. induction Hw as [|b w Hb Hw IH]; [reflexivity|]. cbn [app indent_from].
    rewrite (proj2 (is_ws_ok b) Hb). replace (st && (d =? 0)%nat && negb need) with false; [exact IH|].
    destruct Hd as [Hd| ->]; [|destruct st, (d =? 0)%nat; reflexivity].
    replace (d =? 0)%nat with false by (symmetry; apply Nat.eqb_neq; exact Hd). destruct st; reflexivity.
  Qed.
  (** The first byte inside brackets. *)
  Lemma go_enter x t d st : ~ space x -> x <> 93 -> x <> 125 ->
    go (x :: t) d true st false false = line (S d) ++ go (x :: t) (S d) false true false false.
  Proof.
    intros Hx H1 H2. assert (W : is_ws x = false) by (destruct (is_ws x) eqn:E; [apply is_ws_ok in E; contradiction|reflexivity]).
    cbn [indent_from]. rewrite W. replace (x =? 125) with false by lia. replace (x =? 93) with false by lia. cbn [orb andb negb].
    change (newline prefix indent (S d)) with (line (S d)).
    destruct ((x =? 123) || (x =? 91)); [reflexivity|]. destruct (x =? 44); [reflexivity|]. destruct (x =? 58); reflexivity.
  Qed.
  Lemma go_leave x d st r : x = 93 \/ x = 125 -> go (x :: r) (S d) false st false false = line d ++ x :: go r d false true false false.
  Proof. intros [-> | ->]; reflexivity. Qed.
  Lemma go_comma d st r : go (44 :: r) d false st false false = 44 :: line d ++ go r d false true false false.
  Proof. reflexivity. Qed.
  Lemma go_colon d st r : go (58 :: r) d false st false false = 58 :: 32 :: go r d false true false false.
  Proof. reflexivity. Qed.

  Lemma number_plain n : jnumber n -> Forall plain n /\ n <> [].
  Proof.
    intros H. split.
    - assert (Q : forall b, digit b \/ b = 45 \/ b = 43 \/ b = 46 \/ b = 101 \/ b = 69 -> plain b) by (unfold plain, is_ws, digit; lia).
      assert (D : forall d, Forall digit d -> Forall plain d) by (intros d; apply Forall_impl; intros; apply Q; tauto).
      destruct H as [m i f e Hm Hi Hf He]. repeat rewrite Forall_app. splits.
      + destruct Hm as [-> | ->]; [constructor|]. constructor; [|constructor]. apply Q. lia.
      + destruct Hi as [-> |(x & r & -> & Hx & _ & Hr)]; [constructor; [|constructor]; apply Q; unfold digit; lia|constructor; [apply Q; tauto|apply D, Hr]].
      + destruct Hf as [-> |(r & -> & _ & Hr)]; [constructor|constructor; [apply Q; lia|apply D, Hr]].
      + destruct He as [-> |(x & g & r & -> & Hx & Hg & _ & Hr)]; [constructor|]. constructor; [apply Q; lia|]. apply Forall_app. split; [|apply D, Hr].
        destruct Hg as [-> |[-> | ->]]; [constructor| |]; (constructor; [apply Q; lia|constructor]).
    - destruct (jnumber_head n H) as (x & t & -> & _). discriminate.
  Qed.
  Lemma go_word w : Forall plain w -> w <> [] -> forall d st r, go (w ++ r) d false st false false = w ++ go r d false true false false.
  Proof. intros H Hn d st r. apply go_plain; assumption. Qed.

  Definition indents (v : bytes) : Prop := forall d, exists v', laid d v v' /\
    forall st r, go (v ++ r) d false st false false = v' ++ go r d false true false false.

  Lemma lines_cons d v l : l <> [] -> lines d (v :: l) = line d ++ v ++ 44 :: lines d l.
  Proof. destruct l; [contradiction|reflexivity]. Qed.

  Lemma indent_grammar :
    (forall v, jtext v -> indents v) /\
    (forall l b, jarray l b -> indents b) /\
    (forall l b, jelems l b -> l <> [] /\ forall d, exists l', Forall2 (laid d) l l' /\ l' <> [] /\ d = d /\
       (d <> 0%nat -> forall r, exists x t, b ++ 93 :: r = x ++ t /\ spaces x /\ 
          line d ++ go t d false true false false = lines d l' ++ go (93 :: r) d false true false false /\
          exists y u, t = y :: u /\ ~ space y /\ y <> 93 /\ y <> 125)) /\
    (forall l b, jobject l b -> indents b) /\
    (forall l b, jmembers l b -> l <> [] /\ forall d, exists l', Forall2 (fun m m' => fst m = fst m' /\ laid d (snd m) (snd m')) l l' /\ l' <> [] /\ d = d /\
       (d <> 0%nat -> forall r, exists x t, b ++ 125 :: r = x ++ t /\ spaces x /\ 
          line d ++ go t d false true false false = lines d (map item l') ++ go (125 :: r) d false true false false /\
          exists y u, t = y :: u /\ ~ space y /\ y <> 93 /\ y <> 125)).
  Proof.
    assert (P : forall w, w = bs "null" \/ w = bs "true" \/ w = bs "false" -> Forall plain w /\ w <> []).
    { intros w [-> |[-> | ->]]; (split; [|discriminate]); cbv; repeat (apply Forall_cons; [splits; try lia; reflexivity|]); apply Forall_nil. }
    apply json_grammar.
    - intros d. exists (bs "null"). split; [constructor|]. intros st r. apply go_word; apply P; tauto.
    - intros d. exists (bs "true"). split; [constructor|]. intros st r. apply go_word; apply P; tauto.
    - intros d. exists (bs "false"). split; [constructor|]. intros st r. apply go_word; apply P; tauto.
    - intros n Hn d. exists n. split; [constructor; exact Hn|]. intros st r. apply go_word; apply number_plain, Hn.
    - intros s Hs d. eexists. split; [constructor; exact Hs|]. intros st r. apply go_string, Hs.
    - intros l b _ IH. exact IH.
    - intros l b _ IH. exact IH.
    - intros w Hw d. exists (bs "[]"). split; [apply lo_array_empty; constructor; exact Hw|]. intros st r.
      cbn [app indent_from is_ws Z.eqb Pos.eqb orb andb]. rewrite <- app_assoc. rewrite go_spaces by tauto. reflexivity.
    - intros l b Hb [Hn IH] d. destruct (IH (S d)) as (l' & Hl & Hn' & _ & G). exists (91 :: lines (S d) l' ++ line d ++ [93]).
      split; [apply (lo_array _ _ d l l' (91 :: b ++ [93])); [constructor; exact Hb|exact Hn|exact Hl]|]. intros st r.
      cbn [app indent_from is_ws Z.eqb Pos.eqb orb andb]. rewrite <- !app_assoc. cbn [app]. f_equal.
      destruct (G ltac:(discriminate) r) as (x & t & E & Hx & Eg & y & u & -> & Hy & N1 & N2). rewrite E, go_spaces by tauto.
      rewrite go_enter by assumption. rewrite Eg, go_leave by tauto. rewrite <- ?app_assoc. reflexivity.
    - intros w v w' Hw Hv IH Hw'. split; [discriminate|]. intros d. destruct (IH d) as (v' & Lv & Gv). exists [v'].
      split; [repeat constructor; exact Lv|]. split; [discriminate|]. split; [reflexivity|]. intros Hd r. exists w, (v ++ w' ++ 93 :: r).
      split; [rewrite <- !app_assoc; reflexivity|]. split; [exact Hw|]. split.
      + rewrite Gv, go_spaces by tauto. cbn [SpecLayout.lines]. rewrite <- app_assoc. reflexivity.
      + destruct (jtext_head v Hv) as (y & u & -> & Hy & N). exists y, (u ++ w' ++ 93 :: r). split; [reflexivity|]. split; [exact Hy|lia].
    - intros w v w' l b Hw Hv IH Hw' Hb [Hn IHb]. split; [discriminate|]. intros d. destruct (IH d) as (v' & Lv & Gv).
      destruct (IHb d) as (l' & Hl & Hn' & _ & G). exists (v' :: l'). split; [constructor; assumption|]. split; [discriminate|]. split; [reflexivity|].
      intros Hd r. exists w, (v ++ w' ++ 44 :: b ++ 93 :: r).
      split; [rewrite <- !app_assoc; reflexivity|]. split; [exact Hw|]. split.
      + rewrite Gv, go_spaces, go_comma by tauto. destruct (G Hd r) as (x & t & E & Hx & Eg & _).
        rewrite E, go_spaces by tauto. rewrite Eg, lines_cons by exact Hn'. rewrite <- !app_assoc. reflexivity.
      + destruct (jtext_head v Hv) as (y & u & -> & Hy & N). eexists y, _. split; [reflexivity|]. split; [exact Hy|lia].
    - intros w Hw d. exists (bs "{}"). split; [apply lo_object_empty; constructor; exact Hw|]. intros st r.
      cbn [app indent_from is_ws Z.eqb Pos.eqb orb andb]. rewrite <- app_assoc. rewrite go_spaces by tauto. reflexivity.
    - intros l b Hb [Hn IH] d. destruct (IH (S d)) as (l' & Hl & Hn' & _ & G). exists (123 :: lines (S d) (map item l') ++ line d ++ [125]).
      split; [apply (lo_object _ _ d l l' (123 :: b ++ [125])); [constructor; exact Hb|exact Hn|exact Hl]|]. intros st r.
      cbn [app indent_from is_ws Z.eqb Pos.eqb orb andb]. rewrite <- !app_assoc. cbn [app]. f_equal.
      destruct (G ltac:(discriminate) r) as (x & t & E & Hx & Eg & y & u & -> & Hy & N1 & N2). rewrite E, go_spaces by tauto.
      rewrite go_enter by assumption. rewrite Eg, go_leave by tauto. rewrite <- ?app_assoc. reflexivity.
    - intros w k w1 w2 v w' Hw Hk Hw1 Hw2 Hv IH Hw'. split; [discriminate|]. intros d. destruct (IH d) as (v' & Lv & Gv). exists [(k, v')].
      split; [constructor; [split; [reflexivity|exact Lv]|constructor]|]. split; [discriminate|]. split; [reflexivity|].
      intros Hd r. exists w, (34 :: k ++ 34 :: w1 ++ 58 :: w2 ++ v ++ w' ++ 125 :: r).
      split; [repeat (rewrite <- ?app_assoc; cbn [app]); reflexivity|]. split; [exact Hw|]. split.
      + replace (34 :: k ++ 34 :: w1 ++ 58 :: w2 ++ v ++ w' ++ 125 :: r) with ((34 :: k ++ [34]) ++ w1 ++ 58 :: w2 ++ v ++ w' ++ 125 :: r)
          by (repeat (rewrite <- ?app_assoc; cbn [app]); reflexivity).
        rewrite go_string, go_spaces, go_colon, go_spaces, Gv, go_spaces by tauto. cbn [SpecLayout.lines map]. unfold item. cbn [fst snd].
        repeat (rewrite <- ?app_assoc; cbn [app]). reflexivity.
      + exists 34. eexists. split; [reflexivity|]. unfold space. lia.
    - intros w k w1 w2 v w' l b Hw Hk Hw1 Hw2 Hv IH Hw' Hb [Hn IHb]. split; [discriminate|]. intros d. destruct (IH d) as (v' & Lv & Gv).
      destruct (IHb d) as (l' & Hl & Hn' & _ & G). exists ((k, v') :: l').
      split; [constructor; [split; [reflexivity|exact Lv]|exact Hl]|]. split; [discriminate|]. split; [reflexivity|].
      intros Hd r. exists w, (34 :: k ++ 34 :: w1 ++ 58 :: w2 ++ v ++ w' ++ 44 :: b ++ 125 :: r).
      split; [repeat (rewrite <- ?app_assoc; cbn [app]); reflexivity|]. split; [exact Hw|]. split.
      + replace (34 :: k ++ 34 :: w1 ++ 58 :: w2 ++ v ++ w' ++ 44 :: b ++ 125 :: r) with ((34 :: k ++ [34]) ++ w1 ++ 58 :: w2 ++ v ++ w' ++ 44 :: b ++ 125 :: r)
          by (repeat (rewrite <- ?app_assoc; cbn [app]); reflexivity).
        rewrite go_string, go_spaces, go_colon, go_spaces, Gv, go_spaces, go_comma by tauto. destruct (G Hd r) as (x & t & E & Hx & Eg & _).
        rewrite E, go_spaces by tauto. rewrite Eg. cbn [map]. rewrite lines_cons by (destruct l'; [contradiction|discriminate]). unfold item at 2. cbn [fst snd].
        repeat (rewrite <- ?app_assoc; cbn [app]). reflexivity.
      + exists 34. eexists. split; [reflexivity|]. unfold space. lia.
  Qed.
  Lemma indent_ok v : jtext v -> exists v', laid 0 v v' /\ json_indent v prefix indent = EOk v'.
  Proof.
    intros H. destruct indent_grammar as (G & _). destruct (G v H 0%nat) as (v' & L & E). exists v'. split; [exact L|].
    unfold json_indent. specialize (E false []). rewrite !app_nil_r in E. cbn [indent_from] in E. rewrite ?app_nil_r in E. rewrite E.
    assert (T : exists j, json_top v = Some j).
    { destruct scan_grammar as (SG & _). destruct (SG v H (length v) [] ltac:(lia) I) as (j & Ej). rewrite app_nil_r in Ej.
      destruct (jtext_head v H) as (x & t & Ev & Nx & _). exists j. unfold json_top.
      assert (Es : skip_ws v = v) by (rewrite Ev; apply skip_here; exact Nx). rewrite Es, Ej. reflexivity. }
    destruct T as (j & ->). reflexivity.
  Qed.
End Indent.

(** A text laid out with white space is the same text. *)
Section Spaces.
  Variable prefix indent : bytes.
  Hypothesis Hp : spaces prefix.
  Hypothesis Hi : spaces indent.

  Lemma line_spaces d : spaces (line prefix indent d).
  Proof.
    unfold line. constructor; [unfold space; tauto|]. apply Forall_app. split; [exact Hp|]. induction d as [|d IH]; [constructor|].
    cbn [repeat concat]. apply Forall_app. split; [exact Hi|exact IH].
  Qed.
  Lemma lines_elems d w l : spaces w -> Forall jtext l -> l <> [] -> jelems l (lines prefix indent d l ++ w).
  Proof.
    intros Hw H Hn. induction H as [|v l Hv H IH]; [contradiction|]. destruct l as [|v1 l].
    - cbn [lines]. rewrite <- app_assoc. apply jl_one; [apply line_spaces|exact Hv|exact Hw].
    - rewrite lines_cons by discriminate. rewrite <- !app_assoc. cbn [app].
      apply (jl_cons (line prefix indent d) v [] (v1 :: l)); [apply line_spaces|exact Hv|constructor|apply IH; discriminate].
  Qed.
  Lemma lines_members d w l : spaces w -> Forall (fun m => jchars (fst m) /\ jtext (snd m)) l -> l <> [] ->
    jmembers l (lines prefix indent d (map item l) ++ w).
  Proof.
    intros Hw H Hn. assert (S1 : spaces [32]) by (constructor; [unfold space; tauto|constructor]).
    induction H as [|[k v] l [Hk Hv] H IH]; [contradiction|]. cbn [fst snd] in *. destruct l as [|m1 l].
    - cbn [lines map]. unfold item. cbn [fst snd]. repeat (rewrite <- ?app_assoc; cbn [app]).
      apply (jm_one (line prefix indent d) k [] [32] v w); [apply line_spaces|exact Hk|constructor|exact S1|exact Hv|exact Hw].
    - cbn [map] in *. rewrite lines_cons by discriminate. unfold item at 1. cbn [fst snd]. repeat (rewrite <- ?app_assoc; cbn [app]).
      apply (jm_cons (line prefix indent d) k [] [32] v [] (m1 :: l)); [apply line_spaces|exact Hk|constructor|exact S1|exact Hv|constructor|].
      apply IH. discriminate.
  Qed.
  Lemma jelems_texts l b : jelems l b -> Forall jtext l.
  Proof. induction 1; constructor; auto. Qed.
  Lemma jarray_texts l b : jarray l b -> Forall jtext l.
  Proof. intros [w Hw|l' b' H]; [constructor|apply (jelems_texts _ _ H)]. Qed.
  Lemma jmembers_texts l b : jmembers l b -> Forall (fun m => jchars (fst m) /\ jtext (snd m)) l.
  Proof. induction 1; constructor; auto. Qed.
  Lemma jobject_texts l b : jobject l b -> Forall (fun m => jchars (fst m) /\ jtext (snd m)) l.
  Proof. intros [w Hw|l' b' H]; [constructor|apply (jmembers_texts _ _ H)]. Qed.
End Spaces.

Fixpoint respaced_texts v v' (H : respaced v v') {struct H} : jtext v /\ jtext v'.
Proof.
  destruct H as [| | |n Hn|s Hs|l l' b b' Hb Hb' Hl|l l' b b' Hb Hb' Hl].
  - split; apply jt_null.
  - split; apply jt_true.
  - split; apply jt_false.
  - split; apply jt_number, Hn.
  - split; apply jt_string, Hs.
  - split; [apply (jt_array _ _ Hb)|apply (jt_array _ _ Hb')].
  - split; [apply (jt_object _ _ Hb)|apply (jt_object _ _ Hb')].
Qed.
Lemma laid_respaced prefix indent : spaces prefix -> spaces indent -> forall n v, (length v <= n)%nat -> forall d v', laid_out prefix indent d v v' -> respaced v v'.
Proof.
  intros Hp Hi. induction n as [|n IH]; intros v Hv d v' H.
  { exfalso. destruct H as [d|d|d|d m Hm|d s Hs|d b Hb|d l l' b Hb Hn Hl|d b Hb|d l l' b Hb Hn Hl]; try (cbn in Hv; lia);
      try (destruct Hb; cbn [length] in Hv; lia). destruct (jnumber_head m Hm) as (x & t & -> & _). cbn [length] in Hv. lia. }
  destruct H as [d|d|d|d m Hm|d s Hs|d b Hb|d l l' b Hb Hn Hl|d b Hb|d l l' b Hb Hn Hl].
  - apply rs_null.
  - apply rs_true.
  - apply rs_false.
  - apply rs_number, Hm.
  - apply rs_string, Hs.
  - apply (rs_array [] [] b (bs "[]")); [exact Hb|apply (ja_empty []); constructor|constructor].
  - assert (Q : Forall2 respaced l l').
    { assert (L : Forall (fun v => (length v <= n)%nat) l).
      { destruct Hb as [w Hw|l b Hb]; [constructor|]. cbn [length] in Hv. rewrite app_length in Hv. cbn [length] in Hv.
        assert (Hv' : (length b <= n)%nat) by lia. clear - Hb Hv'. induction Hb as [w v w' H1 H2 H3|w v w' l b H1 H2 H3 H4 IH].
        - constructor; [|constructor]. repeat rewrite app_length in Hv'. lia.
        - repeat rewrite app_length in Hv'. cbn [length] in Hv'. constructor; [lia|apply IH; lia]. }
      clear - IH L Hl. induction Hl as [|v v' l l' Hv Hl IHl]; [constructor|]. inversion L; subst. constructor; [eapply IH; eassumption|auto]. }
    apply (rs_array l l' b); [exact Hb| |exact Q]. rewrite app_assoc. apply ja_elems. apply lines_elems; try assumption.
    + apply line_spaces; assumption.
    + clear - Q. induction Q; constructor; [apply (respaced_texts _ _ H)|assumption].
    + destruct Hl; [contradiction|discriminate].
  - apply (rs_object [] [] b (bs "{}")); [exact Hb|apply (jo_empty []); constructor|constructor].
  - assert (Q : Forall2 (fun m m' => fst m = fst m' /\ respaced (snd m) (snd m')) l l').
    { assert (L : Forall (fun m => (length (snd m) <= n)%nat) l).
      { destruct Hb as [w Hw|l b Hb]; [constructor|]. cbn [length] in Hv. rewrite app_length in Hv. cbn [length] in Hv.
        assert (Hv' : (length b <= n)%nat) by lia. clear - Hb Hv'. induction Hb as [w k w1 w2 v w' H1 H2 H3 H4 H5 H6|w k w1 w2 v w' l b H1 H2 H3 H4 H5 H6 H7 IH];
          repeat (rewrite app_length in Hv'; cbn [length] in Hv').
        - constructor; [|constructor]. cbn [snd]. lia.
        - constructor; [cbn [snd]; lia|apply IH; lia]. }
      clear - IH L Hl. induction Hl as [|m m' l l' [Hk Hm] Hl IHl]; [constructor|]. inversion L; subst. constructor; [split; [exact Hk|eapply IH; eassumption]|auto]. }
    apply (rs_object l l' b); [exact Hb| |exact Q]. rewrite app_assoc. apply jo_members. apply lines_members; try assumption.
    + apply line_spaces; assumption.
    + pose proof (jobject_texts _ _ Hb) as J. clear - Q J. induction Q as [|m m' l l' [E R] Q IH]; constructor.
      * inversion J as [|? ? [Jk Jv] J']; subst. split; [congruence|apply (respaced_texts _ _ R)].
      * apply IH. inversion J; assumption.
    + destruct Hl; [contradiction|discriminate].
Qed.

(** ** Reading *)

(** The first levels of two layouts. *)
Inductive top_same : jtop -> jtop -> Prop :=
| ts_null : top_same JNull JNull
| ts_bool b : top_same (JBool b) (JBool b)
| ts_num n : top_same (JNum n) (JNum n)
| ts_str s : top_same (JStr s) (JStr s)
| ts_arr l l' : Forall2 respaced l l' -> top_same (JArr l) (JArr l')
| ts_obj l l' : Forall2 (fun m m' => fst m = fst m' /\ respaced (snd m) (snd m')) l l' -> top_same (JObj l) (JObj l').
Lemma respaced_top b b' : respaced b b' -> exists j j', json_top b = Some j /\ json_top b' = Some j' /\ top_same j j'.
Proof.
  intros [| | |n Hn|s Hs|l l' v v' Hv Hv' Hl|l l' v v' Hv Hv' Hl].
  - exists JNull, JNull. splits; try (apply top_ok; reflexivity). constructor.
  - exists (JBool true), (JBool true). splits; try (apply top_ok; reflexivity). constructor.
  - exists (JBool false), (JBool false). splits; try (apply top_ok; reflexivity). constructor.
  - exists (JNum n), (JNum n). splits; try (apply top_ok; split; [reflexivity|exact Hn]). constructor.
  - exists (JStr s), (JStr s). splits; try (apply top_ok; split; [reflexivity|exact Hs]). constructor.
  - exists (JArr l), (JArr l'). splits; [apply top_ok; exact Hv|apply top_ok; exact Hv'|constructor; exact Hl].
  - exists (JObj l), (JObj l'). splits; [apply top_ok; exact Hv|apply top_ok; exact Hv'|constructor; exact Hl].
Qed.
Lemma with_top_same {A} b b' (f g : jtop -> eres A) : respaced b b' -> (forall j j', top_same j j' -> f j = g j') -> with_top b f = with_top b' g.
Proof. intros H F. destruct (respaced_top b b' H) as (j & j' & E & E' & T). unfold with_top. rewrite E, E'. apply F, T. Qed.

(** Both are the same bytes, or both start with a bracket. *)
Lemma respaced_shape b b' : respaced b b' -> b = b' \/ exists x t t', b = x :: t /\ b' = x :: t' /\ (x = 91 \/ x = 123).
Proof.
  intros [| | |n Hn|s Hs|l l' v v' Hv Hv' Hl|l l' v v' Hv Hv' Hl]; try (left; reflexivity); right.
  - exists 91. destruct Hv, Hv'; eexists; eexists; (split; [reflexivity|split; [reflexivity|tauto]]).
  - exists 123. destruct Hv, Hv'; eexists; eexists; (split; [reflexivity|split; [reflexivity|tauto]]).
Qed.

Section Reading.
  Variable env : tenv.
  Variable je : jenv.
  Variable c : codec.
  Hypothesis Hje : forall id g b b' w, je_unmarshal je id = Some g -> respaced b b' -> g b w = g b' w.

  Lemma raw_list_same b b' : respaced b b' ->
    raw_list b = raw_list b' \/ exists l l', raw_list b = EOk l /\ raw_list b' = EOk l' /\ Forall2 respaced l l'.
  Proof.
    intros H. destruct (respaced_top b b' H) as (j & j' & E & E' & T). unfold raw_list, with_top. rewrite E, E'.
    destruct T as [|x|n|s|l l' F|l l' F]; try (left; reflexivity). right. exists l, l'. splits; [reflexivity|reflexivity|exact F].
  Qed.
  Definition msame (m m' : bytes * bytes) : Prop := fst m = fst m' /\ respaced (snd m) (snd m').
  Lemma put_same k raw raw' m m' : respaced raw raw' -> Forall2 msame m m' -> Forall2 msame (map_put k raw m) (map_put k raw' m').
  Proof.
    intros Hr. induction 1 as [|[x r] [x' r'] l l' [E R] F IH]; cbn [map_put fst snd] in *.
    - constructor; [split; [reflexivity|exact Hr]|constructor].
    - subst x'. destruct (beqb x k); constructor; try assumption; split; try reflexivity; assumption.
  Qed.
  Lemma fill_same l l' : Forall2 msame l l' -> forall m m', Forall2 msame m m' ->
    match fill_map l m, fill_map l' m' with EOk a, EOk a' => Forall2 msame a a' | r, r' => r = r' end.
  Proof.
    induction 1 as [|[k raw] [k' raw'] l l' [E R] F IH]; intros m m' Hm; cbn [fill_map fst snd] in *; [exact Hm|]. subst k'.
    destruct (unq k); cbn [ebind]; try reflexivity. apply IH. apply put_same; assumption.
  Qed.
  Lemma raw_map_same b b' : respaced b b' ->
    match raw_map b, raw_map b' with EOk a, EOk a' => Forall2 msame a a' | r, r' => r = r' end.
  Proof.
    intros H. destruct (respaced_top b b' H) as (j & j' & E & E' & T). unfold raw_map, with_top. rewrite E, E'.
    destruct T as [|x|n|s|l l' F|l l' F]; try reflexivity; [constructor|]. apply fill_same; [exact F|constructor].
  Qed.
  Lemma fill_wrapper_same l l' : Forall2 msame l l' -> forall w w', wr_name w = wr_name w' -> wr_bad w = wr_bad w' ->
    (wr_data w = wr_data w' \/ respaced (wr_data w) (wr_data w')) ->
    match fill_wrapper l w, fill_wrapper l' w' with
    | EOk a, EOk a' => wr_name a = wr_name a' /\ wr_bad a = wr_bad a' /\ (wr_data a = wr_data a' \/ respaced (wr_data a) (wr_data a'))
    | r, r' => r = r'
    end.
  Proof.
    induction 1 as [|[k raw] [k' raw'] l l' [E R] F IH]; intros w w' H1 H2 H3; cbn [fill_wrapper fst snd] in *; [auto|]. subst k'.
    destruct (unq k) as [kk|e|p|]; cbn [ebind]; try reflexivity. destruct (beqb (map lower kk) (bs "type")).
    - destruct (respaced_top raw raw' R) as (j & j' & -> & -> & T). destruct T as [|x|n|s|a a' Fa|a a' Fa];
        try (apply IH; cbn [wr_name wr_bad wr_data]; auto; fail).
      destruct (unq s); cbn [ebind]; try reflexivity. apply IH; cbn [wr_name wr_bad wr_data]; auto.
    - destruct (beqb (map lower kk) (bs "value")); [apply IH; cbn [wr_name wr_bad wr_data]; auto|apply IH; auto].
  Qed.
  Lemma wrapper_same b b' : respaced b b' ->
    match decode_wrapper b, decode_wrapper b' with
    | EOk a, EOk a' => fst a = fst a' /\ (snd a = snd a' \/ respaced (snd a) (snd a'))
    | r, r' => r = r'
    end.
  Proof.
    intros H. unfold decode_wrapper, raw_wrapper, with_top. destruct (respaced_top b b' H) as (j & j' & -> & -> & T).
    destruct T as [|x|n|s|l l' F|l l' F]; try reflexivity.
    pose proof (fill_wrapper_same l l' F {| wr_name := []; wr_data := []; wr_bad := false |} {| wr_name := []; wr_data := []; wr_bad := false |}
      eq_refl eq_refl (or_introl eq_refl)) as G.
    destruct (fill_wrapper l _) as [w|e|p|]; destruct (fill_wrapper l' _) as [w'|e'|p'|]; cbn [ebind]; try discriminate G; try (injection G as <-; reflexivity); try reflexivity.
    destruct G as (G1 & G2 & G3). rewrite <- G2. destruct (wr_bad w); [reflexivity|]. cbn [ebind]. rewrite <- G1. destruct (wr_name w) as [|x nm]; [reflexivity|].
    destruct G3 as [<- |R].
    - destruct (wr_data w); [reflexivity|]. cbn [fst snd]. auto.
    - destruct (respaced_texts _ _ R) as [R1 R2]. destruct (jtext_head _ R1) as (y & u & Ey & _). destruct (jtext_head _ R2) as (y' & u' & Ey' & _).
      rewrite Ey in *. rewrite Ey' in *. cbn [fst snd]. auto.
  Qed.
  Lemma byte_elems_same l l' : Forall2 respaced l l' -> forall old, byte_elems l old = byte_elems l' old.
  Proof.
    induction 1 as [|b b' l l' R F IH]; intros old; [reflexivity|]. cbn [byte_elems]. rewrite IH. f_equal.
    apply with_top_same; [exact R|]. intros j j' [|x|n|s|a a' Fa|a a' Fa]; reflexivity.
  Qed.
  Lemma raw_bytes_same b b' old : respaced b b' -> raw_bytes b old = raw_bytes b' old.
  Proof.
    intros H. unfold raw_bytes. apply with_top_same; [exact H|]. intros j j' [|x|n|s|a a' Fa|a a' Fa]; try reflexivity. apply byte_elems_same, Fa.
  Qed.
  Lemma prim_same p b b' o : respaced b b' -> unjson_prim je p b o = unjson_prim je p b' o.
  Proof.
    intros H. pose proof (respaced_shape b b' H) as Q.
    destruct p; cbn [unjson_prim]; try (destruct (fo_unsafe o); [|reflexivity]);
      try (apply with_top_same; [exact H|]; intros j j' [|y|n|s|a a' Fa|a a' Fa]; reflexivity);
      destruct Q as [-> |(x & t & t' & -> & -> & [-> | ->])]; reflexivity.
  Qed.
  Lemma time_same b b' : respaced b b' -> time_text b = time_text b' /\ (time_text b = true -> b = b').
  Proof.
    intros H. destruct (respaced_shape b b' H) as [-> |(x & t & t' & -> & -> & [-> | ->])]; [auto| |];
      unfold time_text; cbn [nth Z.eqb Pos.eqb]; rewrite !andb_false_r; cbn [andb]; auto; (split; [reflexivity|discriminate]).
  Qed.
  Lemma null_same b b' : respaced b b' -> beqb b null = beqb b' null.
  Proof. intros H. destruct (respaced_shape b b' H) as [-> |(x & t & t' & -> & -> & [-> | ->])]; reflexivity. Qed.

  Section Rec.
    Variable rec : bytes -> tinfo -> gotype -> value -> fopts -> eres value.
    Hypothesis Hrec : forall b b' i t v o, respaced b b' -> rec b i t v o = rec b' i t v o.
    Lemma elems_same i t l l' : Forall2 respaced l l' -> forall vs o, unjson_elems rec i t l vs o = unjson_elems rec i t l' vs o.
    Proof.
      induction 1 as [|b b' l l' R F IH]; intros vs o; [reflexivity|]. destruct vs as [|v vs]; [reflexivity|]. cbn [unjson_elems].
      rewrite (Hrec b b') by exact R. rewrite IH. reflexivity.
    Qed.
    Lemma assoc_same k m m' : Forall2 msame m m' ->
      match assoc beqb k m, assoc beqb k m' with Some b, Some b' => respaced b b' | r, r' => r = r' end.
    Proof.
      induction 1 as [|[x r] [x' r'] l l' [E R] F IH]; cbn [assoc fst snd] in *; [reflexivity|]. subst x'. destruct (beqb k x); [exact R|exact IH].
    Qed.
    Lemma fields_same fs : forall m m' l o, Forall2 msame m m' -> unjson_fields env c rec fs m l o = unjson_fields env c rec fs m' l o.
    Proof.
      induction fs as [|f fs IH]; intros m m' l o Hm; [reflexivity|]. cbn [unjson_fields]. destruct (get_type_info env c (fi_type f)); cbn [ebind]; try reflexivity.
      pose proof (assoc_same (fo_json_name (fi_opts f)) m m' Hm) as A.
      destruct (assoc beqb (fo_json_name (fi_opts f)) m) as [b|], (assoc beqb (fo_json_name (fi_opts f)) m') as [b'|]; try discriminate A.
      - destruct (respaced_texts _ _ A) as [A1 A2]. destruct (jtext_head _ A1) as (y & u & -> & _). destruct (jtext_head _ A2) as (y' & u' & -> & _).
        rewrite (Hrec _ _ _ _ _ _ A). destruct (rec (y' :: u') _ _ _ _); cbn [ebind]; try reflexivity. apply IH, Hm.
      - apply IH, Hm.
    Qed.
    Lemma members_same kt vt i m m' : Forall2 msame m m' -> forall o, unjson_members env rec kt vt i m o = unjson_members env rec kt vt i m' o.
    Proof.
      induction 1 as [|[x r] [x' r'] l l' [E R] F IH]; intros o; [reflexivity|]. cbn [fst snd unjson_members] in *. subst x'.
      rewrite (Hrec r r') by exact R. rewrite IH. reflexivity.
    Qed.
    Lemma iface_same ii b b' o : respaced b b' -> unjson_interface env c rec ii b o = unjson_interface env c rec ii b' o.
    Proof.
      intros H. unfold unjson_interface. pose proof (wrapper_same b b' H) as W.
      destruct (decode_wrapper b) as [a|e|p|], (decode_wrapper b') as [a'|e'|p'|]; cbn [ebind]; try discriminate W; try (injection W as <-; reflexivity); try reflexivity.
      destruct W as [<- W]. destruct (type_info_from_name c (fst a)) as [ci|e|p|]; cbn [ebind]; try reflexivity.
      assert (E : forall i t v, rec (snd a) i t v o = rec (snd a') i t v o) by (intros; destruct W as [<- |W]; [reflexivity|apply Hrec, W]).
      rewrite E. reflexivity.
    Qed.
    Lemma switch_same i b b' v o : respaced b b' -> unjson_switch env je c rec i b v o = unjson_switch env je c rec i b' v o.
    Proof.
      intros H. unfold unjson_switch. destruct (resolve env (ti_type i)) as [p| |n elem|elem|elem|kt vt| | |ifc|fs|]; try reflexivity; try (apply prim_same, H).
      - destruct i as [ci|ii]; [|reflexivity]. unfold unjson_struct. pose proof (raw_map_same b b' H) as M.
        destruct (raw_map b) as [m|e|p|], (raw_map b') as [m'|e'|p'|]; cbn [ebind]; try discriminate M; try (injection M as <-; reflexivity); try reflexivity.
        destruct v; try reflexivity. rewrite (fields_same _ m m') by exact M. reflexivity.
      - unfold unjson_array. rewrite (raw_bytes_same b b' _ H). destruct (is_uint8 env elem); [reflexivity|].
        destruct (get_type_info env c elem); cbn [ebind]; try reflexivity. destruct (raw_list_same b b' H) as [-> |(l & l' & -> & -> & F)]; [reflexivity|]. cbn [ebind].
        replace (length l') with (length l) by (clear - F; induction F; cbn [length]; congruence). destruct (negb _); [reflexivity|]. destruct v; try reflexivity.
        rewrite (elems_same _ _ l l') by exact F. reflexivity.
      - unfold unjson_slice. rewrite (raw_bytes_same b b' _ H). destruct (is_uint8 env elem); [reflexivity|].
        destruct (get_type_info env c elem); cbn [ebind]; try reflexivity. destruct (raw_list_same b b' H) as [-> |(l & l' & -> & -> & F)]; [reflexivity|]. cbn [ebind].
        replace (length l') with (length l) by (clear - F; induction F; cbn [length]; congruence). rewrite (elems_same _ _ l l') by exact F. reflexivity.
      - unfold unjson_map. pose proof (raw_map_same b b' H) as M.
        destruct (raw_map b) as [m|e|p|], (raw_map b') as [m'|e'|p'|]; cbn [ebind]; try discriminate M; try (injection M as <-; reflexivity); try reflexivity.
        destruct (resolve env _) as [[]| | | | | | | | | |]; try reflexivity. destruct (get_type_info env c _); cbn [ebind]; try reflexivity.
        rewrite (members_same _ _ _ m m') by exact M. reflexivity.
      - destruct i as [ci|ii]; [reflexivity|]. apply iface_same, H.
      - destruct i as [ci|ii]; [|reflexivity]. unfold unjson_struct. pose proof (raw_map_same b b' H) as M.
        destruct (raw_map b) as [m|e|p|], (raw_map b') as [m'|e'|p'|]; cbn [ebind]; try discriminate M; try (injection M as <-; reflexivity); try reflexivity.
        destruct v; try reflexivity. rewrite (fields_same _ m m') by exact M. reflexivity.
    Qed.
  End Rec.

  Lemma decode_same : forall k b b' i t v o, respaced b b' -> decode_json k env je c b i t v o = decode_json k env je c b' i t v o.
  Proof.
    induction k as [|k IH]; intros b b' i t v o H; [reflexivity|]. cbn [decode_json]. rewrite <- (null_same b b' H).
    destruct (time_same b b' H) as [<- T].
    assert (E : forall (i : tinfo) (w0 : value),
      match deref_type t with
      | TTime => if time_text b then elet r := je_untime je b in EOk (VTime (fst r) (snd r)) else EErr "amino:JSON time must be an RFC3339Nano string in UTC"%string
      | _ => match (match deref_type t with TNamed id => je_unmarshal je id | _ => None end) with
             | Some g => g b w0
             | None => match i with
                       | TIConc {| ci_type := ct; ci_unmarshal := Some r |} =>
                           elet rinfo := get_type_info env c r in elet rv := decode_json k env je c b rinfo r (zero env r) o in
                           elet ve := from_repr env ct w0 rv in match snd ve with Some e => EErr e | None => EOk (fst ve) end
                       | _ => unjson_switch env je c (decode_json k env je c) i b w0 o
                       end
             end
      end =
      match deref_type t with
      | TTime => if time_text b then elet r := je_untime je b' in EOk (VTime (fst r) (snd r)) else EErr "amino:JSON time must be an RFC3339Nano string in UTC"%string
      | _ => match (match deref_type t with TNamed id => je_unmarshal je id | _ => None end) with
             | Some g => g b' w0
             | None => match i with
                       | TIConc {| ci_type := ct; ci_unmarshal := Some r |} =>
                           elet rinfo := get_type_info env c r in elet rv := decode_json k env je c b' rinfo r (zero env r) o in
                           elet ve := from_repr env ct w0 rv in match snd ve with Some e => EErr e | None => EOk (fst ve) end
                       | _ => unjson_switch env je c (decode_json k env je c) i b' w0 o
                       end
             end
      end).
    { intros i0 w0. assert (S : unjson_switch env je c (decode_json k env je c) i0 b w0 o = unjson_switch env je c (decode_json k env je c) i0 b' w0 o)
        by (apply switch_same; [|exact H]; intros; apply IH; assumption).
      assert (G : forall g, match deref_type t with TNamed id => je_unmarshal je id | _ => None end = Some g -> g b w0 = g b' w0)
        by (intros g Eg; destruct (deref_type t); try discriminate Eg; eapply Hje; eassumption).
      assert (R : match i0 with
                       | TIConc {| ci_type := ct; ci_unmarshal := Some r |} =>
                           elet rinfo := get_type_info env c r in elet rv := decode_json k env je c b rinfo r (zero env r) o in
                           elet ve := from_repr env ct w0 rv in match snd ve with Some e => EErr e | None => EOk (fst ve) end
                       | _ => unjson_switch env je c (decode_json k env je c) i0 b w0 o
                       end = match i0 with
                       | TIConc {| ci_type := ct; ci_unmarshal := Some r |} =>
                           elet rinfo := get_type_info env c r in elet rv := decode_json k env je c b' rinfo r (zero env r) o in
                           elet ve := from_repr env ct w0 rv in match snd ve with Some e => EErr e | None => EOk (fst ve) end
                       | _ => unjson_switch env je c (decode_json k env je c) i0 b' w0 o
                       end).
      { destruct i0 as [[ct ? ? [r|] ?]|ii]; try exact S. destruct (get_type_info env c r) as [ri|e|p|]; cbn [ebind]; try reflexivity.
        rewrite (IH b b') by exact H. reflexivity. }
      destruct (deref_type t); try exact R; [destruct (time_text b); [rewrite T by reflexivity|]; reflexivity|].
      destruct (je_unmarshal je id) as [g|] eqn:Eg; [apply G; reflexivity|exact R]. }
    assert (X : forall P Q : eres value, P = Q ->
      match i, t with TIFace _, TPtr _ => EPanic "should not happen"%string | _, _ => P end =
      match i, t with TIFace _, TPtr _ => EPanic "should not happen"%string | _, _ => Q end) by (intros P Q ->; reflexivity).
    apply X. destruct (beqb b null); [reflexivity|]. cbv zeta. rewrite E. reflexivity.
  Qed.
  Lemma unmarshal_same k b b' t v : respaced b b' -> unmarshal_json k env je c b t v = unmarshal_json k env je c b' t v.
  Proof.
    intros H. unfold unmarshal_json. destruct (respaced_texts _ _ H) as [H1 H2]. destruct (jtext_head _ H1) as (y & u & E & _). destruct (jtext_head _ H2) as (y' & u' & E' & _).
    subst b b'. destruct (get_type_info env c t) as [info|e|p|]; cbn [ebind]; try reflexivity.
    assert (D : decode_json k env je c (y :: u) info t v no_opts = decode_json k env je c (y' :: u') info t v no_opts) by (apply decode_same, H).
    destruct info as [[ct ? ? ? [r|]]|ii]; try exact D. pose proof (wrapper_same _ _ H) as W.
    destruct (decode_wrapper (y :: u)) as [a|e|p|], (decode_wrapper (y' :: u')) as [a'|e'|p'|]; cbn [ebind]; try discriminate W; try (injection W as <-; reflexivity); try reflexivity.
    destruct W as [<- [<- |W]]; [reflexivity|]. rewrite (decode_same k (snd a) (snd a')) by exact W. reflexivity.
  Qed.
End Reading.
