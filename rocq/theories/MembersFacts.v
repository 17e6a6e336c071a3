(** Facts about JSON members: reading texts that agree. *)
From Coq Require Import ZArith String List Bool Lia.
From Verif Require Import Base SpecWire Prims PrimFacts Types Codec BinEnc BinDec Amino Registry RegistryFacts Sane Typing DecSafe EncFacts
  SpecNorm JsonText Json SpecJson SpecJsonSafe SpecMembers JsonTextFacts JsonFacts JsonProps JsonSafe.
Import ListNotations.
Local Open Scope Z_scope.
Local Open Scope amino_scope.

(** ** Members *)

Definition good_members (l : list (bytes * bytes)) : Prop := Forall (fun p => jchars (fst p) /\ jtext (snd p)) l.
Lemma object_members l b : jobject l b -> good_members l.
Proof. apply members_chars. Qed.
Lemma object_top l b : jobject l b -> json_top b = Some (JObj l).
Proof. intros H. apply top_ok. exact H. Qed.
Lemma array_top l b : jarray l b -> json_top b = Some (JArr l).
Proof. intros H. apply top_ok. exact H. Qed.
Lemma object_head l b : jobject l b -> exists r, b = 123 :: r.
Proof. intros []; eexists; reflexivity. Qed.
Lemma array_head l b : jarray l b -> exists r, b = 91 :: r.
Proof. intros []; eexists; reflexivity. Qed.

Lemma unq_iff k n : jchars k -> (unq k = EOk n <-> denotes k n).
Proof. intros H. split; [apply unq_sound, H|apply denotes_unq]. Qed.

Lemma assoc_put n key raw m : assoc beqb n (map_put key raw m) = if beqb n key then Some raw else assoc beqb n m.
Proof.
  induction m as [|[k r] m IH]; cbn [map_put assoc]; [reflexivity|]. destruct (beqb k key) eqn:E; cbn [assoc].
  - apply beqb_eq in E. subst k. destruct (beqb n key); reflexivity.
  - rewrite IH. destruct (beqb n k) eqn:E1; [|reflexivity]. apply beqb_eq in E1. subst k. rewrite E. reflexivity.
Qed.
Lemma last_cons n m l x : last_member n (m :: l) x -> last_member n l x \/ called n m /\ snd m = x /\ no_member n l.
Proof.
  intros (l1 & k & l2 & E & C & N). destruct l1 as [|a l1]; cbn [app] in E; injection E as -> ->.
  - right. cbn [snd]. auto.
  - left. exists l1, k, l2. auto.
Qed.
Lemma fill_lookup : forall l m, good_members l -> exists m', fill_map l m = EOk m' /\
  (forall n, no_member n l -> assoc beqb n m' = assoc beqb n m) /\
  (forall n x, last_member n l x -> assoc beqb n m' = Some x).
Proof.
  induction l as [|[k raw] l IH]; intros m G; cbn [fill_map].
  - exists m. splits; [reflexivity|reflexivity|]. intros n x (l1 & k & l2 & E & _). destruct l1; discriminate.
  - inversion G as [|? ? [Gk Gr] G']; subst. cbn [fst snd] in *. destruct (unq_total k Gk) as (key & E & _). rewrite E. cbn [ebind].
    destruct (IH (map_put key raw m) G') as (m' & F & N & L). exists m'. split; [exact F|].
    assert (Q : forall n, called n (k, raw) <-> n = key).
    { intros n. unfold called. cbn [fst]. rewrite <- (unq_iff _ _ Gk), E. split; [intros X; injection X; congruence|intros ->; reflexivity]. }
    split.
    + intros n X. inversion X as [|? ? X1 X2]; subst. rewrite N by exact X2. rewrite assoc_put. destruct (beqb n key) eqn:B; [|reflexivity].
      apply beqb_eq in B. exfalso. apply X1, Q, B.
    + intros n x X. apply last_cons in X. destruct X as [X|(X1 & X2 & X3)]; [apply L, X|]. rewrite N by exact X3. rewrite assoc_put.
      apply Q in X1. subst n. rewrite beqb_refl. cbn [snd] in X2. congruence.
Qed.
Lemma raw_lookup l b : jobject l b -> exists m, raw_map b = EOk m /\
  (forall n, no_member n l -> assoc beqb n m = None) /\ (forall n x, last_member n l x -> assoc beqb n m = Some x).
Proof.
  intros H. unfold raw_map, with_top. rewrite (object_top _ _ H). apply (fill_lookup l [] (object_members _ _ H)).
Qed.
Lemma last_text n l x : good_members l -> last_member n l x -> jtext x.
Proof.
  intros G (l1 & k & l2 & -> & _). apply Forall_app in G. destruct G as [_ G]. inversion G as [|? ? [_ G'] _]. exact G'.
Qed.

(** ** Wrappers *)

Lemma string_cons m l n : string_member word_type (m :: l) n ->
  string_member word_type l n \/ key_is word_type (fst m) /\ (exists s, snd m = 34 :: s ++ [34] /\ denotes s n) /\
    Forall (fun p => key_is word_type (fst p) -> snd p = bs "null") l.
Proof.
  intros (l1 & k & s & l2 & E & K & D & F). destruct l1 as [|a l1]; cbn [app] in E; injection E as -> ->.
  - right. cbn [fst snd]. splits; [exact K| |exact F]. exists s. auto.
  - left. exists l1, k, s, l2. auto.
Qed.
Lemma text_cons m l x : text_member word_value (m :: l) x ->
  text_member word_value l x \/ key_is word_value (fst m) /\ snd m = x /\ Forall (fun p => ~ key_is word_value (fst p)) l.
Proof.
  intros (l1 & k & l2 & E & K & F). destruct l1 as [|a l1]; cbn [app] in E; injection E as -> ->.
  - right. cbn [fst snd]. auto.
  - left. exists l1, k, l2. auto.
Qed.
Lemma fill_complete : forall l w, good_members l -> only_strings l -> exists w', fill_wrapper l w = EOk w' /\ wr_bad w' = wr_bad w /\
  (forall n, string_member word_type l n -> wr_name w' = n) /\
  (Forall (fun p => key_is word_type (fst p) -> snd p = bs "null") l -> wr_name w' = wr_name w) /\
  (forall x, text_member word_value l x -> wr_data w' = x) /\
  (Forall (fun p => ~ key_is word_value (fst p)) l -> wr_data w' = wr_data w).
Proof.
  induction l as [|[k raw] l IH]; intros w G O; cbn [fill_wrapper].
  - exists w. splits; auto; intros n; [intros (l1 & ? & ? & ? & E & _)|intros (l1 & ? & ? & E & _)]; destruct l1; discriminate.
  - inversion G as [|? ? [Gk Gr] G']; subst. inversion O as [|? ? O1 O']; subst. cbn [fst snd] in *.
    destruct (unq_total k Gk) as (n & E & _). rewrite E. cbn [ebind]. fold word_type word_value in *.
    pose proof (key_is_unq word_type k n word_type_ok Gk E) as KT. pose proof (key_is_unq word_value k n word_value_ok Gk E) as KV.
    assert (Excl : beqb (map lower n) word_type = true -> beqb (map lower n) word_value = false) by (intros X; apply beqb_eq in X; rewrite X; reflexivity).
    destruct (beqb (map lower n) word_type) eqn:BT.
    + assert (NV : ~ key_is word_value k) by (rewrite KV, Excl by reflexivity; discriminate). assert (YT : key_is word_type k) by (apply KT; reflexivity).
      destruct (O1 YT) as [-> |(s & Hs & ->)].
      * change (json_top (bs "null")) with (Some JNull). cbv iota. destruct (IH w G' O') as (w' & F & B & H1 & H2 & H3 & H4). exists w'.
        splits; [exact F|exact B| | | |].
        -- intros x X. apply string_cons in X. destruct X as [X|(_ & (s & X & _) & _)]; [apply H1, X|discriminate X].
        -- intros X. inversion X. auto.
        -- intros x X. apply text_cons in X. destruct X as [X|(X & _)]; [apply H3, X|contradiction].
        -- intros X. inversion X. auto.
      * rewrite (top_ok (JStr s)) by (split; [reflexivity|exact Hs]). cbv iota. destruct (unq_total s Hs) as (nm & En & _). rewrite En. cbn [ebind].
        destruct (IH {| wr_name := nm; wr_data := wr_data w; wr_bad := wr_bad w |} G' O') as (w' & F & B & H1 & H2 & H3 & H4). cbn [wr_name wr_data wr_bad] in *.
        exists w'. splits; [exact F|exact B| | | |].
        -- intros x X. apply string_cons in X. destruct X as [X|(_ & (s' & X & D) & A)]; [apply H1, X|]. rewrite (H2 A). cbn [snd] in X.
           injection X as X. apply app_inv_tail in X. subst s'. apply denotes_unq in D. congruence.
        -- intros X. inversion X as [|? ? X1 X2]; subst. cbn [fst snd] in X1. discriminate (X1 YT).
        -- intros x X. apply text_cons in X. destruct X as [X|(X & _)]; [apply H3, X|contradiction].
        -- intros X. inversion X. auto.
    + assert (NT : ~ key_is word_type k) by (rewrite KT; discriminate).
      destruct (beqb (map lower n) word_value) eqn:BV.
      * assert (YV : key_is word_value k) by (apply KV; reflexivity).
        destruct (IH {| wr_name := wr_name w; wr_data := raw; wr_bad := wr_bad w |} G' O') as (w' & F & B & H1 & H2 & H3 & H4). cbn [wr_name wr_data wr_bad] in *.
        exists w'. splits; [exact F|exact B| | | |].
        -- intros x X. apply string_cons in X. destruct X as [X|(X & _)]; [apply H1, X|contradiction].
        -- intros X. inversion X. auto.
        -- intros x X. apply text_cons in X. destruct X as [X|(_ & X & A)]; [apply H3, X|]. cbn [snd] in X. rewrite (H4 A). exact X.
        -- intros X. inversion X as [|? ? X1 X2]; subst. contradiction.
      * assert (NV : ~ key_is word_value k) by (rewrite KV; discriminate).
        destruct (IH w G' O') as (w' & F & B & H1 & H2 & H3 & H4). exists w'. splits; [exact F|exact B| | | |].
        -- intros x X. apply string_cons in X. destruct X as [X|(X & _)]; [apply H1, X|contradiction].
        -- intros X. inversion X. auto.
        -- intros x X. apply text_cons in X. destruct X as [X|(X & _)]; [apply H3, X|contradiction].
        -- intros X. inversion X. auto.
Qed.
Lemma wrapper_complete l b name x : jobject l b -> only_strings l -> string_member (bs "type") l name -> text_member (bs "value") l x ->
  jtext x /\ decode_wrapper b = if beqb name [] then EErr "JSON encoding of interfaces require non-empty type field"%string else EOk (name, x).
Proof.
  intros H O S T. pose proof (object_members _ _ H) as G.
  assert (J : jtext x).
  { destruct T as (l1 & k & l2 & -> & _). apply Forall_app in G. destruct G as [_ G]. inversion G as [|? ? [_ G'] _]. exact G'. }
  split; [exact J|]. unfold decode_wrapper, raw_wrapper, with_top. rewrite (object_top _ _ H).
  destruct (fill_complete l {| wr_name := []; wr_data := []; wr_bad := false |} G O) as (w' & F & B & H1 & _ & H3 & _).
  rewrite F. cbn [ebind]. rewrite B. cbn [wr_bad ebind]. rewrite (H1 _ S), (H3 _ T).
  destruct (jtext_nonempty x J) as (y & r & ->). destruct name; reflexivity.
Qed.

(** ** Results that agree unless out of fuel *)

Definition upto {A} (r r' : eres A) : Prop := r = r' \/ r = EFuel \/ r' = EFuel.
Lemma upto_refl {A} (r : eres A) : upto r r.
Proof. left. reflexivity. Qed.
Lemma upto_bind {A B} (r r' : eres A) (f g : A -> eres B) : upto r r' -> (forall a, r = EOk a -> upto (f a) (g a)) -> upto (ebind r f) (ebind r' g).
Proof.
  intros [<- |[-> | ->]] H; [|right; left; reflexivity|right; right; reflexivity].
  destruct r as [a|e|p|]; cbn [ebind]; try (left; reflexivity). apply H. reflexivity.
Qed.

Section Reading.
  Variable env : tenv.
  Variable je : jenv.
  Variable c : codec.
  Hypothesis Wc : wf_codec env c.
  Hypothesis Hs : sane_codec env c.
  Notation agree := (agree env je c).

  (** The same bytes, or both start with a bracket. *)
  Lemma agree_shape t b b' : agree t b b' -> b = b' \/ b <> [] /\ b' <> [] /\ beqb b null = false /\ beqb b' null = false.
  Proof.
    assert (K : forall b b' x y r r', b = x :: r -> b' = y :: r' -> x = 91 \/ x = 123 -> y = 91 \/ y = 123 ->
      b <> [] /\ b' <> [] /\ beqb b null = false /\ beqb b' null = false).
    { intros ? ? x y r r' -> -> [-> | ->] [-> | ->]; (split; [discriminate|]); (split; [discriminate|]); split; reflexivity. }
    induction 1 as [t b|t fs l l' b b' U R J J' F|t e l l' b b' U R I J J' F|t kt vt l l' b b' U R J J' F|t i b b' D W|t id r g b b' D U T H IH].
    - left. reflexivity.
    - right. destruct (object_head _ _ J) as (x & ->), (object_head _ _ J') as (x' & ->). eapply K; try reflexivity; auto.
    - right. destruct (array_head _ _ J) as (x & ->), (array_head _ _ J') as (x' & ->). eapply K; try reflexivity; auto.
    - right. destruct (object_head _ _ J) as (x & ->), (object_head _ _ J') as (x' & ->). eapply K; try reflexivity; auto.
    - right. destruct W as (l & l' & nm & y & y' & J & J' & _). destruct (object_head _ _ J) as (x & ->), (object_head _ _ J') as (x' & ->). eapply K; try reflexivity; auto.
    - exact IH.
  Qed.

  Section Rec.
    Variable rec : bytes -> tinfo -> gotype -> value -> fopts -> eres value.
    Hypothesis Hrec : forall b b' i t v o, minfo env c i t -> agree t b b' -> upto (rec b i t v o) (rec b' i t v o).
    (** null is zero, given fuel. *)
    Hypothesis Hnull : forall i t v o, minfo env c i t -> is_ptr t && is_iface (deref_type t) = false -> upto (rec null i t v o) (EOk (zero env t)).

    Lemma upto_sym {A} (r r' : eres A) : upto r r' -> upto r' r.
    Proof. unfold upto. intuition congruence. Qed.
    Lemma elems_upto i t l l' : minfo env c i t -> Forall2 (agree t) l l' -> forall vs o, upto (unjson_elems rec i t l vs o) (unjson_elems rec i t l' vs o).
    Proof.
      intros M. induction 1 as [|b b' l l' R F IH]; intros vs o; [apply upto_refl|]. destruct vs as [|v vs]; [apply upto_refl|]. cbn [unjson_elems].
      apply upto_bind; [apply Hrec; assumption|]. intros w _. apply upto_bind; [apply IH|]. intros; apply upto_refl.
    Qed.
    Lemma fields_upto fs l l' m m' o : (forall n, no_member n l -> assoc beqb n m = None) -> (forall n x, last_member n l x -> assoc beqb n m = Some x) ->
      (forall n, no_member n l' -> assoc beqb n m' = None) -> (forall n x, last_member n l' x -> assoc beqb n m' = Some x) ->
      good_members l -> good_members l' ->
      (forall f, In f fs -> same_member (agree (fi_type f)) (negb (fo_omitempty (fi_opts f)) && negb (is_ptr (fi_type f) && is_iface (deref_type (fi_type f))))
         (fo_json_name (fi_opts f)) l l') ->
      forall vs, upto (unjson_fields env c rec fs m vs o) (unjson_fields env c rec fs m' vs o).
    Proof.
      intros N L N' L' G G'. induction fs as [|f fs IH]; intros H vs; [apply upto_refl|]. cbn [unjson_fields]. cbv zeta.
      assert (H' : forall vs, upto (unjson_fields env c rec fs m vs o) (unjson_fields env c rec fs m' vs o)) by (apply IH; intros g Hg; apply H; right; exact Hg).
      apply upto_bind; [apply upto_refl|]. intros info Gi. pose proof (gti_minfo _ _ _ _ Hs Gi) as M.
      destruct (H f (or_introl eq_refl)) as [[X X']|[(x & x' & X & X' & A)|[Nb [[X X']|[X X']]]]].
      - rewrite (N _ X), (N' _ X'). apply H'.
      - rewrite (L _ _ X), (L' _ _ X'). destruct (jtext_nonempty x (last_text _ _ _ G X)) as (y & r & ->). destruct (jtext_nonempty x' (last_text _ _ _ G' X')) as (y' & r' & ->).
        apply upto_bind; [apply Hrec; assumption|]. intros w _. apply H'.
      - rewrite (N _ X), (L' _ _ X'). change (bs "null") with null. apply andb_true_iff in Nb. destruct Nb as [N1 N2]. apply negb_true_iff in N1, N2. rewrite N1.
        destruct (Hnull info (fi_type f) (nth (fi_index f) vs VInvalid) o M N2) as [E|[E|E]]; [|right; right|discriminate E];
          change null with [110; 117; 108; 108] in *; cbv iota; rewrite E; cbn [ebind]; [apply H'|reflexivity].
      - rewrite (L _ _ X), (N' _ X'). change (bs "null") with null. apply andb_true_iff in Nb. destruct Nb as [N1 N2]. apply negb_true_iff in N1, N2. rewrite N1.
        destruct (Hnull info (fi_type f) (nth (fi_index f) vs VInvalid) o M N2) as [E|[E|E]]; [|right; left|discriminate E];
          change null with [110; 117; 108; 108] in *; cbv iota; rewrite E; cbn [ebind]; [apply H'|reflexivity].
    Qed.
    Definition mpair (t : gotype) (m m' : bytes * bytes) : Prop := fst m = fst m' /\ agree t (snd m) (snd m').
    Lemma put_pair t k raw raw' m m' : agree t raw raw' -> Forall2 (mpair t) m m' -> Forall2 (mpair t) (map_put k raw m) (map_put k raw' m').
    Proof.
      intros Hr. induction 1 as [|[x r] [x' r'] l l' [E R] F IH]; cbn [map_put fst snd] in *.
      - constructor; [split; [reflexivity|exact Hr]|constructor].
      - subst x'. destruct (beqb x k); constructor; try assumption; split; try reflexivity; assumption.
    Qed.
    Lemma fill_pair t l l' : Forall2 (fun m m' => (exists n, called n m /\ called n m') /\ agree t (snd m) (snd m')) l l' ->
      forall m m', Forall2 (mpair t) m m' -> exists a a', fill_map l m = EOk a /\ fill_map l' m' = EOk a' /\ Forall2 (mpair t) a a'.
    Proof.
      induction 1 as [|[k raw] [k' raw'] l l' [(n & C & C') R] F IH]; intros m m' Hm; cbn [fill_map].
      - exists m, m'. auto.
      - unfold called in C, C'. cbn [fst snd] in *. rewrite (denotes_unq _ _ C), (denotes_unq _ _ C'). cbn [ebind]. apply IH, put_pair; assumption.
    Qed.
    Lemma members_upto kt vt i m m' o : minfo env c i vt -> Forall2 (mpair vt) m m' -> upto (unjson_members env rec kt vt i m o) (unjson_members env rec kt vt i m' o).
    Proof.
      intros M. induction 1 as [|[x r] [x' r'] l l' [E R] F IH]; [apply upto_refl|]. cbn [fst snd unjson_members] in *. subst x'.
      apply upto_bind; [apply Hrec; assumption|]. intros w _. destruct (negb _); [apply upto_refl|]. apply upto_bind; [exact IH|]. intros; apply upto_refl.
    Qed.

    Lemma named_info name ci : type_info_from_name c name = EOk ci -> minfo env c (TIConc ci) (ci_type ci) /\
      exists ptr, registration c (ci_type ci) = Some (name, ptr).
    Proof.
      unfold type_info_from_name. destruct (assoc beqb name (cd_names c)) as [ci'|] eqn:A; [|discriminate]. intros E. apply EOk_inj in E. subst ci'.
      apply (wc_names _ _ Wc) in A. destruct A as [Hin Hn]. pose proof (proj1 (wc_conc _ _ Wc ci) Hin) as [Ha Hr].
      destruct (wc_types _ _ Wc _ _ Ha) as [_ Hok]. destruct (info_ok_parts _ _ Hok) as (K & _).
      assert (D : deref_type (ci_type ci) = ci_type ci) by (destruct (ci_type ci); try reflexivity; discriminate).
      split; [split; [symmetry; exact D|exact Hok]|]. destruct (ci_reg ci) as [r|] eqn:Er; [|contradiction].
      assert (Hg : get_type_info env c (ci_type ci) = EOk (TIConc ci)).
      { unfold get_type_info. rewrite D, Ha. destruct (ci_type ci); try reflexivity; discriminate. }
      pose proof (info_registration env c Wc Hs _ _ _ Hg Er) as Q. rewrite D in Q. exists (ri_ptr r). rewrite Q. unfold ci_name in Hn. rewrite Er in Hn. cbn [option_map] in Hn. injection Hn as ->. reflexivity.
    Qed.
    Lemma iface_upto ii b b' o : same_wrapper (fun name x x' => forall ct ptr, registration c ct = Some (name, ptr) -> agree ct x x') b b' ->
      upto (unjson_interface env c rec ii b o) (unjson_interface env c rec ii b' o).
    Proof.
      intros (l & l' & name & x & x' & J & J' & O & O' & S & S' & T & T' & A). unfold unjson_interface.
      destruct (wrapper_complete _ _ _ _ J O S T) as (_ & ->). destruct (wrapper_complete _ _ _ _ J' O' S' T') as (_ & ->).
      destruct (beqb name []); [apply upto_refl|]. cbn [ebind fst snd]. apply upto_bind; [apply upto_refl|]. intros ci Hci.
      destruct (named_info _ _ Hci) as (M & ptr & R). cbv zeta.
      destruct (Hrec x x' (TIConc ci) (ci_type ci) (zero env (ci_type ci)) o M (A _ _ R)) as [E|[E|E]]; rewrite E; [apply upto_refl|right; left; reflexivity|right; right; reflexivity].
    Qed.
    (** The fields of a struct, by name. *)
    Lemma struct_upto t fs ci b b' l l' v o : minfo env c (TIConc ci) t -> resolve env (deref_type t) = RStruct fs -> jobject l b -> jobject l' b' ->
      (forall f o, In f fs -> json_opts f = Some o ->
       same_member (agree (sf_type f))
         (negb (fo_omitempty o) && negb (is_ptr (sf_type f) && is_iface (deref_type (sf_type f)))) (fo_json_name o) l l') ->
      upto (unjson_struct env c rec ci b v o) (unjson_struct env c rec ci b' v o).
    Proof.
      intros [M Hi] R J J' F. unfold unjson_struct. destruct (raw_lookup _ _ J) as (m & -> & N & L). destruct (raw_lookup _ _ J') as (m' & -> & N' & L'). cbn [ebind].
      destruct v; try apply upto_refl. apply upto_bind; [|intros; apply upto_refl]. destruct (info_ok_parts _ _ Hi) as (_ & Hp & _). unfold parse_struct_info in Hp. rewrite M, R in Hp.
      eapply fields_upto; try eassumption; try (eapply object_members; eassumption). intros f Hf.
      destruct (parse_fields_nth _ _ _ _ _ _ Hp Hf) as (sf & o' & _ & H2 & H3 & H4 & _ & H6 & _ & H8). apply nth_error_In in H2.
      assert (Q : json_opts sf = Some o') by (unfold json_opts; rewrite H3; exact H4). specialize (F _ _ H2 Q).
      rewrite H6, H8. destruct o'. exact F.
    Qed.
  End Rec.

  Definition body (k : nat) (b : bytes) (i : tinfo) (t : gotype) (w0 : value) (o : fopts) : eres value :=
    match deref_type t with
    | TTime => if time_text b then elet r := je_untime je b in EOk (VTime (fst r) (snd r)) else EErr "amino:JSON time must be an RFC3339Nano string in UTC"%string
    | _ => match (match deref_type t with TNamed id => je_unmarshal je id | _ => None end) with
           | Some g => g b w0
           | None => match i with
                     | TIConc {| ci_type := ct; ci_unmarshal := Some r |} =>
                         elet rinfo := get_type_info env c r in elet rv := decode_json k env je c b rinfo r (zero env r) o in
                         elet ve := from_repr env ct w0 rv in match snd ve with Some e => EErr e | None => EOk (fst ve) end
                     | _ => unjson_switch env je c (decode_json k env je c) i b w0 o
                     end
           end
    end.
  Lemma decode_body k b i t v o : decode_json (S k) env je c b i t v o =
    match i, t with
    | TIFace _, TPtr _ => EPanic "should not happen"%string
    | _, _ => if beqb b null then EOk (zero env t) else elet w := body k b i t (base_of env t v) o in EOk (rebuild t w)
    end.
  Proof. reflexivity. Qed.
  Lemma unread_repr i t : minfo env c i t -> unread env je (deref_type t) -> deref_type t <> TTime -> forall k b w0 o,
    body k b i t w0 o = unjson_switch env je c (decode_json k env je c) i b w0 o.
  Proof.
    intros M U N k b w0 o. unfold body.
    assert (E : (match deref_type t with TNamed id => je_unmarshal je id | _ => None end) = None) by (destruct (deref_type t); try reflexivity; apply U).
    assert (E' : match i with TIConc ci => ci_unmarshal ci = None | TIFace _ => True end).
    { destruct i as [ci|]; [|exact I]. destruct M as [M Hi]. destruct (info_ok_parts _ _ Hi) as (_ & _ & _ & Q). rewrite M in Q. unfold unmarshal_repr in Q.
      destruct (deref_type t); try (apply EOk_inj in Q; symmetry; exact Q). destruct U as [_ U]. rewrite U in Q. apply EOk_inj in Q. symmetry. exact Q. }
    destruct i as [[ct ? ? u ?]|ii]; [cbn [ci_unmarshal] in E'; subst u|]; destruct (deref_type t); try contradiction; try reflexivity; rewrite E; reflexivity.
  Qed.

  Lemma decode_upto : forall k b b' i t v o, minfo env c i t -> agree t b b' -> upto (decode_json k env je c b i t v o) (decode_json k env je c b' i t v o).
  Proof.
    induction k as [|k IH]; intros b b' i t v o M H; [apply upto_refl|]. rewrite !decode_body.
    destruct (agree_shape _ _ _ H) as [-> |(_ & _ & E & E')]; [apply upto_refl|]. rewrite E, E'.
    assert (K : upto (body k b i t (base_of env t v) o) (body k b' i t (base_of env t v) o)).
    2:{ assert (Q : upto (elet w := body k b i t (base_of env t v) o in EOk (rebuild t w)) (elet w := body k b' i t (base_of env t v) o in EOk (rebuild t w)))
          by (apply upto_bind; [exact K|intros; apply upto_refl]).
        destruct i; [exact Q|]. destruct t; try exact Q. apply upto_refl. }
    clear E E'. generalize (base_of env t v). intros w0. clear v.
    assert (Hnull : forall i t v o, minfo env c i t -> is_ptr t && is_iface (deref_type t) = false -> upto (decode_json k env je c null i t v o) (EOk (zero env t))).
    { intros i1 t1 v1 o1 M1 P1. destruct k as [|k']; [right; left; reflexivity|]. left. rewrite decode_body. change (beqb null null) with true. cbv iota.
      destruct i1 as [ci|ii]; [destruct t1; reflexivity|]. destruct M1 as [_ D]. destruct t1; try reflexivity. cbn [is_ptr is_iface andb] in P1. rewrite D in P1. discriminate. }
    pose proof (minfo_type _ _ _ _ M) as T.
    destruct H as [t b|t fs l l' b b' U R J J' F|t e l l' b b' U R I J J' F|t kt vt l l' b b' U R J J' F|t id b b' D W|t id r g b b' D U Te H].
    - apply upto_refl.
    - assert (N : deref_type t <> TTime) by (intros X; rewrite X in R; discriminate R). rewrite !(unread_repr _ _ M U N). unfold unjson_switch. rewrite T, R.
      destruct i as [ci|ii]; [|apply upto_refl]. eapply struct_upto; eassumption.
    - assert (N : deref_type t <> TTime) by (intros X; rewrite X in R; destruct R as [R|[n R]]; discriminate R). rewrite !(unread_repr _ _ M U N). unfold unjson_switch. rewrite T.
      assert (Q : raw_list b = EOk l /\ raw_list b' = EOk l') by (unfold raw_list, with_top; rewrite (array_top _ _ J), (array_top _ _ J'); auto). destruct Q as [Q Q'].
      assert (Len : length l = length l') by (clear - F; induction F; cbn [length]; congruence).
      destruct R as [R|[n R]]; rewrite R.
      + unfold unjson_slice. rewrite I. apply upto_bind; [apply upto_refl|]. intros einfo Ge. rewrite Q, Q'. cbn [ebind]. rewrite <- Len.
        apply upto_bind; [|intros; apply upto_refl]. apply elems_upto; [exact IH|eapply gti_minfo; eassumption|exact F].
      + unfold unjson_array. rewrite I. apply upto_bind; [apply upto_refl|]. intros einfo Ge. rewrite Q, Q'. cbn [ebind]. rewrite <- Len. destruct (negb _); [apply upto_refl|].
        destruct w0; try apply upto_refl. apply upto_bind; [|intros; apply upto_refl]. apply elems_upto; [exact IH|eapply gti_minfo; eassumption|exact F].
    - assert (N : deref_type t <> TTime) by (intros X; rewrite X in R; discriminate R). rewrite !(unread_repr _ _ M U N). unfold unjson_switch. rewrite T, R.
      unfold unjson_map, raw_map, with_top. rewrite (object_top _ _ J), (object_top _ _ J'). destruct (fill_pair vt l l' F [] [] (Forall2_nil _)) as (a & a' & -> & -> & P). cbn [ebind].
      destruct (resolve env kt) as [[]| | | | | | | | | |]; try apply upto_refl. apply upto_bind; [apply upto_refl|]. intros vi Gv.
      apply upto_bind; [|intros; apply upto_refl]. apply members_upto; [exact IH|eapply gti_minfo; eassumption|exact P].
    - assert (U : unread env je (deref_type t)) by (rewrite D; exact I). assert (N : deref_type t <> TTime) by congruence. rewrite !(unread_repr _ _ M U N).
      unfold unjson_switch. rewrite T, D. cbn [resolve]. destruct i as [ci|ii]; [apply upto_refl|]. apply iface_upto; assumption.
    - unfold body. rewrite D, U. destruct i as [[ct fs mr u rg]|ii]; [|destruct M as [_ M]; congruence].
      destruct M as [M Hi]. destruct (info_ok_parts _ _ Hi) as (_ & _ & _ & Q). cbn [ci_type ci_unmarshal] in M, Q. rewrite M, D in Q. unfold unmarshal_repr in Q. rewrite Te in Q.
      assert (Eu : u = Some r) by (destruct r; try discriminate Q; apply EOk_inj in Q; symmetry; exact Q). subst u.
      apply upto_bind; [apply upto_refl|]. intros ri Gr. apply upto_bind; [apply IH; [eapply gti_minfo; eassumption|exact H]|]. intros; apply upto_refl.
  Qed.
  Theorem unmarshal_upto k b b' t v : agree_top env je c t b b' -> upto (unmarshal_json k env je c b t v) (unmarshal_json k env je c b' t v).
  Proof.
    unfold agree_top. intros H. assert (Hb : b = b' \/ b <> [] /\ b' <> []).
    { destruct (registration c (deref_type t)) as [p|].
      - destruct H as [-> |(l & l' & nm & x & x' & J & J' & _)]; [left; reflexivity|right]. destruct (object_head _ _ J) as (y & ->), (object_head _ _ J') as (y' & ->). split; discriminate.
      - destruct (agree_shape _ _ _ H) as [E|(E & E' & _)]; auto. }
    destruct Hb as [-> |[Hb Hb']]; [apply upto_refl|]. unfold unmarshal_json.
    destruct b as [|y u]; [contradiction|]. destruct b' as [|y' u']; [contradiction|]. apply upto_bind; [apply upto_refl|]. intros info G.
    pose proof (gti_minfo _ _ _ _ Hs G) as M.
    assert (C : (exists ci r, info = TIConc ci /\ ci_reg ci = Some r /\ registration c (deref_type t) = Some (ri_name r, ri_ptr r)) \/
                match info with TIConc ci => ci_reg ci = None | _ => True end).
    { destruct info as [ci|]; [|right; exact I]. destruct (ci_reg ci) as [r|] eqn:Er; [left|right; reflexivity]. exists ci, r.
      splits; [reflexivity|exact Er|]. eapply info_registration; eassumption. }
    destruct C as [(ci & r & -> & Er & Q)|C].
    - rewrite Q in H. destruct H as [H|(l & l' & name & x & x' & J & J' & O & O' & S & S' & T & T' & A)]; [rewrite H; apply upto_refl|].
      destruct ci as [ct fs m un rg]. cbn [ci_reg] in Er. subst rg.
      destruct (wrapper_complete _ _ _ _ J O S T) as (_ & ->). destruct (wrapper_complete _ _ _ _ J' O' S' T') as (_ & ->).
      destruct (beqb name []); [apply upto_refl|]. cbn [ebind fst snd]. destruct (negb _); [apply upto_refl|]. apply decode_upto; assumption.
    - assert (A : registration c (deref_type t) = None).
      { destruct (registration c (deref_type t)) as [[nm ptr]|] eqn:Er; [|reflexivity]. exfalso.
        destruct (registration_info env c Wc _ _ _ Er) as (ci & r & Hin & Hty & Hr & Hn & Hp & Hg & _).
        assert (Hg' : get_type_info env c t = EOk (TIConc ci)).
        { rewrite <- Hg. unfold get_type_info. rewrite deref_deref. reflexivity. }
        rewrite Hg' in G. apply EOk_inj in G. subst info. congruence. }
      rewrite A in H. pose proof (decode_upto k _ _ _ _ v no_opts M H) as D. destruct info as [[ct fs m un rg]|ii]; [cbn [ci_reg] in C; subst rg|]; exact D.
  Qed.

  (** ** Field by field *)

  Lemma parse_cases fs f i num fis : parse_fields env (f :: fs) i num = EOk fis ->
    match json_opts f with
    | None => parse_fields env fs (S i) num = EOk fis
    | Some o => exists fi rest, fis = fi :: rest /\ fi_index fi = i /\ fi_type fi = sf_type f /\ fo_json_name (fi_opts fi) = fo_json_name o /\
        fo_omitempty (fi_opts fi) = fo_omitempty o /\ parse_fields env fs (S i) (S num) = EOk rest
    end.
  Proof.
    cbn [parse_fields]. unfold json_opts. destruct (sf_exported f); cbn [negb]; [|auto]. destruct (parse_field_options f) as [o|]; [|auto].
    intros H. einv H. einv H. einv H. apply EOk_inj in H. subst fis. eexists. eexists. split; [reflexivity|]. cbn [fi_index fi_type fi_opts]. destruct o. auto.
  Qed.
  Lemma nth_upd i j (x : value) : forall l, nth_error (upd i x l) j = if (i =? j)%nat then option_map (fun _ => x) (nth_error l j) else nth_error l j.
  Proof.
    revert i j. intros i j l. revert i j. induction l as [|y l IH]; intros [|i] [|j]; cbn [upd nth_error Nat.eqb option_map]; try reflexivity; [destruct (i =? j)%nat; reflexivity|]. apply IH.
  Qed.
  Lemma fields_each rec m o : forall fs i num fis vs ws, parse_fields env fs i num = EOk fis -> unjson_fields env c rec fis m vs o = EOk ws ->
    length ws = length vs /\ (forall j, (j < i)%nat -> nth_error ws j = nth_error vs j) /\
    (forall j, (i + length fs <= j)%nat -> nth_error ws j = nth_error vs j) /\
    (forall j f v, nth_error fs j = Some f -> nth_error vs (i + j) = Some v -> exists w, nth_error ws (i + j) = Some w /\
       match json_opts f with
       | None => w = v
       | Some o' =>
           match assoc beqb (fo_json_name o') m with
           | None | Some [] => w = if fo_omitempty o' then v else zero env (sf_type f)
           | Some b => exists info, get_type_info env c (sf_type f) = EOk info /\ rec b info (sf_type f) v o = EOk w
           end
       end).
  Proof.
    induction fs as [|f fs IH]; intros i num fis vs ws Hp H.
    - apply EOk_inj in Hp. subst fis. apply EOk_inj in H. subst ws. splits; auto. intros [|j]; discriminate.
    - apply parse_cases in Hp. destruct (json_opts f) as [o'|] eqn:Ej.
      + destruct Hp as (fi & rest & -> & Hi & Ht & Hn & Ho & Hp). cbn [unjson_fields] in H. cbv zeta in H. einv H. rename a into info. rewrite Hi, Ht, Hn, Ho in *.
        assert (K : exists x, unjson_fields env c rec rest m x o = EOk ws /\ length x = length vs /\
                    (forall j, (j <> i)%nat -> nth_error x j = nth_error vs j) /\
                    (forall v, nth_error vs i = Some v -> exists w, nth_error x i = Some w /\
                      match assoc beqb (fo_json_name o') m with
                      | None | Some [] => w = if fo_omitempty o' then v else zero env (sf_type f)
                      | Some b => exists info, get_type_info env c (sf_type f) = EOk info /\ rec b info (sf_type f) v o = EOk w
                      end)).
        { assert (Q : forall u : value, length (upd i u vs) = length vs /\ (forall j, (j <> i)%nat -> nth_error (upd i u vs) j = nth_error vs j) /\
            forall v, nth_error vs i = Some v -> nth_error (upd i u vs) i = Some u).
          { intros u. splits.
            - clear. revert i. induction vs as [|y l IHl]; intros [|j]; cbn [upd length]; auto.
            - intros j Hj. rewrite nth_upd. destruct (Nat.eqb_spec i j); [congruence|reflexivity].
            - intros v Hv. rewrite nth_upd, Nat.eqb_refl, Hv. reflexivity. }
          destruct (assoc beqb (fo_json_name o') m) as [[|y b]|].
          - destruct (fo_omitempty o'); eexists; (split; [exact H|]); [splits; auto; intros v Hv; exists v; auto|].
            destruct (Q (zero env (sf_type f))) as (Q1 & Q2 & Q3). splits; auto. intros v Hv. eexists. split; [apply (Q3 v), Hv|reflexivity].
          - einv H. rename a into w. eexists. split; [exact H|]. destruct (Q w) as (Q1 & Q2 & Q3). splits; auto. intros v Hv. exists w. split; [apply (Q3 v), Hv|].
            exists info. split; [exact E|]. rewrite (nth_error_nth _ _ VInvalid Hv) in E0. exact E0.
          - destruct (fo_omitempty o'); eexists; (split; [exact H|]); [splits; auto; intros v Hv; exists v; auto|].
            destruct (Q (zero env (sf_type f))) as (Q1 & Q2 & Q3). splits; auto. intros v Hv. eexists. split; [apply (Q3 v), Hv|reflexivity]. }
        destruct K as (x & Hx & Lx & Ox & Wx). destruct (IH _ _ _ _ _ Hp Hx) as (A & B & C & D). splits.
        * lia.
        * intros j Hj. rewrite B by lia. apply Ox. lia.
        * intros j Hj. cbn [length] in Hj. rewrite C by lia. apply Ox. lia.
        * intros [|j] f' v Hf Hv; cbn [nth_error] in Hf.
          -- injection Hf as <-. rewrite Nat.add_0_r in *. destruct (Wx _ Hv) as (w & W1 & W2). exists w. rewrite B by lia. split; [exact W1|]. rewrite Ej. exact W2.
          -- replace (i + S j)%nat with (S i + j)%nat in * by lia. rewrite <- Ox in Hv by lia. exact (D _ _ _ Hf Hv).
      + destruct (IH _ _ _ _ _ Hp H) as (A & B & C & D). splits.
        * exact A.
        * intros j Hj. apply B. lia.
        * intros j Hj. cbn [length] in Hj. apply C. lia.
        * intros [|j] f' v Hf Hv; cbn [nth_error] in Hf.
          -- injection Hf as <-. rewrite Nat.add_0_r in *. exists v. rewrite B by lia. rewrite Ej. auto.
          -- replace (i + S j)%nat with (S i + j)%nat in * by lia. exact (D _ _ _ Hf Hv).
  Qed.
  Lemma plain_unmarshal k x t v info w : registration c (deref_type t) = None -> x <> [] -> get_type_info env c t = EOk info ->
    decode_json k env je c x info t v no_opts = EOk w -> unmarshal_json k env je c x t v = EOk w.
  Proof.
    intros R N G D. unfold unmarshal_json. destruct x as [|y x]; [contradiction|]. rewrite G. cbn [ebind]. destruct info as [[ct fs m un [r|]]|ii]; try exact D.
    exfalso. assert (Q := info_registration env c Wc Hs _ _ r G eq_refl). congruence.
  Qed.
  (** A struct that was read, field by field. *)
  Theorem struct_each k t fs l b vs w : deref_type t = t -> unread env je t -> resolve env t = RStruct fs -> registration c t = None -> jobject l b ->
    unmarshal_json (S k) env je c b t (VStruct vs) = EOk w ->
    exists ws, w = VStruct ws /\ length ws = length vs /\
      forall i f v, nth_error fs i = Some f -> nth_error vs i = Some v -> exists u, nth_error ws i = Some u /\
        match json_opts f with
        | None => u = v
        | Some o =>
            (no_member (fo_json_name o) l -> u = if fo_omitempty o then v else zero env (sf_type f)) /\
            (forall x, last_member (fo_json_name o) l x -> registration c (deref_type (sf_type f)) = None ->
               unmarshal_json k env je c x (sf_type f) v = EOk u)
        end.
  Proof.
    intros D U R G J H. assert (Hb : b <> []) by (destruct (object_head _ _ J) as (x & ->); discriminate).
    assert (K : exists ci, get_type_info env c t = EOk (TIConc ci) /\ decode_json (S k) env je c b (TIConc ci) t (VStruct vs) no_opts = EOk w).
    { unfold unmarshal_json in H. destruct b as [|y b]; [contradiction|]. einv H. destruct a as [ci|ii].
      - exists ci. split; [exact E|]. destruct ci as [ct ff m un [r|]]; [|exact H]. exfalso. assert (Q := info_registration env c Wc Hs _ _ r E eq_refl). congruence.
      - exfalso. pose proof (gti_minfo _ _ _ _ Hs E) as [_ M]. rewrite D in M. subst t. discriminate. }
    destruct K as (ci & Gi & K). pose proof (gti_minfo _ _ _ _ Hs Gi) as M. rewrite decode_body in K.
    assert (Nu : beqb b null = false) by (destruct (object_head _ _ J) as (x & ->); reflexivity). rewrite Nu in K.
    assert (Nt : deref_type t <> TTime) by (intros X; rewrite D in X; subst t; discriminate).
    assert (Np : is_ptr t = false) by (destruct t; try reflexivity; discriminate).
    assert (Bo : base_of env t (VStruct vs) = VStruct vs) by (destruct t; try reflexivity; discriminate).
    rewrite Bo in K. assert (Re : forall x, rebuild t x = x) by (intros; destruct t; try reflexivity; discriminate).
    einv K. rename a into w'. rewrite Re in K. apply EOk_inj in K. subst w'. rewrite (unread_repr _ _ M) in E by (first [exact Nt|rewrite D; exact U]).
    unfold unjson_switch in E. rewrite (minfo_type _ _ _ _ M), D, R in E. unfold unjson_struct in E.
    destruct (raw_lookup _ _ J) as (m & Em & N & L). rewrite Em in E. cbn [ebind] in E. einv E. rename a into ws. apply EOk_inj in E. subst w.
    destruct M as [M Hi]. destruct (info_ok_parts _ _ Hi) as (_ & Hp & _). unfold parse_struct_info in Hp. rewrite M, D, R in Hp.
    destruct (fields_each _ _ _ _ _ _ _ _ _ Hp E0) as (Le & _ & _ & F). exists ws. splits; [reflexivity|exact Le|].
    intros i f v Hf Hv. destruct (F i f v Hf Hv) as (u & Hu & C). exists u. split; [exact Hu|]. destruct (json_opts f) as [o|]; [|exact C]. split.
    - intros X. rewrite (N _ X) in C. exact C.
    - intros x X Rg. rewrite (L _ _ X) in C. destruct (jtext_nonempty x (last_text _ _ _ (object_members _ _ J) X)) as (y & r & ->). destruct C as (info & Gf & C).
      eapply plain_unmarshal; try eassumption. discriminate.
  Qed.
End Reading.

(** ** Objects and arrays, computed *)

Lemma top_whole b j : json_top b = Some j -> (exists x t, b = x :: t /\ ~ space x) -> (exists x t, b = t ++ [x] /\ ~ space x) -> top_of j b.
Proof.
  intros H (x & t & -> & Nx) (y & u & E & Ny). destruct (top_sound _ _ H) as (w & a & w' & E' & S & S' & T).
  destruct S as [|z w Hz S]; [|cbn [app] in E'; injection E' as -> _; contradiction]. cbn [app] in E'.
  assert (W : w' = []).
  { destruct w' as [|z0 w0]; [reflexivity|]. exfalso. destruct (exists_last (l := z0 :: w0)) as (l & z & Ez); [discriminate|]. rewrite Ez in E', S'.
    rewrite E' in E. rewrite app_assoc in E. apply app_inj_tail in E. destruct E as [_ ->]. unfold spaces in S'. rewrite Forall_app in S'. destruct S' as [_ S']. inversion S'; contradiction. }
  subst w'. rewrite app_nil_r in E'. rewrite E'. exact T.
Qed.
Lemma object_by b l : json_top b = Some (JObj l) -> hd 0 b = 123 -> last b 0 = 125 -> jobject l b.
Proof.
  intros H H1 H2. apply (top_whole b (JObj l) H).
  - destruct b as [|x t]; [discriminate H1|]. exists x, t. split; [reflexivity|]. cbn [hd] in H1. unfold space. lia.
  - destruct b as [|x t]; [discriminate H1|]. exists (last (x :: t) 0), (removelast (x :: t)). split; [apply app_removelast_last; discriminate|]. rewrite H2. unfold space. lia.
Qed.
Lemma array_by b l : json_top b = Some (JArr l) -> hd 0 b = 91 -> last b 0 = 93 -> jarray l b.
Proof.
  intros H H1 H2. apply (top_whole b (JArr l) H).
  - destruct b as [|x t]; [discriminate H1|]. exists x, t. split; [reflexivity|]. cbn [hd] in H1. unfold space. lia.
  - destruct b as [|x t]; [discriminate H1|]. exists (last (x :: t) 0), (removelast (x :: t)). split; [apply app_removelast_last; discriminate|]. rewrite H2. unfold space. lia.
Qed.
(** Members by name, computed. *)
Definition other (n : bytes) (m : bytes * bytes) : bool := match unq (fst m) with EOk n' => negb (beqb n' n) | _ => true end.
Lemma other_ok n m : other n m = true -> ~ called n m.
Proof. unfold other, called. intros H D. rewrite (denotes_unq _ _ D), beqb_refl in H. discriminate. Qed.
Lemma no_member_by n l : forallb (other n) l = true -> no_member n l.
Proof. intros H. apply Forall_forall. intros m Hm. apply other_ok. exact (proj1 (forallb_forall _ _) H m Hm). Qed.
Lemma last_member_by n l x l1 k l2 : good_members l -> l = l1 ++ (k, x) :: l2 -> unq k = EOk n -> forallb (other n) l2 = true -> last_member n l x.
Proof.
  intros G -> E H. exists l1, k, l2. splits; [reflexivity| |apply no_member_by, H]. apply Forall_app in G. destruct G as [_ G]. inversion G as [|? ? [G1 _] _]. apply unq_sound; assumption.
Qed.
