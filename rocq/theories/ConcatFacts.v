(** Messages of structs are the messages of their parts, one after the other. *)
From Coq Require Import ZArith String List Bool Lia.
From Coq Require Import ZifyBool ZifyNat.
From Verif Require Import Base Prims SpecWire PrimFacts PrimProps Types Codec BinEnc BinDec Amino FuelFacts DecFacts
  ValueInd Typing Registry SpecRegistry RegistryFacts Sane DecSafe SpecNorm EncFacts RoundTrip TopFacts SpecStruct SkipFacts SpecDefault SupportedFacts WritableFacts SpecConcat.
Import ListNotations.
Local Open Scope Z_scope.
Local Open Scope amino_scope.

(** [r] succeeds exactly if [a] and [b] do, with their bytes one after the other. *)
Definition glued (r a b : eres bytes) : Prop :=
  forall z, r = EOk z <-> exists x y, a = EOk x /\ b = EOk y /\ z = x ++ y.

Section Glue.
  Variable env : tenv.
  Variable c : codec.
  Hypothesis Hs : sane_codec env c.
  Notation Enc k := (encode_reflect k env c).

  Lemma unpacked_app rec ert einfo o l2 : forall l1, encode_unpacked env rec ert einfo (l1 ++ l2) o =
    ebind (encode_unpacked env rec ert einfo l1 o) (fun x => ebind (encode_unpacked env rec ert einfo l2 o) (fun y => EOk (x ++ y))).
  Proof.
    induction l1 as [|v l1 IH]; cbn [app encode_unpacked ebind].
    - destruct (encode_unpacked env rec ert einfo l2 o); reflexivity.
    - destruct (encode_field_key _ _) as [key| | |]; cbn [ebind]; try reflexivity.
      destruct (is_default_value v) as [erv isdef].
      match goal with |- ebind ?X _ = _ => destruct X as [b| | |]; cbn [ebind]; try reflexivity end. rewrite IH.
      destruct (encode_unpacked env rec ert einfo l1 o) as [y| | |]; cbn [ebind]; try reflexivity.
      destruct (encode_unpacked env rec ert einfo l2 o) as [z| | |]; cbn [ebind]; try reflexivity. rewrite !app_assoc. reflexivity.
  Qed.
  Lemma glued_bind a b : glued (ebind a (fun x => ebind b (fun y => EOk (x ++ y)))) a b.
  Proof.
    intros z. split.
    - intros H. einv H. einv H. apply EOk_inj in H. subst z. eauto.
    - intros (x & y & -> & -> & ->). reflexivity.
  Qed.

  Lemma list_glued rec info t l1 l2 o : minfo env c info t -> deref_type t = t -> entries env t = true ->
    glued (encode_list env c rec info (VSlice (Some (l1 ++ l2))) o true) (encode_list env c rec info (VSlice (Some l1)) o true)
      (encode_list env c rec info (VSlice (Some l2)) o true).
  Proof.
    intros Hi D He. unfold encode_list. rewrite (minfo_type _ _ _ _ Hi), D. unfold entries in He.
    assert (G : forall ert, is_uint8 env ert = false -> delimited env ert = true ->
      let go l := (elet einfo := get_type_info env c ert in
          elet typ3 := type_to_typ3 env (ti_type einfo) o in
          match list_elems (VSlice (Some l)) with
          | None => EPanic "reflect: call on wrong kind"%string
          | Some l => elet buf := (if negb (typ3 =? Typ3ByteLength) then encode_packed env rec ert einfo l o
                           else encode_unpacked env rec ert einfo l o) in EOk (finish true buf)
          end) in glued (go (l1 ++ l2)) (go l1) (go l2)).
    { intros ert _ Hd. cbv zeta. destruct (get_type_info env c ert) as [einfo| | |] eqn:Eg; cbn [ebind]; try (intros z; split; [discriminate|intros (? & ? & X & _); discriminate X]).
      pose proof (gti_minfo _ _ _ _ Hs Eg) as Hm.
      destruct (type_to_typ3 env (ti_type einfo) o) as [z| | |] eqn:Et; cbn [ebind]; try (intros z; split; [discriminate|intros (? & ? & X & _); discriminate X]).
      rewrite (typ3_elem env c einfo ert o z Hm Et), Hd. cbn [negb list_elems]. rewrite unpacked_app. unfold finish.
      intros q. split.
      - intros H. einv H. einv E. einv E. apply EOk_inj in E. subst a. apply EOk_inj in H. subst q. exists a0, a1. rewrite E0, E1. auto.
      - intros (x & y & H1 & H2 & ->). einv H1. einv H2. apply EOk_inj in H1. apply EOk_inj in H2. subst. rewrite E, E0. reflexivity. }
    destruct (resolve env t) as [| |n e|e| | | | | | |]; try discriminate He; apply andb_prop in He; destruct He as [H1 H2];
      apply negb_true_iff in H1; rewrite H1; apply (G e H1 H2).
  Qed.

  Lemma field_we num f o fi : field_opts num f = Some o -> fi_opts fi = set_num (u32 num) o ->
    fo_write_empty (fi_opts fi) = writes_empty f.
  Proof.
    intros Eo ->. unfold field_opts in Eo. destruct (sf_exported f); [|discriminate Eo]. unfold writes_empty.
    destruct (parse_field_options f) as [o0|]; [|discriminate Eo]. cbn [option_map] in Eo. injection Eo as <-. reflexivity.
  Qed.

  (** What says nothing takes no bytes, if what it stands for can be written. *)
  Lemma plain_enc k info t v o bare : minfo env c info t -> deref_type t = t -> has_method env t = false -> match v with VPtr _ | VInvalid => False | _ => True end ->
    Enc (S k) info v o bare = encode_switch env c (Enc k) (S k) info v o bare.
  Proof.
    intros Hi D Hm Hv. cbn [encode_reflect]. destruct info as [ci|ii]; [|destruct v; try reflexivity; contradiction]. destruct Hi as [H1 H2]. rewrite D in H1.
    pose proof (minfo_method _ _ _ H1 H2) as M. destruct ci as [ct reg cm cu cf]; cbn [ci_marshal ci_type] in *. subst ct.
    destruct cm as [r|]; [|destruct v; try reflexivity; contradiction].
    destruct M as (id & g & Ei & M & _). rewrite Ei in Hm. cbn in Hm. rewrite M in Hm. discriminate Hm.
  Qed.
  Lemma hush_nonptr t v w : hush env t v w -> deref_type t = t /\ entries env t = false /\ defaultv v = false /\ defaultv w = false /\
    under v = Some v /\ under w = Some w /\ val_is_ptr w = false.
  Proof.
    intros H. inversion H; subst; (split; [destruct t; try reflexivity; discriminate|]); (split; [unfold entries; match goal with E : resolve _ _ = _ |- _ => rewrite E end; reflexivity|]); auto.
  Qed.
  (** One field: what is said of values of its type carries over. *)
  Lemma hush_field k f fi v w z : fi_type fi = sf_type f -> fi_unpacked fi = entries env (sf_type f) -> fo_write_empty (fi_opts fi) = writes_empty f ->
    writes_empty f = false -> hush env (sf_type f) v w ->
    (forall info o z, minfo env c info (sf_type f) -> Enc k info v o false = EOk z -> Enc k info w o false = EOk [0]) ->
    encode_field env c (Enc k) fi v = EOk z -> encode_field env c (Enc k) fi w = EOk [].
  Proof.
    intros Ht Hu Hw Ne Hh IH H. destruct (hush_nonptr _ _ _ Hh) as (D & Ee & D1 & D2 & U1 & U2 & P2).
    unfold encode_field in *. einv H. rename a into info, E into Eg. rewrite Eg. cbn [ebind]. rewrite default_pair in *. cbv iota beta in *.
    rewrite Hw, Ne, Hu, Ee, D1, D2, U1, U2, P2 in *. cbn [negb andb orb] in *. unfold write_field in *. einv H. rewrite E. cbn [ebind]. einv H. rewrite E0. cbn [ebind]. einv H.
    rewrite Ht in Eg. rewrite (IH info (fi_opts fi) _ (gti_minfo _ _ _ _ Hs Eg) E1). reflexivity.
  Qed.
  Lemma default_field k f fi v w z : fo_write_empty (fi_opts fi) = writes_empty f -> writes_empty f = false -> defaultv w = true ->
    encode_field env c (Enc k) fi v = EOk z -> encode_field env c (Enc k) fi w = EOk [].
  Proof.
    intros Hw Ne Hd H. unfold encode_field in *. einv H. rewrite E. cbn [ebind]. rewrite default_pair in *. cbv iota beta in *. rewrite Hw, Ne, Hd. reflexivity.
  Qed.
  Lemma hush_empty : 
    (forall t v w, hush env t v w -> forall k info o z, minfo env c info t -> Enc k info v o false = EOk z -> Enc k info w o false = EOk [0]) /\
    (forall fs l lw, hush_fields env fs l lw -> forall k i num infos p pw z, parse_fields env fs i num = EOk infos -> length p = i -> length pw = i ->
       encode_fields env c (Enc k) infos (p ++ l) = EOk z -> encode_fields env c (Enc k) infos (pw ++ lw) = EOk []).
  Proof.
    apply hush_mut.
    - intros t b Hr Hm k info o z Hi H. assert (D : deref_type t = t) by (destruct t; try reflexivity; discriminate Hr). destruct k as [|k]; [discriminate|].
      rewrite (plain_enc k info t) by (assumption || exact I). unfold encode_switch. rewrite (minfo_type _ _ _ _ Hi), D, Hr. reflexivity.
    - intros t s n Hr k info o z Hi H. destruct k as [|k]; [discriminate|].
      assert (D : deref_type t = t) by (destruct t; try reflexivity; discriminate Hr).
      assert (Hm : has_method env t = false) by (destruct t as [| | | | | | | | |id]; try discriminate Hr; try reflexivity; cbn in Hr; destruct (te_def env id) as [|[]]; discriminate Hr).
      rewrite (plain_enc k info t) in * by (assumption || exact I). unfold encode_switch in *. rewrite (minfo_type _ _ _ _ Hi), D, Hr in *.
      destruct info as [ci|ii]; [|discriminate H]. destruct Hi as [Hct _]. unfold encode_struct in *. rewrite Hct, D, Hr in *. reflexivity.
    - intros t fs l lw Hr Hm _ IH k info o z Hi H. destruct k as [|k]; [discriminate|].
      assert (D : deref_type t = t) by (destruct t; try reflexivity; discriminate Hr).
      rewrite (plain_enc k info t) in * by (assumption || exact I). unfold encode_switch in *. rewrite (minfo_type _ _ _ _ Hi), D, Hr in *.
      destruct info as [ci|ii]; [|discriminate H]. destruct Hi as [Hct Hok]. unfold encode_struct in *. rewrite Hct, D, Hr in *.
      destruct (info_ok_parts _ _ Hok) as (_ & Hp & _). rewrite Hct in Hp. unfold parse_struct_info in Hp. rewrite Hr in Hp. einv H.
      rewrite (IH k 0%nat 0%nat (ci_fields ci) [] [] _ Hp eq_refl eq_refl E : encode_fields env c (Enc k) (ci_fields ci) lw = EOk []). reflexivity.
    - intros k i num infos p pw z Hp _ _ _. cbn in Hp. apply EOk_inj in Hp. subst infos. reflexivity.
    - intros f fs v w l lw Hv Ne Hd _ IH k i num infos p pw z Hp L Lw H.
      apply parse_step in Hp. destruct (field_opts _ f) as [o|] eqn:Eo; [|apply visible_opts in Eo; congruence].
      destruct Hp as (fi & rest & -> & Hx & Ht & Hu & Ho & _ & Hp). cbn [encode_fields] in *. rewrite Hx in *.
      rewrite app_nth2, L, Nat.sub_diag in H by lia. rewrite app_nth2, Lw, Nat.sub_diag by lia. cbn [nth] in *. einv H. einv H.
      rewrite (default_field k f fi v w _ (field_we _ _ _ _ Eo Ho) Ne Hd E). cbn [ebind].
      specialize (IH k (S i) (S num) rest (p ++ [v]) (pw ++ [w])). rewrite !app_length, <- !app_assoc in IH. cbn in IH. erewrite IH; [reflexivity|exact Hp|lia|lia|exact E0].
    - intros f fs v w l lw Hv Ne Hh IHv _ IH k i num infos p pw z Hp L Lw H.
      apply parse_step in Hp. destruct (field_opts _ f) as [o|] eqn:Eo; [|apply visible_opts in Eo; congruence].
      destruct Hp as (fi & rest & -> & Hx & Ht & Hu & Ho & _ & Hp). cbn [encode_fields] in *. rewrite Hx in *.
      rewrite app_nth2, L, Nat.sub_diag in H by lia. rewrite app_nth2, Lw, Nat.sub_diag by lia. cbn [nth] in *. einv H. einv H.
      rewrite (hush_field k f fi v w _ Ht Hu (field_we _ _ _ _ Eo Ho) Ne Hh (IHv k) E). cbn [ebind].
      specialize (IH k (S i) (S num) rest (p ++ [v]) (pw ++ [w])). rewrite !app_length, <- !app_assoc in IH. cbn in IH. erewrite IH; [reflexivity|exact Hp|lia|lia|exact E0].
    - intros f fs v w l lw Hv _ IH k i num infos p pw z Hp L Lw H.
      apply parse_step in Hp. destruct (field_opts _ f) as [o|] eqn:Eo; [apply visible_opts with (num := Z.of_nat num + 1) in Hv; congruence|].
      specialize (IH k (S i) num infos (p ++ [v]) (pw ++ [w])). rewrite !app_length, <- !app_assoc in IH. cbn in IH. eapply IH; [exact Hp|lia|lia|exact H].
  Qed.
  Lemma unsaid_empty k f fi v w z : fi_type fi = sf_type f -> fi_unpacked fi = entries env (sf_type f) -> fo_write_empty (fi_opts fi) = writes_empty f ->
    unsaid env f v w -> encode_field env c (Enc k) fi v = EOk z -> encode_field env c (Enc k) fi w = EOk [].
  Proof.
    intros Ht Hu Hw [Ne [Hd|Hh]] H; [eapply default_field; eassumption|].
    eapply hush_field; try eassumption. intros info o z0 Hi. apply (proj1 hush_empty _ _ _ Hh). exact Hi.
  Qed.

  Lemma second_empty k fs : forall i num infos p pa pb l la lb, parse_fields env fs i num = EOk infos -> length p = i -> length pa = i -> length pb = i ->
    second env fs l la lb ->
    encode_fields env c (Enc k) infos (p ++ l) = encode_fields env c (Enc k) infos (pb ++ lb) /\
    forall z, encode_fields env c (Enc k) infos (p ++ l) = EOk z -> encode_fields env c (Enc k) infos (pa ++ la) = EOk [].
  Proof.
    intros i num infos p pa pb l la lb Hp L La Lb H. revert i num infos p pa pb Hp L La Lb.
    induction H; intros i num infos p pa pb Hp L La Lb.
    - cbn in Hp. apply EOk_inj in Hp. subst infos. split; reflexivity.
    - apply parse_step in Hp. destruct (field_opts _ f) as [o|] eqn:Eo; [|apply visible_opts in Eo; congruence].
      destruct Hp as (fi & rest & -> & Hx & Ht & Hu & Ho & _ & Hp). cbn [encode_fields]. rewrite Hx.
      rewrite !app_nth2, L, La, Lb, !Nat.sub_diag by lia. cbn [nth].
      destruct (IHsecond _ _ _ (p ++ [v]) (pa ++ [w]) (pb ++ [v]) Hp) as [A B]; [rewrite app_length; cbn; lia..|].
      rewrite <- !app_assoc in A, B. cbn [app] in A, B. split; [rewrite A; reflexivity|].
      intros z Hz. einv Hz. einv Hz. rewrite (unsaid_empty k f fi v w a Ht Hu (field_we _ _ _ _ Eo Ho) H0 E).
      cbn [ebind]. rewrite (B _ E0). reflexivity.
    - apply parse_step in Hp. destruct (field_opts _ f) as [o|] eqn:Eo; [apply visible_opts with (num := Z.of_nat num + 1) in H; congruence|].
      destruct (IHsecond _ _ _ (p ++ [v]) (pa ++ [w]) (pb ++ [x]) Hp) as [A B]; [rewrite app_length; cbn; lia..|].
      rewrite <- !app_assoc in A, B. cbn [app] in A, B. auto.
  Qed.
  Lemma fields_glued k fs : forall i num infos p pa pb l la lb, parse_fields env fs i num = EOk infos -> length p = i -> length pa = i -> length pb = i ->
    joins env fs l la lb ->
    glued (encode_fields env c (Enc k) infos (p ++ l)) (encode_fields env c (Enc k) infos (pa ++ la)) (encode_fields env c (Enc k) infos (pb ++ lb)).
  Proof.
    intros i num infos p pa pb l la lb Hp L La Lb H. revert i num infos p pa pb Hp L La Lb.
    induction H; intros i num infos p pa pb Hp L La Lb.
    - destruct (second_empty k _ _ _ _ p pa pb _ _ _ Hp L La Lb H) as [A B]. intros z. split.
      + intros Hz. exists [], z. splits; [eauto|congruence|reflexivity].
      + intros (x & y & H1 & H2 & ->). rewrite <- A in H2. pose proof (B _ H2) as B'. rewrite H1 in B'. apply EOk_inj in B'. subst x. exact H2.
    - apply parse_step in Hp. destruct (field_opts _ f) as [o|] eqn:Eo; [|apply visible_opts in Eo; congruence].
      destruct Hp as (fi & rest & -> & Hx & Ht & Hu & Ho & _ & Hp). cbn [encode_fields]. rewrite Hx.
      rewrite !app_nth2, L, La, Lb, !Nat.sub_diag by lia. cbn [nth].
      assert (A := IHjoins _ _ _ (p ++ [v]) (pa ++ [v]) (pb ++ [w]) Hp).
      rewrite !app_length in A. cbn in A. specialize (A ltac:(lia) ltac:(lia) ltac:(lia)).
      rewrite <- !app_assoc in A. cbn [app] in A.
      pose proof (fun z => unsaid_empty k f fi v w z Ht Hu (field_we _ _ _ _ Eo Ho) H0) as U. intros z. split.
      + intros Hz. einv Hz. einv Hz. apply EOk_inj in Hz. subst z. apply A in E0. destruct E0 as (x & y & H2 & H3 & ->).
        exists (a ++ x), y. rewrite E, (U _ E), H2, H3. cbn [ebind]. rewrite app_assoc. auto.
      + intros (x & y & H2 & H3 & ->). einv H2. einv H2. apply EOk_inj in H2. subst x. rewrite (U _ E) in H3. rewrite E. cbn [ebind] in H3 |- *. einv H3.
        apply EOk_inj in H3. subst y. rewrite (proj2 (A (a0 ++ a1)) ltac:(eauto)). cbn [ebind app]. rewrite app_assoc. reflexivity.
    - apply parse_step in Hp. destruct (field_opts _ f) as [o|] eqn:Eo; [|apply visible_opts in Eo; congruence].
      destruct Hp as (fi & rest & -> & Hx & Ht & Hu & Ho & _ & Hp). cbn [encode_fields]. rewrite Hx.
      rewrite !app_nth2, L, La, Lb, !Nat.sub_diag by lia. cbn [nth].
      destruct (second_empty k _ _ _ _ (p ++ [VSlice (Some (x :: xs ++ y :: ys))]) (pa ++ [VSlice (Some (x :: xs))]) (pb ++ [VSlice (Some (y :: ys))]) l la lb Hp) as [A B]; [rewrite app_length; cbn; lia..|exact H1|].
      rewrite <- !app_assoc in A, B. cbn [app] in A, B.
      assert (F : glued (encode_field env c (Enc k) fi (VSlice (Some (x :: xs ++ y :: ys)))) (encode_field env c (Enc k) fi (VSlice (Some (x :: xs)))) (encode_field env c (Enc k) fi (VSlice (Some (y :: ys))))).
      { unfold encode_field. destruct (get_type_info env c (fi_type fi)) as [info| | |] eqn:Eg; cbn [ebind]; try (intros z; split; [discriminate|intros (? & ? & X & _); discriminate X]).
        rewrite !default_pair. cbn [defaultv under andb]. rewrite Hu, H0.
        change (x :: xs ++ y :: ys) with ((x :: xs) ++ (y :: ys)). apply list_glued with (t := sf_type f); [rewrite <- Ht; apply (gti_minfo _ _ _ _ Hs Eg)| |exact H0].
        unfold entries in H0. destruct (sf_type f); try reflexivity; discriminate H0. }
      intros z. split.
      + intros Hz. einv Hz. einv Hz. apply EOk_inj in Hz. subst z. apply F in E. destruct E as (q & r & H2 & H3 & ->).
        exists q, (r ++ a0). rewrite H2, H3. cbn [ebind]. rewrite (B _ E0), <- A, E0. cbn [ebind]. rewrite app_nil_r, app_assoc. auto.
      + intros (q & r & H2 & H3 & ->). einv H2. einv H2. apply EOk_inj in H2. subst q. einv H3. einv H3. apply EOk_inj in H3. subst r.
        rewrite <- A in E2. pose proof (B _ E2) as B'. rewrite E0 in B'. apply EOk_inj in B'. subst a0.
        rewrite (proj2 (F (a ++ a1)) ltac:(eauto)). cbn [ebind]. rewrite E2. cbn [ebind]. rewrite app_nil_r, app_assoc. reflexivity.
    - apply parse_step in Hp. destruct (field_opts _ f) as [o|] eqn:Eo; [apply visible_opts with (num := Z.of_nat num + 1) in H; congruence|].
      assert (A := IHjoins _ _ _ (p ++ [v]) (pa ++ [w]) (pb ++ [x]) Hp). rewrite !app_length in A. cbn in A. specialize (A ltac:(lia) ltac:(lia) ltac:(lia)).
      rewrite <- !app_assoc in A. cbn [app] in A. exact A.
  Qed.

  Lemma glued_fail a b c' : (forall z, a <> EOk z) -> (forall z, b <> EOk z) -> glued a b c'.
  Proof. intros A B z. split; [intros X; destruct (A _ X)|intros (x & y & X & _); destruct (B _ X)]. Qed.
  Lemma unregistered t info : wf_codec env c -> get_type_info env c t = EOk info -> deref_type t = t -> registered c t = None ->
    match info with TIConc ci => ci_reg ci = None | TIFace _ => True end.
  Proof.
    intros Wc Hg D Hr. destruct info as [ci|ii]; [|exact I]. destruct (ci_reg ci) as [r|] eqn:Er; [|reflexivity]. exfalso.
    apply (proj1 (registered_iff env c Wc Hs t)); [|rewrite D; exact Hr]. rewrite Hg, Er. discriminate.
  Qed.
  Lemma marshal_plain k t v : wf_codec env c -> deref_type t = t -> registered c t = None -> has_method env t = false -> is_struct_or_repeated_struct env t = true ->
    match v with VPtr _ | VInvalid => False | _ => True end ->
    marshal_bare (S k) env c t v = elet info := get_type_info env c t in encode_switch env c (Enc k) (S k) info v (set_num 1 no_opts) true.
  Proof.
    intros Wc D Hr Hm Hb Hv. unfold marshal_bare. assert (P : deref_pointers v = (v, false)) by (destruct v; try reflexivity; contradiction).
    rewrite P, D. destruct (get_type_info env c t) as [info| | |] eqn:Eg; cbn [ebind]; try reflexivity.
    pose proof (gti_minfo _ _ _ _ Hs Eg) as Hi. rewrite (minfo_type _ _ _ _ Hi), D, Hb. cbn [negb].
    pose proof (unregistered t info Wc Eg D Hr) as R.
    assert (E : Enc (S k) info v (set_num 1 no_opts) true = encode_switch env c (Enc k) (S k) info v (set_num 1 no_opts) true).
    { apply plain_enc with (t := t); assumption. }
    rewrite E. destruct (encode_switch _ _ _ _ _ _ _ _) as [z| | |]; cbn [ebind]; try reflexivity.
    destruct info as [ci|ii]; [|reflexivity]. destruct ci as [ct reg cm cu cf]; cbn [ci_reg] in R. rewrite R. reflexivity.
  Qed.

  Theorem struct_glued k t fs l la lb : wf_codec env c -> resolve env t = RStruct fs -> has_method env t = false -> registered c t = None ->
    joins env fs l la lb ->
    glued (marshal_bare k env c t (VStruct l)) (marshal_bare k env c t (VStruct la)) (marshal_bare k env c t (VStruct lb)).
  Proof.
    intros Wc Er Hm Hr Hj. assert (D : deref_type t = t) by (destruct t; try reflexivity; discriminate Er).
    assert (Hb : is_struct_or_repeated_struct env t = true) by (unfold is_struct_or_repeated_struct, is_struct; rewrite Er; reflexivity).
    destruct k as [|k].
    { assert (F : forall l z, marshal_bare 0 env c t (VStruct l) <> EOk z).
      { intros l' z X. unfold marshal_bare in X. cbn [deref_pointers] in X. einv X. rewrite D in E. rewrite (minfo_type _ _ _ _ (gti_minfo _ _ _ _ Hs E)), D, Hb in X.
        cbn [negb encode_reflect ebind] in X. discriminate X. }
      apply glued_fail; auto. }
    rewrite !(marshal_plain k t) by (try assumption; exact I).
    destruct (get_type_info env c t) as [info| | |] eqn:Eg; cbn [ebind]; try (apply glued_fail; discriminate).
    pose proof (gti_minfo _ _ _ _ Hs Eg) as Hi. unfold encode_switch. rewrite (minfo_type _ _ _ _ Hi), D, Er.
    destruct info as [ci|ii]; [|apply glued_fail; discriminate]. destruct Hi as [Hct Hok]. unfold encode_struct. rewrite Hct, D, Er.
    destruct (info_ok_parts _ _ Hok) as (_ & Hp & _). rewrite Hct, D in Hp. unfold parse_struct_info in Hp. rewrite Er in Hp.
    pose proof (fields_glued k _ _ _ _ [] [] [] _ _ _ Hp eq_refl eq_refl eq_refl Hj) as G. cbn [app] in G. unfold finish. intros z. split.
    - intros H. einv H. apply EOk_inj in H. subst z. apply G in E. destruct E as (x & y & -> & -> & ->). cbn [ebind]. eauto.
    - intros (x & y & H1 & H2 & ->). einv H1. einv H2. apply EOk_inj in H1. apply EOk_inj in H2. subst.
      rewrite (proj2 (G (x ++ y)) ltac:(eauto)). reflexivity.
  Qed.
  Theorem slice_glued k t e l1 l2 : wf_codec env c -> resolve env t = RSlice e -> is_struct env e = true -> has_method env t = false -> registered c t = None ->
    glued (marshal_bare k env c t (VSlice (Some (l1 ++ l2)))) (marshal_bare k env c t (VSlice (Some l1))) (marshal_bare k env c t (VSlice (Some l2))).
  Proof.
    intros Wc Er He Hm Hr. assert (D : deref_type t = t) by (destruct t; try reflexivity; discriminate Er).
    assert (Hb : is_struct_or_repeated_struct env t = true) by (unfold is_struct_or_repeated_struct; rewrite Er; exact He).
    destruct k as [|k].
    { assert (F : forall l z, marshal_bare 0 env c t (VSlice (Some l)) <> EOk z).
      { intros l' z X. unfold marshal_bare in X. cbn [deref_pointers] in X. einv X. rewrite D in E. rewrite (minfo_type _ _ _ _ (gti_minfo _ _ _ _ Hs E)), D, Hb in X.
        cbn [negb encode_reflect ebind] in X. discriminate X. }
      apply glued_fail; auto. }
    rewrite !(marshal_plain k t) by (try assumption; exact I).
    destruct (get_type_info env c t) as [info| | |] eqn:Eg; cbn [ebind]; try (apply glued_fail; discriminate).
    pose proof (gti_minfo _ _ _ _ Hs Eg) as Hi. unfold encode_switch. rewrite (minfo_type _ _ _ _ Hi), D, Er.
    assert (U : is_uint8 env e = false /\ is_list_kind env e = false /\ delimited env e = true).
    { unfold is_struct in He. assert (De : deref_type e = e) by (destruct e; try reflexivity; discriminate He).
      unfold is_uint8, is_list_kind, delimited. rewrite De. destruct (resolve env e); try discriminate He; auto. }
    destruct U as (U1 & U2 & U3). rewrite U1, U2. apply list_glued with (t := t); [exact Hi|exact D|]. unfold entries. rewrite Er, U1, U3. reflexivity.
  Qed.
End Glue.
