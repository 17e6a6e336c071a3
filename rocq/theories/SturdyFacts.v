(** Marshal returns bytes or an error. *)
From Coq Require Import ZArith String List Bool Lia.
From Coq Require Import ZifyBool ZifyNat.
From Verif Require Import Base Prims SpecWire PrimFacts PrimProps Types Codec BinEnc BinDec Amino FuelFacts DecFacts
  ValueInd Typing Registry SpecRegistry RegistryFacts Sane DecSafe SpecNorm EncFacts RoundTrip TopFacts SpecSupported SupportedFacts SpecWritable WritableFacts.
Import ListNotations.
Local Open Scope Z_scope.
Local Open Scope amino_scope.

Definition fin {A} (r : eres A) : bool := match r with EOk _ | EErr _ => true | _ => false end.
Lemma fin_bind {A B} (r : eres A) (f : A -> eres B) : fin r = true -> (forall x, r = EOk x -> fin (f x) = true) -> fin (ebind r f) = true.
Proof. destruct r; cbn; auto; discriminate. Qed.
Lemma fin_okb {A} (r : eres A) : okb r = true -> fin r = true.
Proof. destruct r; auto. Qed.

(** ** Height of values *)
Definition maxl (l : list nat) : nat := fold_right Nat.max 0%nat l.
Fixpoint height (v : value) : nat :=
  match v with
  | VArr l | VStruct l | VSlice (Some l) => S (maxl (map height l))
  | VPtr (Some w) => height w
  | VIface (Some (_, w)) => S (height w)
  | _ => 0%nat
  end.
Lemma height_in l v : In v l -> (height v <= maxl (map height l))%nat.
Proof. induction l as [|x l IH]; cbn; [contradiction|]. intros [<-|H]; [lia|]. specialize (IH H). unfold maxl in IH. lia. Qed.
Lemma height_under v : forall w, under v = Some w -> (height w <= height v)%nat.
Proof. induction v using value_ind'; intros w; cbn [under]; try (intros X; inversion X; subst; cbn; lia); try discriminate. intros X. cbn [height]. auto. Qed.

Section S.
  Variable env : tenv.
  Hypothesis We : wf_env env.
  Variable c : codec.
  Hypothesis Hs : sane_codec env c.
  Hypothesis Hm : marshal_typed env.
  Variable mem : gotype -> bool.
  Variable rank : gotype -> nat.
  Hypothesis Hst : sturdy env mem rank.

  Notation firm := (firm mem).
  Notation E k := (encode_reflect k env c).

  Lemma firm_under v : forall w, under v = Some w -> firm v = true -> firm w = true.
  Proof. clear. induction v using value_ind'; intros w; cbn [under]; try (intros X; inversion X; subst; auto); try discriminate. Qed.

  Lemma mem_wired t : mem t = true -> wired env t = true.
  Proof. intros H. destruct (Hst t H) as (_ & W & _). exact W. Qed.
  Lemma fin_typ3 t o : mem t = true -> exists z, type_to_typ3 env t o = EOk z.
  Proof. intros H. apply mem_wired in H. rewrite <- (okb_typ3 env t o) in H. destruct (type_to_typ3 env t o); try discriminate. eexists; reflexivity. Qed.

  Lemma parse_fin fs : forall i num, forallb (fun f => match field_opts 1 f with Some o => parsable_field env (sf_type f) o | None => true end) fs = true ->
    fin (parse_fields env fs i num) = true.
  Proof.
    clear. induction fs as [|f fs IH]; intros i num H; [reflexivity|]. cbn [forallb parse_fields] in *. apply andb_true_iff in H. destruct H as [H1 H2].
    unfold field_opts in H1. destruct (sf_exported f); cbn [negb]; [|apply IH, H2]. destruct (parse_field_options f) as [o|]; cbn [option_map] in H1; [|apply IH, H2].
    unfold parsable_field in H1. apply fin_bind.
    - unfold unpacked_list. destruct (resolve env (sf_type f)) eqn:Er; try reflexivity; (destruct (is_uint8 env e); [reflexivity|]; cbn [orb] in H1;
        rewrite <- (okb_typ3 env (deref_type e) o) in H1; destruct (type_to_typ3 _ _ _); try discriminate; reflexivity).
    - intros up _. cbv zeta. apply fin_bind; [|intros _ _; apply fin_bind; [apply IH, H2|reflexivity]].
      unfold check_unsafe. cbn [set_num fo_unsafe] in *. destruct (fo_unsafe o); [reflexivity|]. destruct (resolve env (sf_type f)) as [[]| | | | | | | | | |]; try reflexivity; discriminate.
  Qed.

  Lemma gti_fin t : mem (deref_type t) = true -> fin (get_type_info env c t) = true.
  Proof.
    intros H. destruct (Hst _ H) as (Pa & _ & Me). unfold get_type_info.
    assert (G : is_iface (deref_type t) = false -> fin (new_type_info env (deref_type t)) = true).
    { intros Ni. assert (Np : is_ptr (deref_type t) = false) by apply deref_is_ptr. unfold new_type_info, parsable in *.
      assert (X : fin (elet fs := parse_struct_info env (deref_type t) in elet m := marshal_repr env (deref_type t) in elet u := unmarshal_repr env (deref_type t) in
         EOk {| ci_type := deref_type t; ci_fields := fs; ci_marshal := m; ci_unmarshal := u; ci_reg := None |}) = true).
      { apply fin_bind; [|intros fs _; apply fin_bind; [|intros m _; apply fin_bind; [|reflexivity]]].
        - unfold parse_struct_info. destruct (resolve env (deref_type t)); try reflexivity. apply parse_fin, Pa.
        - unfold marshal_repr. destruct (deref_type t); try reflexivity. destruct Me as [Me _]. destruct (te_marshal env id) as [[|r f]|]; [contradiction| |reflexivity].
          destruct Me as (N & _). destruct r; try discriminate N; reflexivity.
        - unfold unmarshal_repr. destruct (deref_type t); try reflexivity. destruct Me as [_ Me]. destruct (te_unmarshal env id) as [[|r f]|]; [contradiction| |reflexivity].
          destruct r; try discriminate Me; reflexivity. }
      destruct (deref_type t); try discriminate; exact X. }
    destruct (deref_type t) eqn:Et; try (destruct (assoc _ _ _); [reflexivity|]; apply fin_bind; [apply G; reflexivity|reflexivity]).
    - destruct (find_iface _ _); reflexivity.
  Qed.

  (** Enough fuel for all of a list. *)
  Lemma fin_lift k k' info v o bare : (k <= k')%nat -> fin (E k info v o bare) = true -> E k' info v o bare = E k info v o bare.
  Proof. clear. intros Hk H. destruct (encode_fuel_mono env c k k' info v o bare Hk) as [X|X]; [rewrite X in H; discriminate|congruence]. Qed.
  Lemma fin_more k k' info v o bare : (k <= k')%nat -> fin (E k info v o bare) = true -> fin (E k' info v o bare) = true.
  Proof. intros Hk H. rewrite (fin_lift k k') by assumption. exact H. Qed.

  Lemma fuel_for {A} (P : A -> nat -> Prop) (l : list A) : (forall x, In x l -> exists k, P x k) -> (forall x k k', (k <= k')%nat -> P x k -> P x k') ->
    exists k, forall x, In x l -> P x k.
  Proof.
    clear. intros H Hm. induction l as [|x l IH]; [exists 0%nat; contradiction|]. destruct (H x (or_introl eq_refl)) as [k1 H1].
    destruct IH as [k2 H2]; [intros y Hy; apply H; right; exact Hy|]. exists (Nat.max k1 k2).
    intros y [<-|Hy]; [eapply Hm; [|exact H1]; lia|eapply Hm; [|exact (H2 y Hy)]; lia].
  Qed.

  Lemma packed_fin k e einfo o l : (forall v, In v l -> fin (E k einfo (deref_pointers_zero env e v) o false) = true) ->
    fin (encode_packed env (E k) e einfo l o) = true.
  Proof.
    clear. induction l as [|v l IH]; intros H; [reflexivity|]. cbn [encode_packed]. apply fin_bind; [apply H; left; reflexivity|].
    intros b _. apply fin_bind; [apply IH; intros; apply H; right; assumption|reflexivity].
  Qed.
  Lemma unpacked_fin k e einfo o l : fo_num o < field_limit ->
    (forall v w, In v l -> under v = Some w -> fin (E k einfo w (set_num 1 o) false) = true) ->
    fin (encode_unpacked env (E k) e einfo l o) = true.
  Proof.
    clear. intros Hn. induction l as [|v l IH]; intros H; [reflexivity|]. cbn [encode_unpacked]. apply fin_bind; [apply fin_okb; rewrite okb_key by reflexivity; lia|].
    intros key _. rewrite default_pair. apply fin_bind; [|intros b _; apply fin_bind; [apply IH; intros; eapply H; [right; eassumption|assumption]|reflexivity]].
    destruct (defaultv v) eqn:D; [destruct (_ && _); reflexivity|]. destruct (under v) as [w|] eqn:U; [|apply under_default in U; congruence].
    eapply H; [left; reflexivity|exact U].
  Qed.

  (** The goal for values of types up to rank [n], of height below [h]. *)
  Definition fin_at (n h : nat) : Prop := forall info t v o bare, minfo env c info t -> deref_type t = t -> mem t = true -> (rank t <= n)%nat ->
    has_type env t v = true -> firm v = true -> (height v < h)%nat -> 0 <= fo_num o < field_limit -> exists k, fin (E k info v o bare) = true.

  Lemma sturdy_part_inv n e : sturdy_part mem rank n e = true -> mem (deref_type e) = true /\ (rank (deref_type e) <= n)%nat.
  Proof. unfold sturdy_part. rewrite andb_true_iff, Nat.leb_le. auto. Qed.

  Lemma list_fin n h info t v o bare e : fin_at n h -> minfo env c info t -> deref_type t = t -> has_type env t v = true -> firm v = true -> (height v < S h)%nat ->
    0 <= fo_num o < field_limit -> elem_type env t = Some e -> is_uint8 env e = false -> sturdy_part mem rank n e = true ->
    exists k, fin (encode_list env c (E k) info v o bare) = true.
  Proof.
    intros IH Hi Hd Ht Hf Hh Hn Ee Eu Hp. pose proof (minfo_type _ _ _ _ Hi) as Ety. rewrite Hd in Ety. apply sturdy_part_inv in Hp. destruct Hp as [Hmem Hrk].
    assert (El : exists l, list_elems v = Some l /\ forallb firm l = true /\ (forall x, In x l -> (height x < h)%nat)).
    { unfold elem_type in Ee. destruct v as [| | | | | |l0|[l0|]| | | | | | |]; cbn [has_type] in Ht; destruct (resolve env t) as [[]| | | | | | | | | |]; try discriminate Ht; try discriminate Ee;
        cbn [list_elems SpecWritable.firm height] in *; (eexists; split; [reflexivity|]; split; [try exact Hf; reflexivity|]); intros x Hx; try contradiction Hx;
        pose proof (height_in _ _ Hx) as HH; cbn [height] in Hh; clear - HH Hh; lia. }
    destruct El as (l & El & Hfl & Hhl). pose proof (elem_typed _ _ _ _ _ Ee Ht El) as Hl. rewrite forallb_forall in Hl, Hfl.
    assert (G : exists k, fin (elet einfo := get_type_info env c e in
             elet typ3 := type_to_typ3 env (ti_type einfo) o in
             match list_elems v with
             | Some l => elet buf := (if negb (typ3 =? Typ3ByteLength) then encode_packed env (E k) e einfo l o else encode_unpacked env (E k) e einfo l o) in EOk (finish bare buf)
             | None => EPanic "reflect: call on wrong kind"%string
             end) = true).
    { pose proof (gti_fin e Hmem) as Gf. destruct (get_type_info env c e) as [einfo| | |] eqn:Eg; try discriminate Gf; [|exists 0%nat; reflexivity].
      pose proof (gti_minfo _ _ _ _ Hs Eg) as Hie. cbn [ebind]. rewrite (minfo_type _ _ _ _ Hie). destruct (fin_typ3 (deref_type e) o Hmem) as [z Hz]. rewrite Hz, El. cbn [ebind].
      rewrite (typ3_delimited _ _ _ _ Hz). destruct (delimited env e) eqn:Ed; cbn [negb].
      - destruct (fuel_for (fun v k => forall w, under v = Some w -> fin (E k einfo w (set_num 1 o) false) = true) l) as [k Hk].
        + intros x Hx. destruct (under x) as [w|] eqn:U; [|exists 0%nat; discriminate].
          destruct (IH einfo (deref_type e) w (set_num 1 o) false (minfo_deref _ _ _ _ Hie) (deref_idem e) Hmem Hrk) as [k Hk]; try (cbn; unfold field_limit; lia).
          * eapply under_typed; [exact We|apply Hl; exact Hx|exact U].
          * eapply firm_under; [exact U|apply Hfl; exact Hx].
          * pose proof (height_under _ _ U). specialize (Hhl x Hx). lia.
          * exists k. intros w' X. inversion X; subst. exact Hk.
        + intros x k k' Hk H w Hw. eapply fin_more; [exact Hk|]. apply H. exact Hw.
        + exists k. apply fin_bind; [|reflexivity]. apply unpacked_fin; [lia|]. intros x w Hx Hw. exact (Hk x Hx w Hw).
      - destruct (fuel_for (fun v k => fin (E k einfo (deref_pointers_zero env e v) o false) = true) l) as [k Hk].
        + intros x Hx. rewrite deref_zero_under.
          assert (Zp : forall w, under x = None -> w = zero env (deref_type e) -> firm w = true /\ height w = 0%nat).
          { intros w _ ->. pose proof (has_type_zero env (deref_type e) We) as Hz0. unfold delimited in Ed.
            destruct (resolve env (deref_type e)) as [p| | | | | | | | | |] eqn:Er; try discriminate Ed; try (unfold type_to_typ3 in Hz; rewrite Er in Hz; discriminate Hz).
            rewrite (has_type_prim env _ p _ Er) in Hz0. destruct p, (zero env (deref_type e)); try discriminate; split; reflexivity. }
          apply (IH einfo (deref_type e) _ o false (minfo_deref _ _ _ _ Hie) (deref_idem e) Hmem Hrk); try assumption.
          * apply packed_typed; [exact We|apply Hl; exact Hx].
          * destruct (under x) as [w|] eqn:U; [eapply firm_under; [exact U|apply Hfl; exact Hx]|apply Zp; reflexivity].
          * specialize (Hhl x Hx). destruct (under x) as [w|] eqn:U; [pose proof (height_under _ _ U); lia|]. destruct (Zp _ eq_refl eq_refl) as [_ ->]. lia.
        + intros x k k' Hk H. eapply fin_more; eassumption.
        + exists k. apply fin_bind; [|reflexivity]. apply packed_fin. exact Hk. }
    destruct G as [k G]. exists k. unfold encode_list. rewrite Ety. unfold elem_type in Ee. destruct (resolve env t); try discriminate Ee; inversion Ee; subst e0; rewrite Eu; exact G.
  Qed.
  (** ** Fuel for one field *)
  Lemma field_more k k' f v : (k <= k')%nat -> fin (encode_field env c (E k) f v) = true -> fin (encode_field env c (E k') f v) = true.
  Proof.
    clear. intros Hk H.
    destruct (ele_field env c c (codec_equiv_refl env c) (E k) (E k')
      (fun i i' v o b Hi => encode_mono env c c (codec_equiv_refl env c) k k' i i' v o b Hk Hi) f v) as [X|X]; [rewrite X in H; discriminate|congruence].
  Qed.

  Lemma field_fin n h f v : fin_at n h -> has_type env (fi_type f) v = true -> firm v = true -> (height v < h)%nat -> fi_unpacked f = entries env (fi_type f) ->
    sturdy_field env mem rank n (fi_type f) (fi_opts f) = true -> 0 <= fo_num (fi_opts f) < field_limit ->
    exists k, fin (encode_field env c (E k) f v) = true.
  Proof.
    intros IH Ht Hf Hh Hup Hsf Hn. unfold sturdy_field in Hsf. rewrite !andb_true_iff in Hsf. destruct Hsf as [[Hp Hw] He].
    apply sturdy_part_inv in Hp. destruct Hp as [Hmem Hrk]. unfold encode_field. pose proof (gti_fin _ Hmem) as Gf.
    destruct (get_type_info env c (fi_type f)) as [info| | |] eqn:Eg; try discriminate Gf; [|exists 0%nat; reflexivity].
    pose proof (gti_minfo _ _ _ _ Hs Eg) as Hi. cbn [ebind]. rewrite default_pair, Hup.
    destruct (defaultv v && negb (fo_write_empty (fi_opts f))) eqn:Dd; [exists 0%nat; reflexivity|].
    destruct (entries env (fi_type f)) eqn:En.
    - destruct (entries_elem _ _ En) as (e & Ee & Ed & Eu). pose proof (elem_nonptr _ _ _ Ee) as Np. rewrite (under_nonptr env _ _ Ht Np We).
      eapply (list_fin n h); try eassumption; [apply deref_nonptr; exact Np|lia|].
      unfold elem_type in Ee. destruct (resolve env (fi_type f)); try discriminate; congruence.
    - destruct (under v) as [w|] eqn:U.
      + destruct (IH info (deref_type (fi_type f)) w (fi_opts f) false (minfo_deref _ _ _ _ Hi) (deref_idem _) Hmem Hrk) as [k Hk]; try assumption.
        * eapply under_typed; eassumption.
        * eapply firm_under; eassumption.
        * pose proof (height_under _ _ U). lia.
        * exists k. unfold write_field. rewrite (minfo_type _ _ _ _ Hi). destruct (fin_typ3 _ (fi_opts f) Hmem) as [z Hz]. rewrite Hz. cbn [ebind].
          apply fin_bind; [apply fin_okb; rewrite okb_key by (eapply typ3_small; eassumption); lia|]. intros key _.
          apply fin_bind; [exact Hk|]. intros b _. destruct (negb _ && beqb b [0]); reflexivity.
      + exfalso. pose proof U as U'. apply under_default in U. rewrite U in Dd. cbn [andb] in Dd. apply negb_false_iff in Dd. rewrite Dd in Hw. cbn [andb] in Hw.
        apply negb_true_iff in Hw. rewrite (under_nonptr env _ _ Ht Hw We) in U'. discriminate.
  Qed.

  Lemma fields_fin n h : fin_at n h -> forall fs i num infos pre l, parse_fields env fs i num = EOk infos -> length pre = i ->
    forall2b (fun f w => has_type env (sf_type f) w) fs l = true -> forallb firm l = true -> (forall x, In x l -> (height x < h)%nat) ->
    sturdy_fields env mem rank n (Z.of_nat num + 1) fs = true ->
    exists k, fin (encode_fields env c (E k) infos (pre ++ l)) = true.
  Proof.
    intros IH. induction fs as [|f fs IHf]; intros i num infos pre l Hp Hl Ht Hf Hh Hsf; destruct l as [|v l]; try discriminate Ht.
    - cbn in Hp. apply EOk_inj in Hp. subst infos. exists 0%nat. reflexivity.
    - cbn [forall2b forallb] in Ht, Hf. apply andb_true_iff in Ht. destruct Ht as [Hv Ht]. apply andb_true_iff in Hf. destruct Hf as [Hfv Hf].
      apply parse_step in Hp. cbn [sturdy_fields] in Hsf.
      assert (A : pre ++ v :: l = (pre ++ [v]) ++ l) by (rewrite <- app_assoc; reflexivity).
      assert (Lp : length (pre ++ [v]) = S i) by (rewrite app_length; cbn; lia).
      assert (Hh' : forall x, In x l -> (height x < h)%nat) by (intros; apply Hh; right; assumption).
      destruct (field_opts (Z.of_nat num + 1) f) as [o|] eqn:Eo; [|rewrite A; eapply IHf; eassumption].
      destruct Hp as (fi & rest & -> & Hix & Hty & Hup & Hop & _ & Hrest). rewrite !andb_true_iff in Hsf. destruct Hsf as [[Hnum Hsf] Hss].
      replace (Z.of_nat num + 1 + 1) with (Z.of_nat (S num) + 1) in Hss by lia.
      destruct (IHf (S i) (S num) rest (pre ++ [v]) l Hrest Lp Ht Hf Hh' Hss) as [k1 H1].
      assert (Eopts : fi_opts fi = o).
      { rewrite Hop. assert (fo_num o = Z.of_nat num + 1).
        { unfold field_opts in Eo. destruct (sf_exported f); [|discriminate]. destruct (parse_field_options f); inversion Eo. reflexivity. }
        replace (u32 (Z.of_nat num + 1)) with (fo_num o); [apply set_num_id|]. unfold u32, uwrap, field_limit in *. rewrite Z.mod_small; lia. }
      assert (En : fo_num o = Z.of_nat num + 1).
      { unfold field_opts in Eo. destruct (sf_exported f); [|discriminate]. destruct (parse_field_options f); inversion Eo. reflexivity. }
      destruct (field_fin n h fi v IH) as [k2 H2]; rewrite ?Hty, ?Eopts; try assumption; [apply Hh; left; reflexivity|lia|].
      exists (Nat.max k1 k2). cbn [encode_fields]. rewrite Hix. replace (nth i (pre ++ v :: l) VInvalid) with v by (rewrite <- Hl; symmetry; apply nth_mid).
      apply fin_bind; [eapply field_more; [|exact H2]; lia|]. intros b _. apply fin_bind; [|reflexivity]. rewrite A.
      destruct (ele_fields env c c (codec_equiv_refl env c) (E k1) (E (Nat.max k1 k2))
        (fun i i' v o b Hi => encode_mono env c c (codec_equiv_refl env c) k1 (Nat.max k1 k2) i i' v o b ltac:(lia) Hi) ((pre ++ [v]) ++ l) rest) as [X|X];
        [rewrite X in H1; discriminate|congruence].
  Qed.

  Theorem encode_fin : forall n h, fin_at n h.
  Proof.
    induction n as [n IHn] using (well_founded_induction lt_wf). induction h as [|h IH]; intros info t v o bare Hi Hd Hmem Hrk Ht Hf Hh Hn; [lia|].
    destruct (Hst t Hmem) as (Hpa & Hwi & Hme). pose proof (minfo_type _ _ _ _ Hi) as Ety. rewrite Hd in Ety.
    assert (Np : is_ptr t = false) by (rewrite <- Hd; apply deref_is_ptr).
    assert (V : forall k, E (S k) info v o bare =
           match info with
           | TIConc {| ci_type := t; ci_marshal := Some r |} =>
              elet rv := to_repr env t v in elet rinfo := get_type_info env c r in E k rinfo rv o bare
           | _ => encode_switch env c (E k) (S k) info v o bare
           end).
    { intros k. cbn [encode_reflect]. destruct v; try reflexivity; exfalso; [apply ptr_typed in Ht; [congruence|exact We]|].
      cbn [has_type] in Ht. destruct (resolve env t) as [[]| | | | | | | | | |]; discriminate. }
    assert (P : sturdy_plain env mem rank t -> exists k, fin (encode_switch env c (E k) (S k) info v o bare) = true).
    { intros Hpl. unfold sturdy_plain in Hpl. unfold encode_switch. rewrite Ety.
      assert (LL : forall e, sturdy_list env mem rank (rank t) e = true -> is_list env e = true -> exists b, forall k, (2 <= k)%nat -> multidim_bytes k env e = Some b).
      { intros e Hl He. unfold sturdy_list, is_list in *. destruct (resolve env e) as [| |n0 e2|e2| | | | | | |] eqn:Er; try discriminate He;
          (exists match resolve env e2 with RPrim PUint8 => true | _ => false end; intros k Hk; destruct k as [|[|k]]; try lia; cbn [multidim_bytes]; rewrite Er;
           destruct (resolve env e2) as [[]| | | | | | | | | |]; try discriminate Hl; reflexivity). }
      assert (LE : forall e, elem_type env t = Some e -> is_uint8 env e = false -> is_list env e = false -> sturdy_list env mem rank (rank t) e = true ->
          exists k, fin (encode_list env c (E k) info v o bare) = true).
      { intros e Ee Eu El Hl. apply (list_fin n h info t v o bare e); try assumption. unfold sturdy_list, is_list in *. rewrite Eu in Hl. cbn [orb] in Hl.
        assert (Sp : sturdy_part mem rank (rank t) e = true) by (destruct (resolve env e); try discriminate El; exact Hl).
        unfold sturdy_part in *. rewrite andb_true_iff, Nat.leb_le in *. split; [tauto|lia]. }
      destruct (resolve env t) as [p| |len e|e| | | | |i|fs|] eqn:Er; try contradiction.
      - exists 0%nat. rewrite (has_type_prim env t p v Er) in Ht. destruct p, v; try discriminate Ht; try reflexivity; cbn [encode_prim]; destruct (fo_unsafe o); reflexivity.
      - exists 0%nat. destruct info as [ci|ii]; [|exfalso; destruct Hi as [_ Hi]; rewrite Hd in Hi; rewrite Hi in Er; discriminate Er].
        cbn [ti_type] in Ety. unfold encode_struct. rewrite Ety, Er. destruct v; cbn [has_type] in Ht; rewrite Er in Ht; try discriminate Ht; try (destruct p; discriminate Ht).
        unfold encode_time. destruct (s =? 0); [|destruct (_ || _); [reflexivity|]]; cbn; destruct (_ =? 0); try reflexivity; destruct (_ || _); reflexivity.
      - destruct (is_uint8 env e) eqn:Eu; [exists 0%nat; destruct v; cbn [has_type] in Ht; rewrite Er in Ht; try discriminate Ht; reflexivity|].
        change (is_list_kind env e) with (is_list env e). destruct (is_list env e) eqn:El.
        + destruct (LL e Hpl El) as [b Hb]. exists 2%nat. rewrite Hb by lia. destruct b; reflexivity.
        + apply (LE e); try assumption. unfold elem_type. rewrite Er. reflexivity.
      - destruct (is_uint8 env e) eqn:Eu; [exists 0%nat; destruct v as [| | | | | | |[l0|]| | | | | | |]; cbn [has_type] in Ht; rewrite Er in Ht; try discriminate Ht; reflexivity|].
        change (is_list_kind env e) with (is_list env e). destruct (is_list env e) eqn:El.
        + destruct (LL e Hpl El) as [b Hb]. exists 2%nat. rewrite Hb by lia. destruct b; reflexivity.
        + apply (LE e); try assumption. unfold elem_type. rewrite Er. reflexivity.
      - apply (resolve_iface _ _ _ We) in Er. clear LE LL. revert Ety. subst t. intros _. destruct info as [ci|ii].
        { exfalso. destruct Hi as [Hty Hio]. pose proof (conc_nonptr env ci Hio) as N. rewrite Hty in N. exact N. }
        destruct v as [| | | | | | | | | |[[ct cv]|]| | | |]; cbn [has_type resolve] in Ht; try discriminate Ht; [|exists 0%nat; reflexivity].
        cbn [SpecWritable.firm height] in Hf, Hh. rewrite !andb_true_iff in Hf. destruct Hf as [[[Hf1 Hf2] Hf3] Hf4].
        unfold encode_interface. rewrite deref_pointers_under. destruct (under cv) as [w|] eqn:U; [|discriminate Hf3].
        apply andb_true_iff in Ht. destruct Ht as [Hi1 Hi2].
        assert (Hw : has_type env (deref_type ct) w = true) by (eapply under_typed; [eassumption| |eassumption]; destruct ct; try exact Hi2; discriminate).
        assert (G : exists k, fin (elet info := get_type_info env c (deref_type ct) in
                match info with
                | TIConc ci =>
                    match ci_reg ci with
                    | None => EErr "cannot encode unregistered concrete type"%string
                    | Some r =>
                        let need := ii_always ii || (1 <? length match assoc beqb (ri_prefix r) (ii_impls ii) with Some l => l | None => [] end)%nat in
                        elet body := E k info w o true in
                        EOk (finish bare ((if need then 0 :: ri_disamb r else []) ++ ri_prefix r ++ body))
                    end
                | TIFace _ => EErr "cannot encode unregistered concrete type"%string
                end) = true).
        { pose proof (gti_fin (deref_type ct)) as Gf. rewrite deref_idem in Gf. specialize (Gf Hf1).
          destruct (get_type_info env c (deref_type ct)) as [[ci|ii']| | |] eqn:Eg; try discriminate Gf; try (exists 0%nat; reflexivity). cbn [ebind].
          destruct (ci_reg ci) as [r|]; [|exists 0%nat; reflexivity]. pose proof (gti_minfo _ _ _ _ Hs Eg) as Hi'. specialize (Hpl ct Hi1 Hf1).
          destruct (IH (TIConc ci) (deref_type ct) w o true Hi' (deref_idem _) Hf1) as [k Hk]; try assumption; [lia|eapply firm_under; eassumption|pose proof (height_under _ _ U); lia|].
          exists k. cbv zeta. apply fin_bind; [exact Hk|reflexivity]. }
        destruct w; try exact G. exfalso. cbn [has_type] in Hw. destruct (resolve env (deref_type ct)) as [[]| | | | | | | |i'| |] eqn:Er; try discriminate Hw.
        apply (resolve_iface _ _ _ We) in Er. rewrite Er in Hf2. discriminate Hf2.
      - destruct info as [ci|ii]; [|exfalso; destruct Hi as [_ Hi]; rewrite Hd in Hi; rewrite Hi in Er; discriminate Er].
        cbn [ti_type] in Ety. unfold encode_struct. rewrite Ety, Er. destruct v; cbn [has_type] in Ht; rewrite Er in Ht; try discriminate Ht; try (destruct p; discriminate Ht).
        destruct Hi as [Hty Hio]. destruct (info_ok_parts _ _ Hio) as (_ & Hpf & _). rewrite Ety in Hpf. unfold parse_struct_info in Hpf. rewrite Er in Hpf.
        cbn [SpecWritable.firm height] in Hf, Hh.
        assert (IHr : fin_at (rank t) h).
        { intros info' t' v' o' bare' A1 A2 A3 A4. apply IH; try assumption. lia. }
        destruct (fields_fin (rank t) h IHr fs 0%nat 0%nat (ci_fields ci) [] l Hpf eq_refl Ht Hf) as [k Hk].
        + intros x Hx. pose proof (height_in _ _ Hx). lia.
        + exact Hpl.
        + exists k. apply fin_bind; [exact Hk|reflexivity]. }
    destruct info as [ci|ii].
    - destruct Hi as [Hty Hio]. rewrite Hd in Hty. pose proof (minfo_method _ _ _ Hty Hio) as M. destruct ci as [ct cf cm cu cr]. cbn [ci_type ci_marshal] in *.
      destruct cm as [r|].
      + destruct M as (id & f & -> & Ef & Er). rewrite Ef in Hme. destruct Hme as [(Nr & Hmr & Hrr & Hfv) _]. specialize (Hfv v Ht). subst ct.
        destruct (f v) as [w|e|p|] eqn:Ew; try contradiction.
        2:{ exists 1%nat. rewrite V. unfold to_repr. rewrite Ef, Ew. reflexivity. }
        pose proof (gti_fin r) as Gf. rewrite (deref_nonptr _ Nr) in Gf. specialize (Gf Hmr).
        destruct (get_type_info env c r) as [rinfo| | |] eqn:Eg; try discriminate Gf.
        2:{ exists 1%nat. rewrite V. unfold to_repr. rewrite Ef, Ew. cbn [ebind]. reflexivity. }
        destruct (IHn (rank r) ltac:(lia) (S (height w)) rinfo r w o bare) as [k Hk]; try assumption; try lia.
        * apply gti_minfo; assumption.
        * eapply Hm; eassumption.
        * exists (S k). rewrite V. unfold to_repr. rewrite Ef, Ew. cbn [ebind]. exact Hk.
      + destruct P as [k Hk]; [destruct t; try exact Hme; rewrite (M id eq_refl) in Hme; tauto|]. exists (S k). rewrite V. exact Hk.
    - destruct P as [k Hk]; [destruct Hi as [_ Hi]; rewrite Hd in Hi; rewrite Hi in Hme |- *; exact Hme|]. exists (S k). rewrite V. exact Hk.
  Qed.

  Theorem marshal_fin t v w : mem (deref_type t) = true -> has_type env t v = true -> firm v = true -> under v = Some w ->
    exists k, forall k', (k <= k')%nat -> fin (marshal_bare k' env c t v) = true /\ marshal_bare k' env c t v = marshal_bare k env c t v.
  Proof.
    intros Hmem Ht Hf U. pose proof (under_typed _ We _ _ _ Ht U) as Hw. pose proof (gti_fin t Hmem) as Gf.
    destruct (get_type_info env c t) as [info|e| |] eqn:Eg; try discriminate Gf.
    2:{ exists 0%nat. intros k' _. rewrite !marshal_eq, U, Eg. split; reflexivity. }
    pose proof (minfo_deref _ _ _ _ (gti_minfo _ _ _ _ Hs Eg)) as Hi. pose proof (minfo_type _ _ _ _ Hi) as Ety. rewrite deref_idem in Ety.
    assert (F : forall o bare, 0 <= fo_num o < field_limit -> exists k, fin (E k info w o bare) = true).
    { intros o bare Hn. eapply (encode_fin (rank (deref_type t)) (S (height w)) info (deref_type t) w); try assumption; try lia; [apply deref_idem|eapply firm_under; eassumption]. }
    destruct (struct_like env (deref_type t)) eqn:Esl.
    - destruct (F top_opts true) as [k Hk]; [cbn; unfold field_limit; lia|]. exists k. intros k' Hk'. rewrite !marshal_eq, U, Eg. cbn [ebind]. rewrite Ety, Esl. cbn [negb].
      rewrite (fin_lift k k') by assumption. split; [|reflexivity]. destruct (E k info w top_opts true); auto.
    - destruct (fin_typ3 _ no_opts Hmem) as [z Hz]. destruct (F no_opts (negb (z =? Typ3ByteLength))) as [k Hk]; [cbn; unfold field_limit; lia|].
      exists k. intros k' Hk'. rewrite !marshal_eq, U, Eg. cbn [ebind]. rewrite Ety, Esl. cbn [negb]. rewrite Hz. cbn [ebind]. unfold write_field. rewrite Ety, Hz. cbn [ebind].
      pose proof (okb_key 1 z (typ3_small _ _ _ _ Hz)) as K. destruct (encode_field_key 1 z); try discriminate K. cbn [ebind].
      rewrite (fin_lift k k') by assumption. split; [|reflexivity]. destruct (E k info w no_opts _); auto. cbn [ebind]. destruct (_ && _); reflexivity.
  Qed.
End S.
