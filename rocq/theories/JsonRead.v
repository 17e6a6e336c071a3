(** Which texts UnmarshalJSON accepts, and what of its target it looks at. *)
From Coq Require Import ZArith String List Bool Lia.
From Coq Require Import ZifyBool ZifyNat.
From Verif Require Import Base Prims SpecWire PrimFacts Types Codec BinEnc BinDec Amino DecFacts DecProps ValueInd Typing
  Registry SpecRegistry RegistryFacts Sane DecSafe SpecNorm EncFacts JsonText Json SpecJson JsonTextFacts JsonFacts JsonProps LayoutFacts SpecJsonSafe JsonSafe.
Import ListNotations.
Local Open Scope Z_scope.

(** ** Accepted texts *)

Section Accepted.
  Variable env : tenv.
  Variable je : jenv.
  Hypothesis Hje : jenv_strict je.
  Variable c : codec.

  Lemma with_top_text {A} bz (f : jtop -> eres A) v : with_top bz f = EOk v -> spaced jtext bz.
  Proof.
    unfold with_top. destruct (json_top bz) as [j|] eqn:E; [|discriminate]. intros _.
    destruct (top_sound _ _ E) as (w & b & w' & -> & Hw & Hw' & T). exists w, b, w'. split; [reflexivity|]. split; [exact Hw|]. split; [exact Hw'|].
    eapply top_text, T.
  Qed.
  Lemma bind_inv {A B} (r : eres A) (f : A -> eres B) v : ebind r f = EOk v -> exists a, r = EOk a /\ f a = EOk v.
  Proof. destruct r; try discriminate. intros H. eexists. split; [reflexivity|exact H]. Qed.
  Lemma prim_text p bz o v : unjson_prim je p bz o = EOk v -> accepted bz.
  Proof.
    assert (N : forall b f z, with_top b (fun j => match j with JNum n => f n | JNull => EOk z | _ => EErr type_error end) = EOk v ->
      spaced (fun b => jnumber b \/ b = bs "null") b).
    { intros b f z. unfold with_top. destruct (json_top b) as [j|] eqn:E; [|discriminate]. intros H.
      destruct (top_sound _ _ E) as (w & x & w' & -> & Hw & Hw' & T). exists w, x, w'. split; [reflexivity|]. split; [exact Hw|]. split; [exact Hw'|].
      destruct j; try discriminate; cbn [top_of] in T; [right; exact T|left]. destruct T as [-> T]. exact T. }
    assert (Q : forall f : bytes -> eres value, (forall b, f b = EOk v -> spaced (fun b => jnumber b \/ b = bs "null") b) ->
      (match bz with
       | [] => EPanic "index out of range"%string
       | b :: _ =>
           if negb (b =? 34) || negb (last bz 0 =? 34) then EErr "Amino:JSON int/int64/uint/uint64 expects quoted values"%string
           else if (length bz <? 2)%nat then EPanic "slice bounds out of range"%string
           else f (removelast (tl bz))
       end) = EOk v -> accepted bz).
    { intros f Hf H. destruct bz as [|b r]; [discriminate|]. destruct (negb (b =? 34) || _) eqn:E; [discriminate|].
      destruct (length (b :: r) <? 2)%nat eqn:L; [discriminate|]. right. apply Hf in H. cbn [tl] in H. exists (removelast r). split; [|exact H].
      assert (Nr : r <> []) by (intros ->; cbn in L; lia). assert (b = 34) by lia. subst b. f_equal.
      rewrite (app_removelast_last 0 Nr) at 1. f_equal. f_equal. destruct r; [contradiction|]. change (last (34 :: z :: r) 0) with (last (z :: r) 0) in E. lia. }
    unfold unjson_prim. destruct p; cbv zeta; intros H;
      try (refine (Q (fun b => with_top b _) _ H); intros b Hb; exact (N _ _ _ Hb)); try (left; exact (with_top_text _ _ _ H)).
    - destruct (fo_unsafe o); [left; exact (with_top_text _ _ _ H)|discriminate].
    - destruct (fo_unsafe o); [left; exact (with_top_text _ _ _ H)|discriminate].
  Qed.
  Lemma switch_text rec info bz v0 o v : unjson_switch env je c rec info bz v0 o = EOk v -> accepted bz.
  Proof.
    assert (M : forall A (f : _ -> eres A) x, ebind (raw_map bz) f = EOk x -> accepted bz).
    { intros A f x H. apply bind_inv in H. destruct H as (m & H & _). left. exact (with_top_text _ _ _ H). }
    assert (L : forall A (f : _ -> eres A) x, ebind (raw_list bz) f = EOk x -> accepted bz).
    { intros A f x H. apply bind_inv in H. destruct H as (m & H & _). left. exact (with_top_text _ _ _ H). }
    assert (B : forall A old (f : _ -> eres A) x, ebind (raw_bytes bz old) f = EOk x -> accepted bz).
    { intros A old f x H. apply bind_inv in H. destruct H as (m & H & _). left. exact (with_top_text _ _ _ H). }
    unfold unjson_switch. destruct (resolve env (ti_type info)).
    - apply prim_text.
    - destruct info; [|discriminate]. apply M.
    - unfold unjson_array. destruct (is_uint8 env e); [apply B|]. intros H. apply bind_inv in H. destruct H as (i & _ & H). exact (L _ _ _ H).
    - unfold unjson_slice. destruct (is_uint8 env e); [apply B|]. intros H. apply bind_inv in H. destruct H as (i & _ & H). exact (L _ _ _ H).
    - discriminate.
    - unfold unjson_map. apply M.
    - discriminate.
    - discriminate.
    - destruct info; [discriminate|]. unfold unjson_interface. intros H. apply bind_inv in H. destruct H as (nd & H & _).
      unfold decode_wrapper in H. apply bind_inv in H. destruct H as (w & H & _). left. exact (with_top_text _ _ _ H).
    - destruct info; [|discriminate]. apply M.
    - discriminate.
  Qed.
  Lemma jtext_spaced b : jtext b -> spaced jtext b.
  Proof. intros H. exists [], b, []. rewrite app_nil_r. split; [reflexivity|]. split; [constructor|]. split; [constructor|exact H]. Qed.
  Lemma decode_text : forall fuel bz info t v0 o v, decode_json fuel env je c bz info t v0 o = EOk v -> accepted bz.
  Proof.
    induction fuel as [|fuel IH]; intros bz info t v0 o v; [discriminate|]. cbn [decode_json].
    assert (G : forall (X : eres value) (f : value -> eres value), (forall w, X = EOk w -> accepted bz) -> (if beqb bz null then EOk (zero env t) else ebind X f) = EOk v -> accepted bz).
    { intros X f HX. destruct (beqb bz null) eqn:E.
      - intros _. apply beqb_eq in E. subst bz. left. apply jtext_spaced, jt_null.
      - intros H. apply bind_inv in H. destruct H as (w & H & _). exact (HX w H). }
    cbv zeta. set (w0 := base_of env t v0).
    assert (K : forall w, match deref_type t with
              | TTime =>
                  if time_text bz then ebind (je_untime je bz) (fun r => EOk (VTime (fst r) (snd r)))
                  else EErr "amino:JSON time must be an RFC3339Nano string in UTC"%string
              | _ =>
                  match (match deref_type t with TNamed id => je_unmarshal je id | _ => None end) with
                  | Some g => g bz w0
                  | None =>
                      match info with
                      | TIConc {| ci_type := ct; ci_unmarshal := Some r |} =>
                          ebind (get_type_info env c r) (fun rinfo =>
                          ebind (decode_json fuel env je c bz rinfo r (zero env r) o) (fun rv =>
                          ebind (from_repr env ct w0 rv) (fun ve =>
                          match snd ve with Some e => EErr e | None => EOk (fst ve) end)))
                      | _ => unjson_switch env je c (decode_json fuel env je c) info bz w0 o
                      end
                  end
              end = EOk w -> accepted bz).
    { intros w.
      assert (J : match info with
                      | TIConc {| ci_type := ct; ci_unmarshal := Some r |} =>
                          ebind (get_type_info env c r) (fun rinfo =>
                          ebind (decode_json fuel env je c bz rinfo r (zero env r) o) (fun rv =>
                          ebind (from_repr env ct w0 rv) (fun ve =>
                          match snd ve with Some e => EErr e | None => EOk (fst ve) end)))
                      | _ => unjson_switch env je c (decode_json fuel env je c) info bz w0 o
                      end = EOk w -> accepted bz).
      { destruct info as [[ct fs m [r|] rg]|ii]; try apply switch_text.
        intros H. apply bind_inv in H. destruct H as (rinfo & _ & H). apply bind_inv in H. destruct H as (rv & H & _). exact (IH _ _ _ _ _ _ H). }
      destruct (deref_type t); try exact J.
      - destruct (time_text bz) eqn:T; [|discriminate]. intros H. apply bind_inv in H. destruct H as (r & H & _). left. eapply jt_untime; eassumption.
      - destruct (je_unmarshal je id) as [g|] eqn:Eg; [|exact J]. intros H. left. eapply jt_unmarshal; eassumption. }
    destruct info as [ci|ii], t; try (apply G; exact K). discriminate.
  Qed.
  Theorem unmarshal_text fuel bz t v0 v : unmarshal_json fuel env je c bz t v0 = EOk v -> accepted bz.
  Proof.
    unfold unmarshal_json. destruct bz as [|b0 bz']; [discriminate|]. set (bz := b0 :: bz'). intros H. apply bind_inv in H. destruct H as (info & _ & H).
    destruct info as [[ct fs m u [r|]]|ii]; try exact (decode_text _ _ _ _ _ _ _ H).
    apply bind_inv in H. destruct H as (nd & H & _). unfold decode_wrapper in H. apply bind_inv in H. destruct H as (w & H & _). left. exact (with_top_text _ _ _ H).
  Qed.
End Accepted.

(** ** Used targets *)

Section Used.
  Variable env : tenv.
  Variable je : jenv.
  Variable c : codec.
  Hypothesis Hs : sane_codec env c.
  Notation same := (same_kept env je).
  Notation minfo := (minfo env c).

  Lemma same_base t : forall v v', same t v v' -> same (deref_type t) (base_of env t v) (base_of env t v').
  Proof.
    induction t; intros v v' H; try exact H. cbn [deref_type base_of]. apply IHt. inversion H; subst; try discriminate.
    - apply sk_eq.
    - match goal with X : match resolve _ _ with _ => _ end |- _ => cbn [resolve] in X; contradiction end.
    - assumption.
  Qed.
  Lemma upd_app {A} (p : list A) x y r : upd (length p) y (p ++ x :: r) = p ++ y :: r.
  Proof. induction p; cbn; [reflexivity|]. rewrite IHp. reflexivity. Qed.
  Lemma nth_app_here {A} (p : list A) x r d : nth (length p) (p ++ x :: r) d = x.
  Proof. induction p; cbn; [reflexivity|exact IHp]. Qed.
  Lemma ebind_ext {A B} (r : eres A) (f g : A -> eres B) : (forall a, r = EOk a -> f a = g a) -> ebind r f = ebind r g.
  Proof. destruct r; cbn; auto. Qed.

  Variable rec : bytes -> tinfo -> gotype -> value -> fopts -> eres value.
  Hypothesis Hrec : forall bz info t v v' o, minfo info t -> same t v v' -> rec bz info t v o = rec bz info t v' o.

  Lemma elems_used einfo e o : minfo einfo e -> forall raws l l', Forall2 (same e) l l' -> unjson_elems rec einfo e raws l o = unjson_elems rec einfo e raws l' o.
  Proof.
    intros Hm. induction raws as [|b raws IH]; intros l l' F; cbn [unjson_elems]; [reflexivity|]. destruct F as [|v v' l l' Hv F]; [reflexivity|].
    rewrite (Hrec b einfo e v v' o Hm Hv). apply ebind_ext. intros w _. rewrite (IH l l' F). reflexivity.
  Qed.
  Lemma fields_used m o : forall sfs p r r' num fs, parse_fields env sfs (length p) num = EOk fs -> same_fields env je sfs r r' ->
    unjson_fields env c rec fs m (p ++ r) o = unjson_fields env c rec fs m (p ++ r') o.
  Proof.
    induction sfs as [|sf sfs IH]; intros p r r' num fs H S; cbn [parse_fields] in H.
    { apply EOk_inj in H. subst fs. inversion S; subst. reflexivity. }
    assert (Skip : forall v l l', same_fields env je sfs l l' -> forall num fs, parse_fields env sfs (Datatypes.S (length p)) num = EOk fs ->
      unjson_fields env c rec fs m (p ++ v :: l) o = unjson_fields env c rec fs m (p ++ v :: l') o).
    { intros v l l' S' num' fs' H'. rewrite (app_assoc p [v] l : p ++ v :: l = (p ++ [v]) ++ l), (app_assoc p [v] l' : p ++ v :: l' = (p ++ [v]) ++ l').
      apply (IH _ _ _ num'); [|exact S']. rewrite app_length. cbn [length]. rewrite Nat.add_1_r. exact H'. }
    assert (Cases : exists v v' l l', r = v :: l /\ r' = v' :: l' /\ same_fields env je sfs l l' /\ (v = v' \/ reset_field sf /\ same (sf_type sf) v v')).
    { inversion S; subst; eexists _, _, _, _; (split; [reflexivity|split; [reflexivity|split; [eassumption|]]]); [left; reflexivity|right; split; assumption]. }
    destruct Cases as (v & v' & l & l' & -> & -> & S' & Hv).
    destruct (sf_exported sf) eqn:Ex; cbn [negb] in H.
    2:{ destruct Hv as [->|[[Hx _] _]]; [|congruence]. exact (Skip _ _ _ S' _ _ H). }
    destruct (parse_field_options sf) as [fo|] eqn:Eo.
    2:{ destruct Hv as [->|[[_ (o' & Hx & _)] _]]; [|congruence]. exact (Skip _ _ _ S' _ _ H). }
    apply bind_inv in H. destruct H as (up & _ & H). cbv zeta in H. apply bind_inv in H. destruct H as (u & _ & H). apply bind_inv in H. destruct H as (rest & Hr & H).
    apply EOk_inj in H. subst fs. cbn [unjson_fields fi_index fi_type fi_opts]. cbv zeta.
    apply ebind_ext. intros info Hi. apply (gti_minfo _ _ _ _ Hs) in Hi.
    assert (Hom : fo_omitempty (set_num (u32 (Z.of_nat num + 1)) fo) = fo_omitempty fo) by (destruct fo; reflexivity). rewrite Hom.
    assert (Hvv : same (sf_type sf) v v') by (destruct Hv as [->|[_ Hv]]; [apply sk_eq|exact Hv]).
    assert (Absent : unjson_fields env c rec rest m (if fo_omitempty fo then p ++ v :: l else upd (length p) (zero env (sf_type sf)) (p ++ v :: l)) o =
                     unjson_fields env c rec rest m (if fo_omitempty fo then p ++ v' :: l' else upd (length p) (zero env (sf_type sf)) (p ++ v' :: l')) o).
    { destruct (fo_omitempty fo) eqn:Om.
      - destruct Hv as [->|[[_ (o' & Hx & Hy)] _]]; [|congruence]. exact (Skip _ _ _ S' _ _ Hr).
      - rewrite !upd_app. exact (Skip _ _ _ S' _ _ Hr). }
    destruct (assoc beqb _ m) as [[|b0 b]|]; try exact Absent.
    rewrite !nth_app_here, (Hrec _ _ _ v v' o Hi Hvv). apply ebind_ext. intros w _. rewrite !upd_app. exact (Skip _ _ _ S' _ _ Hr).
  Qed.
  Lemma unread_info ci t : unread env je t -> minfo (TIConc ci) t -> deref_type t = t -> ci_unmarshal ci = None.
  Proof.
    intros U [Ht Hi] D. destruct (info_ok_parts _ _ Hi) as (_ & _ & _ & R). rewrite Ht, D in R. destruct t; cbn in R; try congruence.
    destruct U as [_ U]. rewrite U in R. congruence.
  Qed.
  Lemma switch_used t info bz v v' o : minfo info t -> deref_type t = t -> t <> TTime -> same t v v' ->
    unjson_switch env je c rec info bz v o = unjson_switch env je c rec info bz v' o.
  Proof.
    intros Hm D Nt S. pose proof (minfo_type _ _ _ _ Hm) as Ht. rewrite D in Ht. unfold unjson_switch. rewrite Ht.
    destruct S as [t v|t v v' U K|t n e l l' U R F|t fs l l' U R F|t v v' _].
    - reflexivity.
    - destruct (resolve env t) eqn:E; try reflexivity; try contradiction.
      + exfalso. destruct t; try discriminate; [congruence|]. cbn in E. destruct (te_def env id) as [|[]]; discriminate.
      + unfold unjson_array. rewrite K. reflexivity.
      + unfold unjson_slice. rewrite K. reflexivity.
    - rewrite R. unfold unjson_array. destruct (is_uint8 env e); [reflexivity|]. apply ebind_ext. intros einfo He. apply (gti_minfo _ _ _ _ Hs) in He.
      apply ebind_ext. intros raws _. destruct (negb _); [reflexivity|]. rewrite (elems_used _ _ _ He _ _ _ F). reflexivity.
    - rewrite R. destruct info as [ci|ii]; [|reflexivity]. unfold unjson_struct. apply ebind_ext. intros m _.
      destruct Hm as [_ Hi]. destruct (info_ok_parts _ _ Hi) as (_ & P & _ & _). cbn [ti_type] in Ht. rewrite Ht in P. unfold parse_struct_info in P. rewrite R in P.
      pose proof (fields_used m o fs [] l l' 0 _ P F) as G. cbn [app] in G. rewrite G. reflexivity.
    - exfalso. cbn [deref_type] in D. exact (deref_type_not_ptr _ _ D).
  Qed.
End Used.

Theorem decode_used env je c : sane_codec env c -> forall fuel bz info t v v' o, minfo env c info t -> same_kept env je t v v' ->
  decode_json fuel env je c bz info t v o = decode_json fuel env je c bz info t v' o.
Proof.
  intros Hs. induction fuel as [|fuel IH]; intros bz info t v v' o Hm S; [reflexivity|]. cbn [decode_json]. cbv zeta.
  apply same_base in S. set (b := deref_type t) in *. assert (D : deref_type b = b) by apply deref_idem.
  assert (Hm' : minfo env c info b) by (apply minfo_deref, Hm).
  assert (G : forall A (f : value -> eres A),
    ebind (match b with
      | TTime => if time_text bz then ebind (je_untime je bz) (fun r => EOk (VTime (fst r) (snd r))) else EErr "amino:JSON time must be an RFC3339Nano string in UTC"%string
      | _ => match (match b with TNamed id => je_unmarshal je id | _ => None end) with
             | Some g => g bz (base_of env t v)
             | None =>
                      match info with
                      | TIConc {| ci_type := ct; ci_unmarshal := Some r |} =>
                          ebind (get_type_info env c r) (fun rinfo =>
                          ebind (decode_json fuel env je c bz rinfo r (zero env r) o) (fun rv =>
                          ebind (from_repr env ct (base_of env t v) rv) (fun ve =>
                          match snd ve with Some e => EErr e | None => EOk (fst ve) end)))
                      | _ => unjson_switch env je c (decode_json fuel env je c) info bz (base_of env t v) o
                      end
             end
      end) f =
    ebind (match b with
      | TTime => if time_text bz then ebind (je_untime je bz) (fun r => EOk (VTime (fst r) (snd r))) else EErr "amino:JSON time must be an RFC3339Nano string in UTC"%string
      | _ => match (match b with TNamed id => je_unmarshal je id | _ => None end) with
             | Some g => g bz (base_of env t v')
             | None =>
                      match info with
                      | TIConc {| ci_type := ct; ci_unmarshal := Some r |} =>
                          ebind (get_type_info env c r) (fun rinfo =>
                          ebind (decode_json fuel env je c bz rinfo r (zero env r) o) (fun rv =>
                          ebind (from_repr env ct (base_of env t v') rv) (fun ve =>
                          match snd ve with Some e => EErr e | None => EOk (fst ve) end)))
                      | _ => unjson_switch env je c (decode_json fuel env je c) info bz (base_of env t v') o
                      end
             end
      end) f).
  { intros A f. assert (Cs : base_of env t v = base_of env t v' \/ unread env je b).
    { clear - S D. inversion S; subst; try (right; assumption); [left; reflexivity|]. exfalso.
      match goal with X : TPtr _ = b |- _ => rewrite <- X in D end. cbn [deref_type] in D. exact (deref_type_not_ptr _ _ D). }
    destruct Cs as [->|U]; [reflexivity|]. f_equal.
    assert (N : b <> TTime -> unjson_switch env je c (decode_json fuel env je c) info bz (base_of env t v) o =
                 unjson_switch env je c (decode_json fuel env je c) info bz (base_of env t v') o).
    { intros Nt. eapply switch_used; eauto. }
    assert (N' : b <> TTime -> match info with
                      | TIConc {| ci_type := ct; ci_unmarshal := Some r |} =>
                          ebind (get_type_info env c r) (fun rinfo =>
                          ebind (decode_json fuel env je c bz rinfo r (zero env r) o) (fun rv =>
                          ebind (from_repr env ct (base_of env t v) rv) (fun ve =>
                          match snd ve with Some e => EErr e | None => EOk (fst ve) end)))
                      | _ => unjson_switch env je c (decode_json fuel env je c) info bz (base_of env t v) o
                      end = match info with
                      | TIConc {| ci_type := ct; ci_unmarshal := Some r |} =>
                          ebind (get_type_info env c r) (fun rinfo =>
                          ebind (decode_json fuel env je c bz rinfo r (zero env r) o) (fun rv =>
                          ebind (from_repr env ct (base_of env t v') rv) (fun ve =>
                          match snd ve with Some e => EErr e | None => EOk (fst ve) end)))
                      | _ => unjson_switch env je c (decode_json fuel env je c) info bz (base_of env t v') o
                      end).
    { intros Nt. specialize (N Nt). destruct info as [ci|ii]; [|exact N]. pose proof (unread_info env je c ci b U Hm' D) as E. destruct ci as [ct fs m u rg]. cbn in E. subst u. exact N. }
    clearbody b. destruct b; try (apply N'; discriminate); [reflexivity|]. destruct U as [U _]. rewrite U. apply N'. discriminate. }
  destruct info as [ci|ii], t; try reflexivity; destruct (beqb bz null); try reflexivity; apply G.
Qed.
Theorem unmarshal_used env je c fuel bz t v v' : sane_codec env c -> same_kept env je t v v' ->
  unmarshal_json fuel env je c bz t v = unmarshal_json fuel env je c bz t v'.
Proof.
  intros Hs S. unfold unmarshal_json. destruct bz as [|b0 bz]; [reflexivity|]. apply ebind_ext. intros info Hi. apply (gti_minfo _ _ _ _ Hs) in Hi.
  pose proof (fun b => decode_used env je c Hs fuel b info t v v' no_opts Hi S) as E.
  destruct info as [[ct fs m u [r|]]|ii]; try apply E. apply ebind_ext. intros nd _. destruct (negb _); [reflexivity|]. apply E.
Qed.

Lemma overwritten_same env je t : wf_env env -> overwritten env je t -> forall v v', has_type env t v = true -> has_type env t v' = true -> same_kept env je t v v'.
Proof.
  intros We H. induction H as [t U K|t n e U R _ IH|t fs U R Hr _ IH|e _ IH]; intros v v' Hv Hv'.
  - apply sk_over; assumption.
  - destruct v as [| | | | | |l| | | | | | | |]; cbn [has_type] in Hv; rewrite R in Hv; try discriminate.
    destruct v' as [| | | | | |l'| | | | | | | |]; cbn [has_type] in Hv'; rewrite R in Hv'; try discriminate.
    apply andb_true_iff in Hv, Hv'. destruct Hv as [L F], Hv' as [L' F']. apply Nat.eqb_eq in L, L'. rewrite forallb_forall in F, F'.
    eapply sk_array; try eassumption. clear - IH L L' F F'. subst n. revert l' L' F'. induction l as [|a l IHl]; intros [|b l'] L' F'; try discriminate; constructor.
    + apply IH; [apply F|apply F']; left; reflexivity.
    + apply IHl; [intros x Hx; apply F; right; exact Hx|cbn in L'; lia|intros x Hx; apply F'; right; exact Hx].
  - destruct v as [| | | | | | | | |l| | | | |]; cbn [has_type] in Hv; rewrite R in Hv; try discriminate.
    destruct v' as [| | | | | | | | |l'| | | | |]; cbn [has_type] in Hv'; rewrite R in Hv'; try discriminate.
    eapply sk_struct; try eassumption. clear - Hr IH Hv Hv'. revert l l' Hv Hv'. induction fs as [|f fs IHf]; intros [|a l] [|b l'] Hv Hv'; try discriminate; [constructor|].
    cbn [forall2b] in Hv, Hv'. apply andb_true_iff in Hv, Hv'. destruct Hv as [H1 H2], Hv' as [H1' H2'].
    apply sf_read; [apply Hr; left; reflexivity|apply IH; try assumption; left; reflexivity|].
    apply IHf; try assumption; intros g Hg; [apply Hr|apply IH]; right; exact Hg.
  - apply sk_ptr. assert (P : forall v, has_type env (TPtr e) v = true -> has_type env e (pointee env e v) = true).
    { intros x Hx. destruct x as [| | | | | | | |[w|]| | | | | |]; try discriminate; cbn [pointee]; [exact Hx|apply has_type_zero, We]. }
    apply IH; apply P; assumption.
Qed.
