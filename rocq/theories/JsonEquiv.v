(** Codecs that give the same type information give the same JSON. *)
From Coq Require Import ZArith String List Bool Lia.
From Verif Require Import Base Prims Types Codec BinEnc BinDec Amino JsonText Json JsonIndent FuelFacts.
Import ListNotations.
Local Open Scope Z_scope.

Lemma eq_bind {A B} (r r' : eres A) (k k' : A -> eres B) :
  r = r' -> (forall a, k a = k' a) -> ebind r k = ebind r' k'.
Proof. intros -> H. destruct r'; cbn; auto. Qed.
Lemma eq_info {B} r r' (k k' : tinfo -> eres B) : rsim r r' ->
  (forall i i', tsim i i' -> k i = k' i') -> ebind r k = ebind r' k'.
Proof. intros Hr H. destruct r, r'; cbn in *; try contradiction; subst; auto. Qed.

Section Enc.
  Variable env : tenv.
  Variable je : jenv.
  Variables c c' : codec.
  Hypothesis Hc : codec_equiv env c c'.
  Variables rec rec' : tinfo -> value -> bool -> fopts -> eres bytes.
  Hypothesis Hrec : forall i i' v ad o, tsim i i' -> rec i v ad o = rec' i' v ad o.

  Lemma eq_interface v o : json_interface env c rec v o = json_interface env c' rec' v o.
  Proof.
    unfold json_interface. destruct v; try reflexivity. destruct o0 as [[ct cv]|]; [|reflexivity].
    destruct (deref_pointers cv) as [crv [|]]; [reflexivity|].
    destruct crv; try reflexivity;
      (apply eq_info; [apply (ce_info _ _ _ Hc)|]; intros [ci|] [ci'|] Hi; cbn in Hi; try contradiction; [|reflexivity];
       subst ci'; destruct (ci_reg ci); [|reflexivity]; apply eq_bind; [apply Hrec, tsim_refl|reflexivity]).
  Qed.
  Lemma eq_elems einfo einfo' ad o : tsim einfo einfo' -> forall l,
    json_elems rec einfo l ad o = json_elems rec' einfo' l ad o.
  Proof.
    intros Hs. induction l as [|v l IH]; cbn [json_elems]; [reflexivity|].
    apply eq_bind; [apply Hrec, Hs|]. intros b. rewrite IH. reflexivity.
  Qed.
  Lemma eq_list ert v ad o : json_list env c rec ert v ad o = json_list env c' rec' ert v ad o.
  Proof.
    unfold json_list. destruct v as [| | | | | | l | [l|] | | | | | | |]; try reflexivity;
    (destruct (is_uint8 env ert); [reflexivity|]; apply eq_info; [apply (ce_info _ _ _ Hc)|]; intros i i' Hi;
     rewrite (eq_elems i i' _ o Hi); reflexivity).
  Qed.
  Lemma eq_fields l ad : forall fs, json_fields env c rec fs l ad = json_fields env c' rec' fs l ad.
  Proof.
    induction fs as [|f fs IH]; cbn [json_fields]; [reflexivity|].
    apply eq_info; [apply (ce_info _ _ _ Hc)|]. intros i i' Hi. rewrite IH.
    destruct (_ && _); [reflexivity|]. rewrite (Hrec i i' _ _ _ Hi). reflexivity.
  Qed.
  Lemma eq_struct ci v ad : json_struct env c rec ci v ad = json_struct env c' rec' ci v ad.
  Proof. unfold json_struct. destruct v; try reflexivity. rewrite eq_fields. reflexivity. Qed.
  Lemma eq_members vt o : forall l, json_members env c rec vt l o = json_members env c' rec' vt l o.
  Proof.
    induction l as [|[k v] l IH]; cbn [json_members]; [reflexivity|]. destruct k; try reflexivity.
    apply eq_bind; [|intros; rewrite IH; reflexivity]. destruct (deref_pointers v) as [w [|]]; [reflexivity|].
    apply eq_info; [apply (ce_info _ _ _ Hc)|]. intros i i' Hi. apply Hrec, Hi.
  Qed.
  Lemma eq_map kt vt v o : json_map env c rec kt vt v o = json_map env c' rec' kt vt v o.
  Proof.
    unfold json_map. destruct (resolve env kt) as [[]| | | | | | | | | |]; try reflexivity.
    destruct v as [| | | | | | | | | | | [l|] | | |]; try reflexivity. rewrite eq_members. reflexivity.
  Qed.
  Lemma eq_switch info info' v ad o : tsim info info' ->
    json_switch env je c rec info v ad o = json_switch env je c' rec' info' v ad o.
  Proof.
    intros Hs. unfold json_switch. rewrite (tsim_type _ _ Hs).
    destruct (resolve env (ti_type info')); try reflexivity; try apply eq_list; try apply eq_map; try apply eq_interface;
    (destruct info, info'; cbn in Hs; try contradiction; [subst; apply eq_struct|reflexivity]).
  Qed.
End Enc.

Theorem encode_json_equiv env je c c' : codec_equiv env c c' -> forall k info info' v ad o, tsim info info' ->
  encode_json k env je c info v ad o = encode_json k env je c' info' v ad o.
Proof.
  intros Hc. induction k as [|k IH]; intros info info' v ad o Hs; [reflexivity|]. cbn [encode_json].
  destruct v; try reflexivity;
  (destruct (deref_pointers _) as [w [|]]; [reflexivity|]; cbv zeta; rewrite (tsim_type _ _ Hs);
   destruct (marshal_override _ _ _ _); [reflexivity|];
   pose proof (eq_switch env je c c' Hc (encode_json k env je c) (encode_json k env je c')
                 (fun i i' v ad o H => IH i i' v ad o H) info info') as SW;
   destruct info as [ci|ii], info' as [ci'|ii']; cbn in Hs; try contradiction; [subst ci'|apply SW; exact Hs];
   destruct ci as [ct fs [r|] u rg]; [|apply SW; reflexivity];
   apply eq_bind; [reflexivity|]; intros rv; apply eq_info; [apply (ce_info _ _ _ Hc)|]; intros i i' Hi; apply IH, Hi).
Qed.

Theorem marshal_json_equiv env je c c' k t v : codec_equiv env c c' ->
  marshal_json k env je c t v = marshal_json k env je c' t v.
Proof.
  intros Hc. unfold marshal_json. apply eq_info; [apply (ce_info _ _ _ Hc)|]. intros i i' Hi.
  apply eq_bind; [apply encode_json_equiv; assumption|]. intros b.
  destruct i as [[ct fs m u [r|]]|ii], i' as [ci'|ii']; cbn in Hi; try contradiction; subst; reflexivity.
Qed.
Theorem marshal_json_indent_equiv env je c c' k t v p q : codec_equiv env c c' ->
  marshal_json_indent k env je c t v p q = marshal_json_indent k env je c' t v p q.
Proof. intros Hc. unfold marshal_json_indent. rewrite (marshal_json_equiv env je c c' k t v Hc). reflexivity. Qed.

Section Dec.
  Variable env : tenv.
  Variable je : jenv.
  Variables c c' : codec.
  Hypothesis Hc : codec_equiv env c c'.
  Variables rec rec' : bytes -> tinfo -> gotype -> value -> fopts -> eres value.
  Hypothesis Hrec : forall b i i' t v o, tsim i i' -> rec b i t v o = rec' b i' t v o.

  Lemma eq_uninterface ii ii' bz o : isim ii ii' -> unjson_interface env c rec ii bz o = unjson_interface env c' rec' ii' bz o.
  Proof.
    intros Hs. unfold unjson_interface. apply eq_bind; [reflexivity|]. intros nd.
    apply eq_bind; [apply (ce_names _ _ _ Hc)|]. intros ci. cbv zeta.
    rewrite (Hrec (snd nd) (TIConc ci) (TIConc ci)) by reflexivity. rewrite (is_id _ _ Hs). reflexivity.
  Qed.
  Lemma eq_unelems einfo einfo' ert o : tsim einfo einfo' -> forall raws l,
    unjson_elems rec einfo ert raws l o = unjson_elems rec' einfo' ert raws l o.
  Proof.
    intros Hs. induction raws as [|b raws IH]; intros [|v l]; cbn [unjson_elems]; try reflexivity.
    apply eq_bind; [apply Hrec, Hs|]. intros w. rewrite IH. reflexivity.
  Qed.
  Lemma eq_unarray n ert bz v0 o : unjson_array env c rec n ert bz v0 o = unjson_array env c' rec' n ert bz v0 o.
  Proof.
    unfold unjson_array. destruct (is_uint8 env ert); [reflexivity|]. apply eq_info; [apply (ce_info _ _ _ Hc)|]. intros i i' Hi.
    apply eq_bind; [reflexivity|]. intros raws. destruct (negb _); [reflexivity|]. destruct v0; try reflexivity.
    rewrite (eq_unelems i i' ert o Hi). reflexivity.
  Qed.
  Lemma eq_unslice ert bz v0 o : unjson_slice env c rec ert bz v0 o = unjson_slice env c' rec' ert bz v0 o.
  Proof.
    unfold unjson_slice. destruct (is_uint8 env ert); [reflexivity|]. apply eq_info; [apply (ce_info _ _ _ Hc)|]. intros i i' Hi.
    apply eq_bind; [reflexivity|]. intros raws. rewrite (eq_unelems i i' ert o Hi). reflexivity.
  Qed.
  Lemma eq_unfields m o : forall fs l, unjson_fields env c rec fs m l o = unjson_fields env c' rec' fs m l o.
  Proof.
    induction fs as [|f fs IH]; intros l; cbn [unjson_fields]; [reflexivity|].
    apply eq_info; [apply (ce_info _ _ _ Hc)|]. intros i i' Hi.
    destruct (assoc beqb _ m) as [[|b r]|]; [apply IH| |apply IH]. rewrite (Hrec (b :: r) i i' _ _ _ Hi).
    apply eq_bind; [reflexivity|]. intros w. apply IH.
  Qed.
  Lemma eq_unstruct ci bz v0 o : unjson_struct env c rec ci bz v0 o = unjson_struct env c' rec' ci bz v0 o.
  Proof.
    unfold unjson_struct. apply eq_bind; [reflexivity|]. intros m. destruct v0; try reflexivity. rewrite eq_unfields. reflexivity.
  Qed.
  Lemma eq_unmembers kt vt i i' o : tsim i i' -> forall m, unjson_members env rec kt vt i m o = unjson_members env rec' kt vt i' m o.
  Proof.
    intros Hi. induction m as [|[k b] m IH]; cbn [unjson_members]; [reflexivity|].
    apply eq_bind; [apply Hrec, Hi|]. intros w. rewrite IH. reflexivity.
  Qed.
  Lemma eq_unmap kt vt bz o : unjson_map env c rec kt vt bz o = unjson_map env c' rec' kt vt bz o.
  Proof.
    unfold unjson_map. apply eq_bind; [reflexivity|]. intros m.
    destruct (resolve env kt) as [[]| | | | | | | | | |]; try reflexivity.
    apply eq_info; [apply (ce_info _ _ _ Hc)|]. intros i i' Hi. rewrite (eq_unmembers kt vt i i' o Hi). reflexivity.
  Qed.
  Lemma eq_unswitch info info' bz v0 o : tsim info info' ->
    unjson_switch env je c rec info bz v0 o = unjson_switch env je c' rec' info' bz v0 o.
  Proof.
    intros Hs. unfold unjson_switch. rewrite (tsim_type _ _ Hs).
    destruct (resolve env (ti_type info')); try reflexivity; try apply eq_unarray; try apply eq_unslice; try apply eq_unmap;
    (destruct info, info'; cbn in Hs; try contradiction; try reflexivity; [subst; apply eq_unstruct|apply eq_uninterface, Hs]) ||
    (destruct info, info'; cbn in Hs; try contradiction; try reflexivity; subst; apply eq_unstruct) ||
    (destruct info, info'; cbn in Hs; try contradiction; try reflexivity; apply eq_uninterface, Hs).
  Qed.
End Dec.

Theorem decode_json_equiv env je c c' : codec_equiv env c c' -> forall k bz info info' t v0 o, tsim info info' ->
  decode_json k env je c bz info t v0 o = decode_json k env je c' bz info' t v0 o.
Proof.
  intros Hc. induction k as [|k IH]; intros bz info info' t v0 o Hs; [reflexivity|]. cbn [decode_json]. cbv zeta.
  assert (B : forall w, (if beqb bz null then EOk (zero env t) else
     ebind (match deref_type t with
            | TTime => w
            | _ => match (match deref_type t with TNamed id => je_unmarshal je id | _ => None end) with
                   | Some g => g bz (base_of env t v0)
                   | None => match info with
                      | TIConc {| ci_type := ct; ci_unmarshal := Some r |} =>
                          ebind (get_type_info env c r) (fun rinfo =>
                          ebind (decode_json k env je c bz rinfo r (zero env r) o) (fun rv =>
                          ebind (from_repr env ct (base_of env t v0) rv) (fun ve =>
                          match snd ve with Some e => EErr e | None => EOk (fst ve) end)))
                      | _ => unjson_switch env je c (decode_json k env je c) info bz (base_of env t v0) o
                      end
                   end
            end) (fun w => EOk (rebuild t w))) =
     (if beqb bz null then EOk (zero env t) else
     ebind (match deref_type t with
            | TTime => w
            | _ => match (match deref_type t with TNamed id => je_unmarshal je id | _ => None end) with
                   | Some g => g bz (base_of env t v0)
                   | None => match info' with
                      | TIConc {| ci_type := ct; ci_unmarshal := Some r |} =>
                          ebind (get_type_info env c' r) (fun rinfo =>
                          ebind (decode_json k env je c' bz rinfo r (zero env r) o) (fun rv =>
                          ebind (from_repr env ct (base_of env t v0) rv) (fun ve =>
                          match snd ve with Some e => EErr e | None => EOk (fst ve) end)))
                      | _ => unjson_switch env je c' (decode_json k env je c') info' bz (base_of env t v0) o
                      end
                   end
            end) (fun w => EOk (rebuild t w)))).
  { intros w. destruct (beqb bz null); [reflexivity|]. apply eq_bind; [|reflexivity].
    pose proof (eq_unswitch env je c c' Hc (decode_json k env je c) (decode_json k env je c')
                 (fun b i i' t v o H => IH b i i' t v o H) info info' bz (base_of env t v0) o Hs) as SW.
    assert (G : (match info with
                      | TIConc {| ci_type := ct; ci_unmarshal := Some r |} =>
                          ebind (get_type_info env c r) (fun rinfo =>
                          ebind (decode_json k env je c bz rinfo r (zero env r) o) (fun rv =>
                          ebind (from_repr env ct (base_of env t v0) rv) (fun ve =>
                          match snd ve with Some e => EErr e | None => EOk (fst ve) end)))
                      | _ => unjson_switch env je c (decode_json k env je c) info bz (base_of env t v0) o
                      end) =
                (match info' with
                      | TIConc {| ci_type := ct; ci_unmarshal := Some r |} =>
                          ebind (get_type_info env c' r) (fun rinfo =>
                          ebind (decode_json k env je c' bz rinfo r (zero env r) o) (fun rv =>
                          ebind (from_repr env ct (base_of env t v0) rv) (fun ve =>
                          match snd ve with Some e => EErr e | None => EOk (fst ve) end)))
                      | _ => unjson_switch env je c' (decode_json k env je c') info' bz (base_of env t v0) o
                      end)).
    { destruct info as [ci|ii], info' as [ci'|ii']; cbn in Hs; try contradiction; try exact SW. subst ci'.
      destruct ci as [ct fs m [r|] rg]; try exact SW.
      apply eq_info; [apply (ce_info _ _ _ Hc)|]. intros i i' Hi. rewrite (IH bz i i' r (zero env r) o Hi). reflexivity. }
    rewrite G. reflexivity. }
  destruct info as [ci|ii], info' as [ci'|ii']; cbn in Hs; try contradiction; [apply B|].
  destruct t; try apply B; reflexivity.
Qed.

Theorem unmarshal_json_equiv env je c c' k bz t v0 : codec_equiv env c c' ->
  unmarshal_json k env je c bz t v0 = unmarshal_json k env je c' bz t v0.
Proof.
  intros Hc. unfold unmarshal_json. destruct bz as [|b r]; [reflexivity|].
  apply eq_info; [apply (ce_info _ _ _ Hc)|]. intros i i' Hi.
  pose proof (fun bz => decode_json_equiv env je c c' Hc k bz i i' t v0 no_opts Hi) as D.
  destruct i as [[ct fs m u [rg|]]|ii], i' as [ci'|ii']; cbn in Hi; try contradiction; subst; try apply D.
  apply eq_bind; [reflexivity|]. intros nd. destruct (negb _); [reflexivity|]. apply D.
Qed.
