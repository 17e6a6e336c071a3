(** Facts for C100: UnmarshalJSON into a pointer. *)
From Coq Require Import ZArith String List Bool Lia.
From Verif Require Import Base Prims PrimFacts Types Codec BinEnc BinDec Amino ValueInd Typing Registry SpecRegistry RegistryFacts Sane DecSafe SpecNorm EncFacts SpecStruct SkipFacts RoundTrip TopFacts WritableFacts ConcatFacts JsonText Json SpecPointee.
Import ListNotations.
Local Open Scope Z_scope.
Local Open Scope amino_scope.

Section Pointee.
  Variable env : tenv.
  Variable je : jenv.
  Variable c : codec.
  Variable e : gotype.
  Hypothesis If : is_iface (deref_type e) = false.

  Lemma decode_pointee k bz ci v o : bz <> null ->
    decode_json k env je c bz (TIConc ci) (TPtr e) v o = ebind (decode_json k env je c bz (TIConc ci) e (pointee env e v) o) (fun w => EOk (VPtr (Some w))).
  Proof.
    intros N. destruct k as [|k]; [reflexivity|]. cbn [decode_json]. destruct (beqb bz null) eqn:E; [apply beqb_eq in E; contradiction|].
    change (deref_type (TPtr e)) with (deref_type e). change (base_of env (TPtr e) v) with (base_of env e (pointee env e v)).
    set (x := match deref_type e with TTime => _ | _ => _ end). destruct x; reflexivity.
  Qed.
  Lemma decode_null k ci t v o : decode_json (S k) env je c null (TIConc ci) t v o = EOk (zero env t).
  Proof. reflexivity. Qed.
  Lemma info_conc info : sane_codec env c -> get_type_info env c e = EOk info -> exists ci, info = TIConc ci.
  Proof.
    intros Hs G. destruct info as [ci|ii]; [eauto|]. pose proof (gti_minfo _ _ _ _ Hs G) as [_ X]. rewrite X in If. discriminate If.
  Qed.

  Theorem unmarshal_pointee k bz v : sane_codec env c ->
    unmarshal_json k env je c bz (TPtr e) v = ebind (unmarshal_json k env je c bz e (pointee env e v)) (fun w => EOk (VPtr (Some w))) \/
    unmarshal_json k env je c bz (TPtr e) v = EOk (VPtr None) /\ unmarshal_json k env je c bz e (pointee env e v) = EOk (zero env e).
  Proof.
    intros Hs. unfold unmarshal_json. destruct bz as [|x bz]; [left; reflexivity|]. change (get_type_info env c (TPtr e)) with (get_type_info env c e).
    destruct (get_type_info env c e) as [info| | |] eqn:G; cbn [ebind]; try (left; reflexivity). destruct (info_conc info Hs G) as [ci ->].
    assert (D : forall b, decode_json k env je c b (TIConc ci) (TPtr e) v no_opts = ebind (decode_json k env je c b (TIConc ci) e (pointee env e v) no_opts) (fun w => EOk (VPtr (Some w))) \/
      decode_json k env je c b (TIConc ci) (TPtr e) v no_opts = EOk (VPtr None) /\ decode_json k env je c b (TIConc ci) e (pointee env e v) no_opts = EOk (zero env e)).
    { intros b. destruct (beqb b null) eqn:E; [apply beqb_eq in E; subst b|left; apply decode_pointee; intros ->; rewrite beqb_refl in E; discriminate E].
      destruct k as [|k]; [left; reflexivity|]. right. split; apply decode_null. }
    destruct ci as [ty fs m u [r|]]; [|apply D]. destruct (decode_wrapper (x :: bz)) as [nd| | |]; cbn [ebind]; try (left; reflexivity).
    destruct (negb _); [left; reflexivity|]. apply D.
  Qed.
  Theorem unmarshal_pointee_plain k bz v : sane_codec env c -> wf_codec env c -> registered c (deref_type e) = None -> bz <> null ->
    unmarshal_json k env je c bz (TPtr e) v = ebind (unmarshal_json k env je c bz e (pointee env e v)) (fun w => EOk (VPtr (Some w))).
  Proof.
    intros Hs Wc U N. unfold unmarshal_json. destruct bz as [|x bz]; [reflexivity|]. change (get_type_info env c (TPtr e)) with (get_type_info env c e).
    destruct (get_type_info env c e) as [info| | |] eqn:G; cbn [ebind]; try reflexivity. destruct (info_conc info Hs G) as [ci ->].
    destruct ci as [ty fs m u [r|]] eqn:Ec; [exfalso|apply decode_pointee; exact N].
    apply (proj1 (registered_iff env c Wc Hs e)); [|exact U]. rewrite G. discriminate.
  Qed.
  Theorem unmarshal_pointee_null k v w z : sane_codec env c -> wf_codec env c -> registered c (deref_type e) = None ->
    unmarshal_json k env je c null e w = EOk z -> z = zero env e /\ unmarshal_json k env je c null (TPtr e) v = EOk (VPtr None).
  Proof.
    intros Hs Wc U H. unfold unmarshal_json in *. change (get_type_info env c (TPtr e)) with (get_type_info env c e).
    destruct (get_type_info env c e) as [info| | |] eqn:G; try discriminate H. destruct (info_conc info Hs G) as [ci ->].
    destruct ci as [ty fs m u [r|]] eqn:Ec; [exfalso; apply (proj1 (registered_iff env c Wc Hs e)); [rewrite G; discriminate|exact U]|].
    destruct k as [|k]; [discriminate H|]. cbn [null bs ebind] in *. injection H as <-. split; reflexivity.
  Qed.
End Pointee.
