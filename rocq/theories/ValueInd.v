(** Induction over values, and facts about zero values. *)
From Coq Require Import ZArith String List Bool Lia.
From Verif Require Import Base Prims PrimFacts Types.
Import ListNotations.
Local Open Scope Z_scope.

Section Ind.
  Variable P : value -> Prop.
  Hypothesis HBool : forall b, P (VBool b).
  Hypothesis HInt : forall z, P (VInt z).
  Hypothesis HUint : forall z, P (VUint z).
  Hypothesis HFloat : forall z, P (VFloat z).
  Hypothesis HStr : forall s, P (VStr s).
  Hypothesis HTime : forall s ns, P (VTime s ns).
  Hypothesis HArr : forall l, Forall P l -> P (VArr l).
  Hypothesis HSliceN : P (VSlice None).
  Hypothesis HSlice : forall l, Forall P l -> P (VSlice (Some l)).
  Hypothesis HPtrN : P (VPtr None).
  Hypothesis HPtr : forall v, P v -> P (VPtr (Some v)).
  Hypothesis HStruct : forall l, Forall P l -> P (VStruct l).
  Hypothesis HIfaceN : P (VIface None).
  Hypothesis HIface : forall t v, P v -> P (VIface (Some (t, v))).
  Hypothesis HMapN : P (VMap None).
  Hypothesis HMap : forall l, Forall (fun p => P (fst p) /\ P (snd p)) l -> P (VMap (Some l)).
  Hypothesis HFunc : forall b, P (VFunc b).
  Hypothesis HOther : P VOther.
  Hypothesis HInvalid : P VInvalid.

  Fixpoint value_ind' (v : value) : P v :=
    let fix go (l : list value) : Forall P l :=
      match l with
      | [] => Forall_nil _
      | x :: l' => Forall_cons _ (value_ind' x) (go l')
      end in
    match v with
    | VBool b => HBool b
    | VInt z => HInt z
    | VUint z => HUint z
    | VFloat z => HFloat z
    | VStr s => HStr s
    | VTime s ns => HTime s ns
    | VArr l => HArr l (go l)
    | VSlice None => HSliceN
    | VSlice (Some l) => HSlice l (go l)
    | VPtr None => HPtrN
    | VPtr (Some w) => HPtr w (value_ind' w)
    | VStruct l => HStruct l (go l)
    | VIface None => HIfaceN
    | VIface (Some (t, w)) => HIface t w (value_ind' w)
    | VMap None => HMapN
    | VMap (Some l) =>
        HMap l ((fix gom (l : list (value * value)) : Forall (fun p => P (fst p) /\ P (snd p)) l :=
                   match l with
                   | [] => Forall_nil _
                   | (a, b) :: l' => Forall_cons (a, b) (conj (value_ind' a) (value_ind' b)) (gom l')
                   end) l)
    | VFunc b => HFunc b
    | VOther => HOther
    | VInvalid => HInvalid
    end.
End Ind.

(** Properties of all zero values: one step for each form of type. *)
Lemma zero_ind env (Q : gotype -> value -> Prop) : wf_env env ->
  (forall p, Q (TPrim p) (zero_prim p)) -> Q TTime zero_time ->
  (forall n e, (forall v, v = zero env e -> (0 < n)%nat -> Q e v) -> Q (TArray n e) (VArr (repeat (zero env e) n))) ->
  (forall e, Q (TSlice e) (VSlice None)) -> (forall e, Q (TPtr e) (VPtr None)) ->
  (forall k e, Q (TMap k e) (VMap None)) -> Q TFunc (VFunc true) -> Q TOther VOther ->
  (forall i, Q (TIface i) (VIface None)) ->
  (forall id fs, te_def env id = UStruct fs -> (forall f, In f fs -> Q (sf_type f) (zero env (sf_type f))) ->
     Q (TNamed id) (VStruct (map (fun f => zero env (sf_type f)) fs))) ->
  (forall id t, te_def env id = UType t -> (forall i, t <> TNamed i) -> Q t (zero env t) -> Q (TNamed id) (zero env t)) ->
  forall t, Q t (zero env t).
Proof.
  intros We Hp Ht Ha Hs Hptr Hm Hf Ho Hi Hst Hty.
  (* first unnamed types by recursion on the value *)
  assert (G : forall v t, v = zero env t -> Q t v).
  { refine (value_ind' (fun v => forall t, v = zero env t -> Q t v) _ _ _ _ _ _ _ _ _ _ _ _ _ _ _ _ _ _ _).
    all: intros.
    all: match goal with H : _ = zero _ ?t |- _ => rename t into tt; rename H into Heq end.
    all: destruct tt as [p| |n e|e|e|ke e| | |i|id]; cbn [zero] in Heq;
      try (match type of Heq with ?x = ?y => first [discriminate | rewrite Heq; first [apply Hp|apply Ht|apply Hs|apply Hptr|apply Hm|apply Hf|apply Ho|apply Hi]] end).
    all: try (destruct p; discriminate).
    all: try (rewrite (we_zero _ We) in Heq; unfold zero_of_def in Heq;
              destruct (te_def env id) as [fs|u] eqn:Ed;
              [ try discriminate
              | assert (Nn : forall j, u <> TNamed j) by (intros j ->; apply (we_def _ We id); cbn; rewrite Ed; reflexivity) ]).
    all: try (rewrite Heq; apply (Hty _ _ Ed Nn); destruct u as [p| |n e|e|e|ke e| | |i|id2]; cbn [zero];
              first [apply Hp|apply Ht|apply Hs|apply Hptr|apply Hm|apply Hf|apply Ho|apply Hi|idtac]).
    all: try (exfalso; eapply Nn; reflexivity).
    all: try (cbn [zero] in Heq; discriminate).
    all: try (cbn [zero] in Heq; destruct p; discriminate).
    all: try first [apply Hs|apply Hptr|apply Hm|apply Hf|apply Ho|apply Hi].
    - (* array *)
      rewrite Heq. apply Ha. intros v0 Hv Hn. rewrite Forall_forall in H. apply H; [|assumption].
      injection Heq as ->. destruct n; [lia|]. left. congruence.
    - cbn [zero] in Heq. injection Heq as ->. apply Ha. intros v0 Hv Hn. rewrite Forall_forall in H. apply H; [|assumption].
      destruct n; [lia|]. left. congruence.
    - injection Heq as ->. apply (Hst _ _ Ed). intros f Hf'. rewrite Forall_forall in H. apply H; [|reflexivity].
      apply in_map_iff. exists f. split; [reflexivity|assumption]. }
  intros t. apply G. reflexivity.
Qed.
