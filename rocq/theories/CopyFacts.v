(** Facts about DeepCopy. *)
From Coq Require Import ZArith String List Bool Lia.
From Coq Require Import ZifyBool ZifyNat.
From Verif Require Import Base PrimFacts Types DeepCopy SpecCopy.
Import ListNotations.

(** ** Heaps that grow *)

Lemma nth_ext {A} (h e : list A) a c : nth_error h a = Some c -> nth_error (h ++ e) a = Some c.
Proof. intros H. rewrite nth_error_app1; [exact H|]. apply nth_error_Some. rewrite H. discriminate. Qed.
Lemma load_ext h e l x : load h l = Some x -> load (h ++ e) l = Some x.
Proof.
  unfold load. destruct (nth_error h (fst l)) as [c|] eqn:E; [|discriminate]. rewrite (nth_ext _ _ _ _ E). tauto.
Qed.
Lemma load_map_ext h e a x : load_map h a = Some x -> load_map (h ++ e) a = Some x.
Proof. unfold load_map. destruct (nth_error h a) as [c|] eqn:E; [|discriminate]. rewrite (nth_ext _ _ _ _ E). tauto. Qed.
Lemma load_slice_ext h e l o k x : load_slice h l o k = Some x -> load_slice (h ++ e) l o k = Some x.
Proof. unfold load_slice. destruct (load h l) as [v|] eqn:E; [|discriminate]. rewrite (load_ext _ _ _ _ E). tauto. Qed.

Lemma Forall2_impl2 {A B} (R R' : A -> B -> Prop) la lb : (forall a b, R a b -> R' a b) -> Forall2 R la lb -> Forall2 R' la lb.
Proof. intros H F. induction F; constructor; auto. Qed.
Lemma Forall3_impl {A B C} (R R' : A -> B -> C -> Prop) la lb lc : (forall a b c, R a b c -> R' a b c) -> Forall3 R la lb lc -> Forall3 R' la lb lc.
Proof. intros H F. induction F; constructor; auto. Qed.

Lemma alike_ext_r env : forall n h1 t v1 h2 v2 e, alike n env h1 t v1 h2 v2 -> alike n env h1 t v1 (h2 ++ e) v2.
Proof.
  induction n as [|n IH]; intros h1 t v1 h2 v2 e H; [exact I|]. cbn [alike] in *.
  destruct (resolve env t) as [p| |k el|el|el|k el| | |i|fs|]; try exact H.
  - destruct v1; try contradiction. destruct v2; try contradiction. eapply Forall2_impl2; [|exact H]. intros; apply IH; assumption.
  - destruct v1; try contradiction. destruct o as [[[l1 o1] k1]|]; destruct v2; try contradiction; destruct o as [[[l2 o2] k2]|]; try contradiction; [|exact I].
    destruct H as (es1 & es2 & H1 & H2 & H3). exists es1, es2. split; [exact H1|]. split; [apply load_slice_ext; exact H2|].
    eapply Forall2_impl2; [|exact H3]. intros; apply IH; assumption.
  - destruct v1; try contradiction. destruct o as [l1|]; destruct v2; try contradiction; destruct o as [l2|]; try contradiction; [|exact I].
    destruct H as (x1 & x2 & H1 & H2 & H3). exists x1, x2. split; [exact H1|]. split; [apply load_ext; exact H2|]. apply IH; exact H3.
  - destruct v1; try contradiction. destruct o as [a1|]; destruct v2; try contradiction; destruct o as [a2|]; try contradiction; [|exact I].
    destruct H as (es1 & es2 & H1 & H2 & H3). exists es1, es2. split; [exact H1|]. split; [apply load_map_ext; exact H2|].
    eapply Forall2_impl2; [|exact H3]. intros a b [A B]. split; apply IH; assumption.
  - destruct v1; try contradiction. destruct o as [[c1 x1]|]; destruct v2; try contradiction; destruct o as [[c2 x2]|]; try contradiction; [|exact I].
    destruct H as [H1 H2]. split; [exact H1|]. apply IH; exact H2.
  - destruct v1; try contradiction. destruct v2; try contradiction. eapply Forall3_impl; [|exact H]. cbv beta. intros a b c K E. apply IH, K, E.
Qed.

Lemma Forall2_swap_r {A} (R R' : A -> A -> Prop) la lb : (forall a b, R a b -> R' b b) -> Forall2 R la lb -> Forall2 R' lb lb.
Proof. intros H F. induction F; constructor; eauto. Qed.
Lemma Forall3_swap_r {A B} (R R' : A -> B -> B -> Prop) la lb lc : (forall a b c, R a b c -> R' a c c) -> Forall3 R la lb lc -> Forall3 R' la lc lc.
Proof. intros H F. induction F; constructor; eauto. Qed.

Lemma alike_self_r env : forall n h1 t v1 h2 v2, alike n env h1 t v1 h2 v2 -> alike n env h2 t v2 h2 v2.
Proof.
  induction n as [|n IH]; intros h1 t v1 h2 v2 H; [exact I|]. cbn [alike] in *.
  destruct (resolve env t) as [p| |k el|el|el|k el| | |i|fs|]; try (destruct H as [<- H]; split; [reflexivity|exact H]); try exact H.
  - destruct v1; try contradiction. destruct v2; try contradiction. eapply Forall2_swap_r; [|exact H]. cbv beta; intros a b K; eapply IH; exact K.
  - destruct v1; try contradiction. destruct o as [[[l1 o1] k1]|]; destruct v2; try contradiction; destruct o as [[[l2 o2] k2]|]; try contradiction; [|exact I].
    destruct H as (es1 & es2 & H1 & H2 & H3). exists es2, es2. split; [exact H2|]. split; [exact H2|].
    eapply Forall2_swap_r; [|exact H3]. cbv beta; intros a b K; eapply IH; exact K.
  - destruct v1; try contradiction. destruct o as [l1|]; destruct v2; try contradiction; destruct o as [l2|]; try contradiction; [|exact I].
    destruct H as (x1 & x2 & H1 & H2 & H3). exists x2, x2. split; [exact H2|]. split; [exact H2|]. eapply IH; exact H3.
  - destruct v1; try contradiction. destruct o as [a1|]; destruct v2; try contradiction; destruct o as [a2|]; try contradiction; [|exact I].
    destruct H as (es1 & es2 & H1 & H2 & H3). exists es2, es2. split; [exact H2|]. split; [exact H2|].
    eapply Forall2_swap_r; [|exact H3]. cbv beta. intros a b [A B]. split; eapply IH; eassumption.
  - destruct v1; try contradiction. destruct o as [[c1 x1]|]; destruct v2; try contradiction; destruct o as [[c2 x2]|]; try contradiction; [|exact I].
    destruct H as [<- H2]. split; [reflexivity|]. eapply IH; exact H2.
  - destruct v1; try contradiction. destruct v2; try contradiction. eapply Forall3_swap_r; [|exact H]. cbv beta. intros a b c K E. eapply IH, K, E.
Qed.

(** ** Parts of objects *)

Lemma Forall2_diag {A} (R : A -> A -> Prop) l : Forall2 R l l <-> Forall (fun a => R a a) l.
Proof.
  split.
  - induction l as [|a l IH]; intros H; [constructor|]. inversion H; subst. constructor; auto.
  - induction 1; constructor; auto.
Qed.
Lemma Forall3_diag {A B} (R : A -> B -> B -> Prop) la l : Forall3 R la l l <-> Forall2 (fun a b => R a b b) la l.
Proof.
  split.
  - revert la. induction l as [|b l IH]; intros la H; inversion H; subst; constructor; auto.
  - induction 1; constructor; auto.
Qed.
Lemma Forall_all {A B} (R : B -> A -> Prop) l : (forall n, Forall (R n) l) -> Forall (fun a => forall n, R n a) l.
Proof.
  induction l as [|a l IH]; intros H; [constructor|]. constructor.
  - intros n. specialize (H n). inversion H; assumption.
  - apply IH. intros n. specialize (H n). inversion H; assumption.
Qed.
Lemma Forall2_all {A B} (R : nat -> A -> B -> Prop) la : forall lb, (forall n, Forall2 (R n) la lb) -> Forall2 (fun a b => forall n, R n a b) la lb.
Proof.
  induction la as [|a la IH]; intros lb H; pose proof (H 0%nat) as H0; inversion H0; subst; constructor.
  - intros n. specialize (H n). inversion H; assumption.
  - apply IH. intros n. specialize (H n). inversion H; assumption.
Qed.

Section Object.
  Variable env : tenv.
  Variable h : heap.

  Lemma object_ptr t e l : resolve env t = RPtr e -> object env h t (HPtr (Some l)) -> exists x, load h l = Some x /\ object env h e x.
  Proof.
    intros Hr H. pose proof (H 1%nat) as H1. cbn [alike] in H1. rewrite Hr in H1. destruct H1 as (x & _ & L & _). exists x. split; [exact L|].
    intros n. specialize (H (S n)). cbn [alike] in H. rewrite Hr in H. destruct H as (x1 & x2 & L1 & L2 & A). congruence.
  Qed.
  Lemma object_iface t i ct x : resolve env t = RIface i -> object env h t (HIface (Some (ct, x))) -> object env h ct x.
  Proof. intros Hr H n. specialize (H (S n)). cbn [alike] in H. rewrite Hr in H. apply H. Qed.
  Lemma object_array t k e l : resolve env t = RArray k e -> object env h t (HArr l) -> Forall (object env h e) l.
  Proof.
    intros Hr H. apply (Forall_all (fun n x => alike n env h e x h x)). intros n. specialize (H (S n)). cbn [alike] in H. rewrite Hr in H.
    apply Forall2_diag in H. exact H.
  Qed.
  Lemma object_slice t e l o k : resolve env t = RSlice e -> object env h t (HSlice (Some (l, o, k))) ->
    exists es, load_slice h l o k = Some es /\ Forall (object env h e) es.
  Proof.
    intros Hr H. pose proof (H 1%nat) as H1. cbn [alike] in H1. rewrite Hr in H1. destruct H1 as (es & _ & L & _). exists es. split; [exact L|].
    apply (Forall_all (fun n x => alike n env h e x h x)). intros n. specialize (H (S n)). cbn [alike] in H. rewrite Hr in H.
    destruct H as (es1 & es2 & L1 & L2 & H). rewrite L in L1, L2. inversion L1; inversion L2; subst. apply Forall2_diag in H. exact H.
  Qed.
  Lemma object_struct t fs l : resolve env t = RStruct fs -> object env h t (HStruct l) ->
    Forall2 (fun sf x => sf_exported sf = true -> object env h (sf_type sf) x) fs l.
  Proof.
    intros Hr H. assert (G : Forall2 (fun sf x => forall n, sf_exported sf = true -> alike n env h (sf_type sf) x h x) fs l).
    { apply (Forall2_all (fun n sf x => sf_exported sf = true -> alike n env h (sf_type sf) x h x)). intros n. specialize (H (S n)). cbn [alike] in H. rewrite Hr in H.
      apply Forall3_diag in H. exact H. }
    eapply Forall2_impl2; [|exact G]. cbv beta. intros sf x K E n. apply K, E.
  Qed.
  Lemma object_map t k e a : resolve env t = RMap k e -> object env h t (HMap (Some a)) -> exists es, load_map h a = Some es.
  Proof. intros Hr H. specialize (H 1%nat). cbn [alike] in H. rewrite Hr in H. destruct H as (es & _ & L & _). exists es. exact L. Qed.
End Object.

(** ** The copy looks like the original *)

Lemma methodless_none env cm addr h t v : methodless cm t -> call_methods env cm addr h t v = None.
Proof.
  intros [H1 H2]. unfold call_methods, call_copy, call_amino. rewrite H1. destruct t; rewrite H2; try reflexivity; destruct addr; reflexivity.
Qed.

Section Alike.
  Variable env : tenv.
  Variable cm : cmethods.
  Variable h0 : heap.

  Lemma copy_each_alike (f : heap -> hvalue -> cres hvalue) e0 : forall l e,
    Forall (fun x => object env h0 e0 x /\ forall e, exists ext x', f (h0 ++ e) x = COk (h0 ++ e ++ ext) x' /\
      forall m, alike m env h0 e0 x (h0 ++ e ++ ext) x') l ->
    exists ext l', copy_each f (h0 ++ e) l = COk (h0 ++ e ++ ext) l' /\
      forall m, Forall2 (fun x x' => alike m env h0 e0 x (h0 ++ e ++ ext) x') l l'.
  Proof.
    induction l as [|x l IH]; intros e HF; cbn [copy_each].
    - exists [], []. rewrite app_nil_r. split; [reflexivity|]. constructor.
    - inversion HF as [|? ? [_ Hx] HF']; subst. destruct (Hx e) as (e1 & x' & E1 & A1). rewrite E1.
      destruct (IH (e ++ e1) HF') as (e2 & l' & E2 & A2). rewrite <- app_assoc in E2. rewrite E2.
      exists (e1 ++ e2), (x' :: l'). split; [reflexivity|]. intros m. specialize (A2 m). rewrite <- app_assoc in A2. constructor; [|exact A2].
      specialize (A1 m). apply (alike_ext_r env _ _ _ _ _ _ e2) in A1. rewrite <- !app_assoc in A1. exact A1.
  Qed.

  Lemma copy_fields_alike (f : heap -> gotype -> hvalue -> cres hvalue) : forall fs l e,
    Forall2 (fun sf x => sf_exported sf = true -> forall e, exists ext x', f (h0 ++ e) (sf_type sf) x = COk (h0 ++ e ++ ext) x' /\
      forall m, alike m env h0 (sf_type sf) x (h0 ++ e ++ ext) x') fs l ->
    exists ext l', copy_fields env f (h0 ++ e) fs l = COk (h0 ++ e ++ ext) l' /\
      forall m, Forall3 (fun sf x x' => sf_exported sf = true -> alike m env h0 (sf_type sf) x (h0 ++ e ++ ext) x') fs l l'.
  Proof.
    intros fs l e HF. revert e. induction HF as [|sf x fs l Hx HF IH]; intros e; cbn [copy_fields].
    - exists [], []. rewrite app_nil_r. split; [reflexivity|]. constructor.
    - assert (G : exists e1 x', (if sf_exported sf then f (h0 ++ e) (sf_type sf) x else COk (h0 ++ e) (hzero env (sf_type sf))) = COk (h0 ++ e ++ e1) x' /\
        forall m, sf_exported sf = true -> alike m env h0 (sf_type sf) x (h0 ++ e ++ e1) x').
      { destruct (sf_exported sf).
        - destruct (Hx eq_refl e) as (e1 & x' & E1 & A1). exists e1, x'. split; [exact E1|]. intros m _. apply A1.
        - exists [], (hzero env (sf_type sf)). rewrite app_nil_r. split; [reflexivity|]. discriminate. }
      destruct G as (e1 & x' & E1 & A1). rewrite E1.
      destruct (IH (e ++ e1)) as (e2 & l' & E2 & A2). rewrite <- app_assoc in E2. rewrite E2.
      exists (e1 ++ e2), (x' :: l'). split; [reflexivity|]. intros m. specialize (A2 m). rewrite <- app_assoc in A2. constructor; [|exact A2].
      intros Ex. specialize (A1 m Ex). apply (alike_ext_r env _ _ _ _ _ _ e2) in A1. rewrite <- !app_assoc in A1. exact A1.
  Qed.

  Lemma object_shared e t v : object env h0 t v -> forall m, alike m env h0 t v (h0 ++ e) v.
  Proof. intros H m. apply alike_ext_r, H. Qed.

  Lemma deep_alike : forall n fuel check addr t v e, copyable n env cm (negb check) h0 t v -> object env h0 t v -> (n <= fuel)%nat ->
    exists ext v', deep fuel env cm check addr (h0 ++ e) t v = COk (h0 ++ e ++ ext) v' /\ forall m, alike m env h0 t v (h0 ++ e ++ ext) v'.
  Proof.
    induction n as [|n IH]; intros fuel check addr t v e Hc Ho Hf; [destruct Hc|]. destruct fuel as [|fuel]; [lia|]. cbn [copyable] in Hc. cbn [deep].
    assert (Same : forall ext, deep (S fuel) env cm check addr (h0 ++ e) t v = COk (h0 ++ e ++ ext) v ->
       exists ext v', deep (S fuel) env cm check addr (h0 ++ e) t v = COk (h0 ++ e ++ ext) v' /\ forall m, alike m env h0 t v (h0 ++ e ++ ext) v').
    { intros ext E. exists ext, v. split; [exact E|]. apply object_shared, Ho. }
    cbn [deep] in Same. specialize (Same []) as Same0. rewrite app_nil_r in Same0.
    destruct (h_isnil v) eqn:En.
    { destruct Hc as [Hc|Hc].
      - destruct check; [|discriminate]. cbn [andb] in *. apply Same0. reflexivity.
      - destruct check; cbn [andb] in *; [apply Same0; reflexivity|]. destruct (resolve env t) eqn:Er; try contradiction.
        pose proof (Ho 1%nat) as H1. cbn [alike] in H1. rewrite Er in H1. destruct v; try contradiction. destruct o; [discriminate En|]. apply Same0. reflexivity. }
    replace (check && false) with false in * by (destruct check; reflexivity). destruct Hc as [Hn Hc].
    assert (Em : (if check then call_methods env cm addr (h0 ++ e) t v else None) = None) by (destruct check; [apply methodless_none, Hn; reflexivity|reflexivity]).
    rewrite Em in *. clear Em Hn.
    destruct (resolve env t) as [p| |k el|el|el|k el| | |i|fs|] eqn:Er; try contradiction.
    - apply Same0. reflexivity.
    - destruct v; try contradiction. apply Same0. reflexivity.
    - destruct v as [| | | | | |l| | | | | | |]; try contradiction. destruct (flat_kind env el); [apply Same0; reflexivity|].
      pose proof (object_array _ _ _ _ _ _ Er Ho) as Hl.
      destruct (copy_each_alike (fun h x => deep fuel env cm true addr h el x) el l e) as (ext & l' & E & A).
      { apply Forall_forall. intros x Hx. rewrite Forall_forall in Hl, Hc. split; [apply Hl, Hx|]. intros e'. apply IH; [apply Hc, Hx|apply Hl, Hx|lia]. }
      rewrite E. exists ext, (HArr l'). split; [reflexivity|]. intros [|m]; [exact I|]. cbn [alike]. rewrite Er. apply A.
    - destruct v as [| | | | | | | | |[[[l o] k]|]| | | |]; try contradiction. destruct (flat_kind env el); [apply Same0; reflexivity|].
      destruct Hc as (es & L & Hc). rewrite (load_slice_ext _ _ _ _ _ _ L).
      destruct (object_slice _ _ _ _ _ _ _ Er Ho) as (es' & L' & Hl). rewrite L in L'. inversion L'; subst es'.
      destruct (copy_each_alike (fun h x => deep fuel env cm true true h el x) el es e) as (ext & l' & E & A).
      { apply Forall_forall. intros x Hx. rewrite Forall_forall in Hl, Hc. split; [apply Hl, Hx|]. intros e'. apply IH; [apply Hc, Hx|apply Hl, Hx|lia]. }
      specialize (Same ext). rewrite (load_slice_ext _ _ _ _ _ _ L), E in Same. rewrite E. apply Same. reflexivity.
    - destruct v as [| | | | | | | |[l|]| | | | |]; try contradiction. destruct Hc as (x & L & Hc). rewrite (load_ext _ _ _ _ L).
      destruct (object_ptr _ _ _ _ _ Er Ho) as (x' & L' & Hx). rewrite L in L'. inversion L'; subst x'.
      destruct (IH fuel false true el x e) as (ext & x' & E & A); [exact Hc|exact Hx|lia|]. rewrite E.
      exists (ext ++ [CVal x']), (HPtr (Some (length (h0 ++ e ++ ext), []))). split; [rewrite !app_assoc; reflexivity|].
      intros [|m]; [exact I|]. cbn [alike]. rewrite Er. exists x, x'. split; [exact L|]. split.
      + unfold load. cbn [fst snd]. replace (h0 ++ e ++ ext ++ [CVal x']) with ((h0 ++ e ++ ext) ++ [CVal x']) by (rewrite !app_assoc; reflexivity).
        rewrite nth_error_app2, Nat.sub_diag by lia. reflexivity.
      + specialize (A m). apply (alike_ext_r env _ _ _ _ _ _ [CVal x']) in A. rewrite <- !app_assoc in A. exact A.
    - destruct v as [| | | | | | | | | | |[a|]| |]; try contradiction. destruct Hc as (es & L). rewrite (load_map_ext _ _ _ _ L).
      exists [CMap es], (HMap (Some (length (h0 ++ e)))). split; [rewrite !app_assoc; reflexivity|]. intros [|m]; [exact I|]. cbn [alike]. rewrite Er.
      exists es, es. split; [exact L|]. split.
      + unfold load_map. rewrite app_assoc, nth_error_app2, Nat.sub_diag by lia. reflexivity.
      + specialize (Ho (S m)). cbn [alike] in Ho. rewrite Er in Ho. destruct Ho as (es1 & es2 & L1 & L2 & Ho). rewrite L in L1, L2. inversion L1; inversion L2; subst.
        eapply Forall2_impl2; [|exact Ho]. cbv beta. intros a' b' [A B]. split; apply alike_ext_r; assumption.
    - destruct v as [| | | | | | | | | |[[ct x]|]| | |]; try contradiction.
      pose proof (object_iface _ _ _ _ _ _ Er Ho) as Hx. destruct (IH fuel true false ct x e) as (ext & x' & E & A); [exact Hc|exact Hx|lia|]. rewrite E.
      exists ext, (HIface (Some (ct, x'))). split; [reflexivity|]. intros [|m]; [exact I|]. cbn [alike]. rewrite Er. split; [reflexivity|apply A].
    - destruct v as [| | | | | | |l| | | | | |]; try contradiction. pose proof (object_struct _ _ _ _ _ Er Ho) as Hl.
      destruct (copy_fields_alike (fun h ft x => deep fuel env cm true addr h ft x) fs l e) as (ext & l' & E & A).
      { clear -IH Hc Hl Hf. revert Hc. induction Hl as [|sf x fs l Hx Hl IHl]; intros Hc; [constructor|]. inversion Hc; subst. constructor; [|apply IHl; assumption].
        intros Ex e'. apply IH; [auto|auto|lia]. }
      rewrite E. exists ext, (HStruct l'). split; [reflexivity|]. intros [|m]; [exact I|]. cbn [alike]. rewrite Er. apply A.
  Qed.
End Alike.

(** ** Separation *)

Lemma refs_zero : forall v, refs (hzero_of v) = [].
Proof.
  fix IH 1. intros v. destruct v; try reflexivity; cbn [hzero_of refs];
    (induction l as [|x l IHl]; [reflexivity|]; cbn [map flat_map]; rewrite IH; exact IHl).
Qed.
Lemma refs_nil v : h_isnil v = true -> refs v = [].
Proof. destruct v as [| | | | | | | |[|]|[|]|[|]|[|]|[|]|[|]]; try discriminate; reflexivity. Qed.
Lemma refs_scalar v : scalar v = true -> refs v = [].
Proof. destruct v; try discriminate; reflexivity. Qed.

Definition above (b : nat) (l : list nat) : Prop := forall a, In a l -> (b <= a)%nat.
Lemma above_nil b : above b [].
Proof. intros a []. Qed.
Lemma above_app b l l' : above b l -> above b l' -> above b (l ++ l').
Proof. intros H H' a Ha. apply in_app_iff in Ha. destruct Ha; auto. Qed.
Definition cells_above (b : nat) (e : heap) : Prop := Forall (fun c => above b (cell_refs c)) e.

Section Fresh.
  Variable env : tenv.
  Variable cm : cmethods.
  Variable h0 : heap.
  Let b := length h0.

  (** What a step that copies [x] must guarantee. *)
  Definition fresh_step (f : heap -> cres hvalue) : Prop :=
    forall e h1 x', cells_above b e -> f (h0 ++ e) = COk h1 x' ->
    exists ext, h1 = h0 ++ e ++ ext /\ cells_above b ext /\ above b (refs x').

  Lemma copy_each_fresh (f : heap -> hvalue -> cres hvalue) : forall l e h1 l', cells_above b e ->
    Forall (fun x => fresh_step (fun h => f h x)) l -> copy_each f (h0 ++ e) l = COk h1 l' ->
    exists ext, h1 = h0 ++ e ++ ext /\ cells_above b ext /\ above b (flat_map refs l').
  Proof.
    induction l as [|x l IH]; intros e h1 l' He HF H; cbn [copy_each] in H.
    - inversion H; subst. exists []. rewrite app_nil_r. split; [reflexivity|]. split; [constructor|apply above_nil].
    - inversion HF as [|? ? Hx HF']; subst. destruct (f (h0 ++ e) x) as [h2 x'| |] eqn:E1; try discriminate.
      destruct (Hx e h2 x' He E1) as (e1 & -> & C1 & R1).
      replace (h0 ++ e ++ e1) with (h0 ++ (e ++ e1)) in H by (rewrite app_assoc; reflexivity).
      destruct (copy_each f (h0 ++ e ++ e1) l) as [h3 l2| |] eqn:E2; try discriminate. inversion H; subst.
      apply IH in E2; [|apply Forall_app; split; assumption|exact HF']. destruct E2 as (e2 & -> & C2 & R2).
      exists (e1 ++ e2). split; [rewrite <- !app_assoc; reflexivity|]. split; [apply Forall_app; split; assumption|]. cbn [flat_map]. apply above_app; assumption.
  Qed.
  Lemma copy_fields_fresh (f : heap -> gotype -> hvalue -> cres hvalue) : forall fs l e h1 l', cells_above b e ->
    Forall2 (fun sf x => sf_exported sf = true -> fresh_step (fun h => f h (sf_type sf) x)) fs l ->
    copy_fields env f (h0 ++ e) fs l = COk h1 l' ->
    exists ext, h1 = h0 ++ e ++ ext /\ cells_above b ext /\ above b (flat_map refs l').
  Proof.
    intros fs l e h1 l' He HF. revert e h1 l' He. induction HF as [|sf x fs l Hx HF IH]; intros e h1 l' He H; cbn [copy_fields] in H.
    - inversion H; subst. exists []. rewrite app_nil_r. split; [reflexivity|]. split; [constructor|apply above_nil].
    - assert (G : forall h2 x', (if sf_exported sf then f (h0 ++ e) (sf_type sf) x else COk (h0 ++ e) (hzero env (sf_type sf))) = COk h2 x' ->
        exists ext, h2 = h0 ++ e ++ ext /\ cells_above b ext /\ above b (refs x')).
      { intros h2 x' E. destruct (sf_exported sf); [exact (Hx eq_refl e h2 x' He E)|]. inversion E; subst. exists []. rewrite app_nil_r.
        split; [reflexivity|]. split; [constructor|]. unfold hzero. rewrite refs_zero. apply above_nil. }
      destruct (if sf_exported sf then _ else _) as [h2 x'| |] eqn:E1; try discriminate.
      destruct (G h2 x' eq_refl) as (e1 & -> & C1 & R1).
      destruct (copy_fields env f (h0 ++ e ++ e1) fs l) as [h3 l2| |] eqn:E2; try discriminate. inversion H; subst.
      apply IH in E2; [|apply Forall_app; split; assumption]. destruct E2 as (e2 & -> & C2 & R2).
      exists (e1 ++ e2). split; [rewrite <- !app_assoc; reflexivity|]. split; [apply Forall_app; split; assumption|]. cbn [flat_map]. apply above_app; assumption.
  Qed.

  Lemma flat_refs t k e l : resolve env t = RArray k e -> flat_kind env e = true -> object env h0 t (HArr l) -> flat_map refs l = [].
  Proof.
    intros Hr Hk Ho. apply (object_array _ _ _ _ _ _ Hr) in Ho. unfold flat_kind in Hk. destruct (resolve env e) eqn:Ee; try discriminate.
    induction Ho as [|x l Hx _ IH]; [reflexivity|]. cbn [flat_map]. specialize (Hx 1%nat). cbn [alike] in Hx. rewrite Ee in Hx. rewrite refs_scalar by apply Hx. exact IH.
  Qed.

  Lemma deep_fresh : forall fuel check addr t v, object env h0 t v -> (forall n, sliceless n env cm h0 t v) ->
    fresh_step (fun h => deep fuel env cm check addr h t v).
  Proof.
    induction fuel as [|fuel IH]; intros check addr t v Ho Hs e h1 v' He H; [discriminate|]. cbn [deep] in H.
    assert (Same : refs v = [] -> COk (h0 ++ e) v = COk h1 v' -> exists ext, h1 = h0 ++ e ++ ext /\ cells_above b ext /\ above b (refs v')).
    { intros Rv E. inversion E; subst. exists []. rewrite app_nil_r. split; [reflexivity|]. split; [constructor|]. rewrite Rv. apply above_nil. }
    destruct (check && h_isnil v) eqn:Ec. { apply Same; [|exact H]. apply refs_nil. destruct check; [exact Ec|discriminate]. }
    pose proof (Ho 1%nat) as H1. cbn [alike] in H1.
    assert (Em : (if check then call_methods env cm addr (h0 ++ e) t v else None) = None).
    { destruct check; [|reflexivity]. apply methodless_none. specialize (Hs 1%nat). cbn [sliceless] in Hs. apply Hs. }
    rewrite Em in H. clear Em.
    assert (Hs' : forall n, match resolve env t, v with
      | RPtr e, HPtr (Some l) => forall x, load h0 l = Some x -> sliceless n env cm h0 e x
      | RIface _, HIface (Some (ct, x)) => sliceless n env cm h0 ct x
      | RArray _ e, HArr l => Forall (fun x => sliceless n env cm h0 e x) l
      | RStruct fs, HStruct l => Forall2 (fun sf x => sf_exported sf = true -> sliceless n env cm h0 (sf_type sf) x) fs l
      | RSlice _, HSlice (Some _) => False
      | RMap _ _, HMap (Some a) => forall es, load_map h0 a = Some es -> cell_refs (CMap es) = []
      | _, _ => True
      end) by (intros n; specialize (Hs (S n)); cbn [sliceless] in Hs; apply Hs).
    clear Hs. rename Hs' into Hs.
    destruct (resolve env t) as [p| |k el|el|el|k el| | |i|fs|] eqn:Er; try contradiction; try (destruct v; discriminate).
    - apply Same; [|exact H]. apply refs_scalar, H1.
    - destruct H1 as (_ & s & ns & ->). apply Same; [reflexivity|exact H].
    - destruct v as [| | | | | |l| | | | | | |]; try discriminate. destruct (flat_kind env el) eqn:Ef.
      { apply Same; [|exact H]. cbn [refs]. eapply flat_refs; eassumption. }
      pose proof (object_array _ _ _ _ _ _ Er Ho) as Hl.
      assert (Hsl : Forall (fun x => forall n, sliceless n env cm h0 el x) l).
      { apply (Forall_all (fun n x => sliceless n env cm h0 el x)). intros n. specialize (Hs n). exact Hs. }
      destruct (copy_each (fun h x => deep fuel env cm true addr h el x) (h0 ++ e) l) as [h2 l'| |] eqn:E; try discriminate. inversion H; subst.
      apply copy_each_fresh in E; [exact E|exact He|]. apply Forall_forall. intros x Hx. rewrite Forall_forall in Hl, Hsl. apply IH; [apply Hl, Hx|apply Hsl, Hx].
    - destruct v as [| | | | | | | | |[[[l o] k]|]| | | |]; try discriminate.
      + specialize (Hs 1%nat). contradiction.
      + apply Same; [reflexivity|exact H].
    - destruct v as [| | | | | | | |[l|]| | | | |]; try discriminate. destruct (object_ptr _ _ _ _ _ Er Ho) as (x & L & Hx).
      rewrite (load_ext _ _ _ _ L) in H. destruct (deep fuel env cm false true (h0 ++ e) el x) as [h2 x'| |] eqn:E; try discriminate. inversion H; subst.
      apply (IH false true el x Hx) in E; [|intros n; specialize (Hs n); exact (Hs x L)|exact He].
      destruct E as (ext & -> & C & R). exists (ext ++ [CVal x']). split; [rewrite <- !app_assoc; reflexivity|]. split.
      + apply Forall_app. split; [exact C|]. constructor; [exact R|constructor].
      + cbn [refs]. intros a [<-|[]]. unfold b. rewrite app_length. lia.
    - destruct v as [| | | | | | | | | | |o| |]; try discriminate.
      assert (M : exists es, match o with Some a => load_map (h0 ++ e) a | None => Some [] end = Some es /\ cell_refs (CMap es) = []).
      { destruct o as [a|]; [|exists []; split; reflexivity]. destruct (object_map _ _ _ _ _ _ Er Ho) as (es & L). exists es. split; [apply load_map_ext, L|].
        specialize (Hs 1%nat). exact (Hs es L). }
      destruct M as (es & L & R). rewrite L in H. inversion H; subst. exists [CMap es]. split; [rewrite <- !app_assoc; reflexivity|]. split.
      + constructor; [rewrite R; apply above_nil|constructor].
      + cbn [refs]. intros a [<-|[]]. unfold b. rewrite app_length. lia.
    - destruct v as [| | | | | | | | | |[[ct x]|]| | |]; try discriminate. pose proof (object_iface _ _ _ _ _ _ Er Ho) as Hx.
      destruct (deep fuel env cm true false (h0 ++ e) ct x) as [h2 x'| |] eqn:E; try discriminate. inversion H; subst.
      apply (IH true false ct x Hx) in E; [exact E|intros n; specialize (Hs n); exact Hs|exact He].
    - destruct v as [| | | | | | |l| | | | | |]; try discriminate. pose proof (object_struct _ _ _ _ _ Er Ho) as Hl.
      assert (Hsl : Forall2 (fun sf x => forall n, sf_exported sf = true -> sliceless n env cm h0 (sf_type sf) x) fs l).
      { apply (Forall2_all (fun n sf x => sf_exported sf = true -> sliceless n env cm h0 (sf_type sf) x)). intros n. specialize (Hs n). exact Hs. }
      destruct (copy_fields env (fun h ft x => deep fuel env cm true addr h ft x) (h0 ++ e) fs l) as [h2 l'| |] eqn:E; try discriminate. inversion H; subst.
      apply copy_fields_fresh in E; [exact E|exact He|].
      clear -IH Hl Hsl. induction Hl as [|sf x fs l Hx Hl IHl]; [constructor|]. inversion Hsl; subst. constructor; [|apply IHl; assumption].
      intros Ex. apply IH; [auto|]. intros n. auto.
  Qed.
End Fresh.

Lemma reach_fresh h0 ext v a : cells_above (length h0) ext -> above (length h0) (refs v) -> reach (h0 ++ ext) v a -> (length h0 <= a)%nat.
Proof.
  intros Hc Hv R. induction R as [a Ha|a c x R IH Hn Hx]; [apply Hv, Ha|].
  rewrite nth_error_app2 in Hn by exact IH. apply nth_error_In in Hn. unfold cells_above in Hc. rewrite Forall_forall in Hc. exact (Hc c Hn x Hx).
Qed.
Lemma reach_old h0 ext v a : closed h0 v -> reach (h0 ++ ext) v a -> (a < length h0)%nat.
Proof.
  intros [Hv Hc] R. induction R as [a Ha|a c x R IH Hn Hx]; [apply Hv, Ha|].
  rewrite nth_error_app1 in Hn by exact IH. exact (Hc _ _ _ Hn Hx).
Qed.

(** ** What an object looks like depends only on the cells it reaches *)

Lemma at_path_refs p : forall v x, at_path p v = Some x -> incl (refs x) (refs v).
Proof.
  induction p as [|i p IH]; intros v x H; cbn [at_path] in H; [inversion H; subst; apply incl_refl|].
  destruct v; try discriminate; (destruct (nth_error l i) as [w|] eqn:E; [|discriminate]; apply IH in H; apply nth_error_In in E;
    intros a Ha; cbn [refs]; apply in_flat_map; exists w; split; [exact E|apply H, Ha]).
Qed.
Lemma reach_incl h v x : (forall a, In a (refs x) -> reach h v a) -> forall a, reach h x a -> reach h v a.
Proof. intros H a R. induction R as [a Ha|a c y R IH Hn Hy]; [apply H, Ha|]. eapply reach_step; eassumption. Qed.
Lemma load_reach h v l x a0 p : l = (a0, p) -> In a0 (refs v) -> load h l = Some x -> forall a, reach h x a -> reach h v a.
Proof.
  intros -> Hin L. apply reach_incl. intros a Ha. unfold load in L. cbn [fst snd] in L. destruct (nth_error h a0) as [[w|]|] eqn:E; try discriminate.
  eapply reach_step; [apply reach_ref; exact Hin|exact E|]. cbn [cell_refs]. exact (at_path_refs _ _ _ L a Ha).
Qed.

Section Agree.
  Variables (env : tenv) (h h' : heap).
  Definition agrees (v : hvalue) : Prop := forall a c, reach h v a -> nth_error h a = Some c -> nth_error h' a = Some c.

  Lemma agrees_sub v x : agrees v -> (forall a, reach h x a -> reach h v a) -> agrees x.
  Proof. intros A H a c R. apply A, H, R. Qed.

  Lemma alike_agree : forall n t v, agrees v -> alike n env h t v h v -> alike n env h t v h' v.
  Proof.
    assert (Ld : forall v a0 p x, agrees v -> In a0 (refs v) -> load h (a0, p) = Some x -> load h' (a0, p) = Some x).
    { intros v a0 p x A Hin L. unfold load in *. cbn [fst snd] in *. destruct (nth_error h a0) as [c|] eqn:E; [|discriminate].
      rewrite (A a0 c); [exact L|apply reach_ref, Hin|exact E]. }
    induction n as [|n IH]; intros t v A H; [exact I|]. cbn [alike] in *.
    destruct (resolve env t) as [p| |k el|el|el|k el| | |i|fs|]; try exact H.
    - destruct v as [| | | | | |l| | | | | | |]; try contradiction. apply Forall2_diag in H. apply Forall2_diag. rewrite Forall_forall in *. intros x Hx. apply IH; [|apply H, Hx].
      eapply agrees_sub; [exact A|]. apply reach_incl. intros a Ha. apply reach_ref. cbn [refs]. apply in_flat_map. exists x. split; assumption.
    - destruct v as [| | | | | | | | |[[[[a0 p] o] k]|]| | | |]; try contradiction; [|exact I]. destruct H as (es & es' & L & L' & H). rewrite L in L'. inversion L'; subst es'.
      assert (Lx : exists l, load h (a0, p) = Some (HArr l) /\ incl es l).
      { unfold load_slice in L. destruct (load h (a0, p)) as [[| | | | | |l| | | | | | |]|]; try discriminate. exists l. split; [reflexivity|].
        destruct (_ <=? _)%nat; [|discriminate]. inversion L. intros x Hx. rewrite <- (firstn_skipn o l). apply in_or_app. right.
        rewrite <- (firstn_skipn k (skipn o l)). apply in_or_app. left. exact Hx. }
      destruct Lx as (l & Ll & Hin). exists es, es. split; [exact L|]. split.
      + unfold load_slice in *. rewrite Ll in L. rewrite (Ld _ _ _ _ A (or_introl eq_refl) Ll). exact L.
      + apply Forall2_diag in H. apply Forall2_diag. rewrite Forall_forall in *. intros x Hx. apply IH; [|apply H, Hx].
        eapply agrees_sub; [exact A|]. intros a Ha. eapply load_reach; [reflexivity|left; reflexivity|exact Ll|]. revert a Ha. apply reach_incl.
        intros a Ha. apply reach_ref. cbn [refs]. apply in_flat_map. exists x. split; [apply Hin, Hx|exact Ha].
    - destruct v as [| | | | | | | |[[a0 p]|]| | | | |]; try contradiction; [|exact I]. destruct H as (x & x' & L & L' & H). rewrite L in L'. inversion L'; subst x'.
      exists x, x. split; [exact L|]. split; [exact (Ld _ _ _ _ A (or_introl eq_refl) L)|]. apply IH; [|exact H].
      eapply agrees_sub; [exact A|]. eapply load_reach; [reflexivity|left; reflexivity|exact L].
    - destruct v as [| | | | | | | | | | |[a0|]| |]; try contradiction; [|exact I]. destruct H as (es & es' & L & L' & H). rewrite L in L'. inversion L'; subst es'.
      assert (E : nth_error h a0 = Some (CMap es)).
      { unfold load_map in L. destruct (nth_error h a0) as [[|l]|]; try discriminate. inversion L; reflexivity. }
      exists es, es. split; [exact L|]. split.
      + unfold load_map. rewrite (A a0 (CMap es)); [reflexivity|apply reach_ref; left; reflexivity|exact E].
      + apply Forall2_diag in H. apply Forall2_diag. rewrite Forall_forall in *. intros [x y] Hx. specialize (H (x, y) Hx). cbn [fst snd] in *. destruct H as [H1 H2].
        assert (Sub : forall z, (z = x \/ z = y) -> agrees z).
        { intros z Hz. eapply agrees_sub; [exact A|]. apply reach_incl. intros a Ha. eapply reach_step; [apply reach_ref; left; reflexivity|exact E|].
          cbn [cell_refs]. apply in_flat_map. exists (x, y). split; [exact Hx|]. cbn [fst snd]. apply in_or_app. destruct Hz as [-> | ->]; auto. }
        split; apply IH; auto.
    - destruct v as [| | | | | | | | | |[[ct x]|]| | |]; try contradiction; [|exact I]. destruct H as [H1 H2]. split; [reflexivity|]. apply IH; [|exact H2].
      eapply agrees_sub; [exact A|]. apply reach_incl. intros a Ha. apply reach_ref. exact Ha.
    - destruct v as [| | | | | | |l| | | | | |]; try contradiction. apply Forall3_diag in H. apply Forall3_diag.
      assert (Sub : Forall agrees l).
      { rewrite Forall_forall. intros x Hx. eapply agrees_sub; [exact A|]. apply reach_incl. intros a Ha. apply reach_ref. cbn [refs]. apply in_flat_map. exists x. split; assumption. }
      clear A. induction H as [|sf x fs l Hx H IHl]; [constructor|]. inversion Sub; subst. constructor; [|apply IHl; assumption].
      intros Ex. apply IH; auto.
  Qed.
End Agree.
