(** DeepCopy calls the methods for copying that it meets. *)
From Coq Require Import ZArith String List Bool Lia.
From Coq Require Import ZifyBool ZifyNat.
From Verif Require Import Base PrimFacts Types RegistryFacts DeepCopy SpecCopy CopyFacts.
Import ListNotations.

Lemma keeps_refl b h : keeps b h h.
Proof. split; [lia|]. reflexivity. Qed.
Lemma keeps_trans b b' h1 h2 h3 : (b <= b')%nat -> keeps b h1 h2 -> keeps b' h2 h3 -> keeps b h1 h3.
Proof. intros L [L1 K1] [L2 K2]. split; [lia|]. intros i Hi. rewrite K2 by lia. apply K1, Hi. Qed.
Lemma keeps_app h e : keeps (length h) h (h ++ e).
Proof. split; [rewrite app_length; lia|]. intros i Hi. apply nth_error_app1, Hi. Qed.
Lemma keeps_less b b' h h' : (b' <= b)%nat -> keeps b h h' -> keeps b' h h'.
Proof. intros L [H1 H2]. split; [exact H1|]. intros i Hi. apply H2. lia. Qed.
(** From the lengths: a chain of steps keeping all cells. *)
Lemma keeps_all h1 h2 h3 : keeps (length h1) h1 h2 -> keeps (length h2) h2 h3 -> keeps (length h1) h1 h3.
Proof. intros H1 H2. eapply keeps_trans; [|exact H1|exact H2]. apply H1. Qed.
Lemma load_keeps h h' l x : keeps (length h) h h' -> load h l = Some x -> load h' l = Some x.
Proof.
  intros [_ K] H. unfold load in *. destruct (nth_error h (fst l)) as [c|] eqn:E; [|discriminate].
  rewrite K, E by (apply nth_error_Some; rewrite E; discriminate). exact H.
Qed.
Lemma load_slice_keeps h h' l o k x : keeps (length h) h h' -> load_slice h l o k = Some x -> load_slice h' l o k = Some x.
Proof. intros K. unfold load_slice. destruct (load h l) as [v|] eqn:E; [|discriminate]. rewrite (load_keeps _ _ _ _ K E). auto. Qed.
Lemma follow_keeps h h' : keeps (length h) h h' -> forall p v x, follow h v p = Some x -> follow h' v p = Some x.
Proof.
  intros K. induction p as [|w p IH]; intros v x H; [exact H|]. cbn [follow] in *. destruct w.
  - destruct v; try discriminate. destruct o as [l|]; [|discriminate]. destruct (load h l) as [y|] eqn:E; [|discriminate]. rewrite (load_keeps _ _ _ _ K E). apply IH, H.
  - destruct v; try discriminate. destruct o as [[ct y]|]; [|discriminate]. apply IH, H.
  - destruct v; try discriminate; (destruct (nth_error l i) as [y|]; [|discriminate]; apply IH, H).
Qed.
Lemma met_keeps env cm h h' : keeps (length h) h h' -> forall d a t v p a' t' x, met env cm h d a t v p a' t' x -> met env cm h' d a t v p a' t' x.
Proof.
  intros K d a t v p a' t' x H. induction H.
  - apply met_here.
  - eapply met_ptr; try eassumption. eapply load_keeps; eassumption.
  - eapply met_iface; eassumption.
  - eapply met_elem; eassumption.
  - eapply met_field; eassumption.
Qed.

Section Calls.
  Variable env : tenv.
  Variable cm : cmethods.
  Hypothesis Ht : tame cm.

  Lemma methods_keep addr h t v h' v' : call_methods env cm addr h t v = Some (COk h' v') -> keeps (length h) h h'.
  Proof.
    unfold call_methods. destruct (call_copy cm h t v) as [r|] eqn:C.
    - intros H. injection H as ->. unfold call_copy in C. destruct (cm_copy cm t) as [[ot f]|] eqn:E; [|discriminate].
      destruct (match t with TPtr e => gotype_eqb e ot | _ => false end).
      + injection C as C. destruct (f h v) as [h1 x| |] eqn:F; try discriminate. injection C as <- _. eapply keeps_all; [eapply tame_copy; eassumption|apply keeps_app].
      + destruct (gotype_eqb t ot); [|discriminate]. injection C as C. eapply tame_copy; eassumption.
    - intros H. unfold call_amino in H.
      assert (N : forall b u, (if b : bool then match cm_amino cm u with Some _ => Some (CPanic "reflect: reflect.flag.mustBeAssignable using unaddressable value"%string) | None => None end else None) = Some (COk h' v') -> False).
      { intros b u X. destruct b; [|discriminate]. destruct (cm_amino cm u); discriminate. }
      destruct t; try (exfalso; exact (N _ _ H)). destruct (cm_amino cm t) as [[mar unm]|] eqn:E; [|discriminate]. injection H as H.
      destruct (mar _ v) as [h1 [r [p|]]| |] eqn:M; try discriminate. destruct (unm h1 _ r) as [h2 [p|]| |] eqn:U; try discriminate. injection H as <- _.
      apply (tame_marshal _ Ht _ _ _ _ _ _ _ E) in M. apply (tame_unmarshal _ Ht _ _ _ _ _ _ _ _ E) in U.
      eapply keeps_trans; [|apply keeps_app|]; [apply Nat.le_refl|]. eapply keeps_trans; [|eapply keeps_less; [|exact M]|exact U]; [lia|rewrite app_length; lia].
  Qed.

  Lemma each_keeps (f : heap -> hvalue -> cres hvalue) : (forall h x h' x', f h x = COk h' x' -> keeps (length h) h h') ->
    forall l h h' l', copy_each f h l = COk h' l' -> keeps (length h) h h' /\
      forall i x, nth_error l i = Some x -> exists h1 h2 x', keeps (length h) h h1 /\ f h1 x = COk h2 x' /\ keeps (length h2) h2 h' /\ nth_error l' i = Some x'.
  Proof.
    intros Hf. induction l as [|v l IH]; intros h h' l' H; cbn [copy_each] in H.
    - injection H as <- <-. split; [apply keeps_refl|]. intros [|i] x X; discriminate.
    - destruct (f h v) as [h1 v'| |] eqn:E; try discriminate. destruct (copy_each f h1 l) as [h2 l2| |] eqn:E2; try discriminate. injection H as <- <-.
      destruct (IH _ _ _ E2) as [K IHl]. pose proof (Hf _ _ _ _ E) as K1. split; [eapply keeps_all; eassumption|].
      intros [|i] x X; cbn [nth_error] in X.
      + injection X as ->. exists h, h1, v'. split; [apply keeps_refl|]. split; [exact E|]. split; [exact K|reflexivity].
      + destruct (IHl i x X) as (g1 & g2 & x' & A & B & C & D). exists g1, g2, x'. split; [eapply keeps_all; eassumption|]. auto.
  Qed.
  Lemma fields_keep (f : heap -> gotype -> hvalue -> cres hvalue) : (forall h t x h' x', f h t x = COk h' x' -> keeps (length h) h h') ->
    forall fs l h h' l', copy_fields env f h fs l = COk h' l' -> keeps (length h) h h' /\
      forall i sf x, nth_error fs i = Some sf -> sf_exported sf = true -> nth_error l i = Some x ->
      exists h1 h2 x', keeps (length h) h h1 /\ f h1 (sf_type sf) x = COk h2 x' /\ keeps (length h2) h2 h' /\ nth_error l' i = Some x'.
  Proof.
    intros Hf. induction fs as [|sf fs IH]; intros [|v l] h h' l' H; cbn [copy_fields] in H; try discriminate.
    - injection H as <- <-. split; [apply keeps_refl|]. intros [|i] sf x X; discriminate.
    - destruct (if sf_exported sf then f h (sf_type sf) v else COk h (hzero env (sf_type sf))) as [h1 v'| |] eqn:E; try discriminate.
      destruct (copy_fields env f h1 fs l) as [h2 l2| |] eqn:E2; try discriminate. injection H as <- <-.
      destruct (IH _ _ _ _ E2) as [K IHl]. assert (K1 : keeps (length h) h h1).
      { destruct (sf_exported sf); [exact (Hf _ _ _ _ _ E)|]. injection E as <- _. apply keeps_refl. }
      split; [eapply keeps_all; eassumption|].
      intros [|i] g x X Ex Y; cbn [nth_error] in X, Y.
      + injection X as <-. injection Y as <-. rewrite Ex in E. exists h, h1, v'. split; [apply keeps_refl|]. split; [exact E|]. split; [exact K|reflexivity].
      + destruct (IHl i g x X Ex Y) as (g1 & g2 & x' & A & B & C & D). exists g1, g2, x'. split; [eapply keeps_all; eassumption|]. auto.
  Qed.

  Lemma deep_keeps : forall fuel check addr h t v h' v', deep fuel env cm check addr h t v = COk h' v' -> keeps (length h) h h'.
  Proof.
    induction fuel as [|fuel IH]; intros check addr h t v h' v' H; [discriminate|]. cbn [deep] in H.
    destruct (check && h_isnil v). { injection H as <- _. apply keeps_refl. }
    destruct (if check then call_methods env cm addr h t v else None) as [r|] eqn:M.
    { subst r. destruct check; [|discriminate]. eapply methods_keep; exact M. }
    assert (Same : COk h v = COk h' v' -> keeps (length h) h h') by (intros E; injection E as <- _; apply keeps_refl).
    destruct (resolve env t) as [p| |k el|el|el|k el| | |i|fs|] eqn:Er; try (apply Same; exact H); destruct v; try discriminate; try (apply Same; exact H).
    - destruct (flat_kind env el); [apply Same; exact H|]. destruct (copy_each _ h l) as [h1 l'| |] eqn:E; try discriminate. injection H as <- _.
      exact (proj1 (each_keeps (fun h x => deep fuel env cm true addr h el x) (fun _ _ _ _ => IH _ _ _ _ _ _ _) _ _ _ _ E)).
    - destruct o as [[[l o] k]|]; [|apply Same; exact H]. destruct (flat_kind env el); [apply Same; exact H|]. destruct (load_slice h l o k) as [es|]; [|discriminate].
      destruct (copy_each _ h es) as [h1 l'| |] eqn:E; try discriminate. injection H as <- _.
      exact (proj1 (each_keeps (fun h x => deep fuel env cm true true h el x) (fun _ _ _ _ => IH _ _ _ _ _ _ _) _ _ _ _ E)).
    - destruct o as [l|]; [|discriminate]. destruct (load h l) as [x|]; [|discriminate]. destruct (deep fuel env cm false true h el x) as [h1 x'| |] eqn:E; try discriminate.
      injection H as <- _. eapply keeps_all; [eapply IH; exact E|apply keeps_app].
    - destruct (match o with Some a => load_map h a | None => Some [] end); [|discriminate]. injection H as <- _. apply keeps_app.
    - destruct o as [[ct x]|]; [|discriminate]. destruct (deep fuel env cm true false h ct x) as [h1 x'| |] eqn:E; try discriminate. injection H as <- _. eapply IH; exact E.
    - destruct (copy_fields _ _ h fs l) as [h1 l'| |] eqn:E; try discriminate. injection H as <- _.
      exact (proj1 (fields_keep (fun h ft x => deep fuel env cm true addr h ft x) (fun _ _ _ _ _ => IH _ _ _ _ _ _ _) _ _ _ _ _ E)).
  Qed.

  (** Whatever is met is copied on its own, and the result is where it was met. *)
  Theorem deep_met : forall h d a t v p a' t' x, met env cm h d a t v p a' t' x ->
    forall fuel g h' v', keeps (length h) h g -> deep fuel env cm d a g t v = COk h' v' ->
    exists k h1 h2 x', keeps (length h) h h1 /\ deep (S k) env cm true a' h1 t' x = COk h2 x' /\ keeps (length h2) h2 h' /\ follow h' v' p = Some x'.
  Proof.
    intros h d a t v p a' t' x H. induction H as [a t v|d a t e l x p a' t' y R M L _ IH|d a t i ct x p a' t' y R M _ IH|d a t n e l i x p a' t' y R M F N _ IH|d a t fs f l i x p a' t' y R M Nf Ex N _ IH];
      intros fuel g h' v' K D; (destruct fuel as [|fuel]; [discriminate|]).
    - exists fuel, g, h', v'. split; [exact K|]. split; [exact D|]. split; [apply keeps_refl|reflexivity].
    - cbn [deep] in D. replace (d && h_isnil (HPtr (Some l))) with false in D by (destruct d; reflexivity).
      assert (Em : (if d then call_methods env cm a g t (HPtr (Some l)) else None) = None) by (destruct d; [apply methodless_none, M; reflexivity|reflexivity]). rewrite Em, R in D.
      rewrite (load_keeps _ _ _ _ K L) in D. destruct (deep fuel env cm false true g e x) as [h1 x'| |] eqn:E; try discriminate. injection D as <- <-.
      destruct (IH _ _ _ _ K E) as (k & g1 & g2 & y' & A & B & C & Fo). exists k, g1, g2, y'. split; [exact A|]. split; [exact B|]. split; [eapply keeps_all; [exact C|apply keeps_app]|].
      cbn [follow]. unfold load. cbn [fst snd]. rewrite nth_error_app2, Nat.sub_diag by lia. cbn [nth_error at_path]. eapply follow_keeps; [apply keeps_app|exact Fo].
    - cbn [deep] in D. replace (d && h_isnil (HIface (Some (ct, x)))) with false in D by (destruct d; reflexivity).
      assert (Em : (if d then call_methods env cm a g t (HIface (Some (ct, x))) else None) = None) by (destruct d; [apply methodless_none, M; reflexivity|reflexivity]). rewrite Em, R in D.
      destruct (deep fuel env cm true false g ct x) as [h1 x'| |] eqn:E; try discriminate. injection D as <- <-.
      destruct (IH _ _ _ _ K E) as (k & g1 & g2 & y' & A & B & C & Fo). exists k, g1, g2, y'. auto.
    - cbn [deep] in D. replace (d && h_isnil (HArr l)) with false in D by (destruct d; reflexivity).
      assert (Em : (if d then call_methods env cm a g t (HArr l) else None) = None) by (destruct d; [apply methodless_none, M; reflexivity|reflexivity]). rewrite Em, R in D.
      assert (Ff : flat_kind env e = false) by (unfold flat_kind; destruct (resolve env e); [contradiction|reflexivity..]). rewrite Ff in D.
      destruct (copy_each _ g l) as [h1 l'| |] eqn:E; try discriminate. injection D as <- <-.
      destruct (each_keeps (fun h x => deep fuel env cm true a h e x) (fun _ _ _ _ => deep_keeps _ _ _ _ _ _ _ _) _ _ _ _ E) as [K1 G].
      destruct (G i x N) as (g1 & g2 & x' & A & B & C & X). destruct (IH fuel g1 g2 x') as (k & f1 & f2 & y' & A' & B' & C' & Fo); [eapply keeps_all; eassumption|exact B|].
      exists k, f1, f2, y'. split; [exact A'|]. split; [exact B'|]. split; [eapply keeps_all; eassumption|]. cbn [follow]. rewrite X. eapply follow_keeps; eassumption.
    - cbn [deep] in D. replace (d && h_isnil (HStruct l)) with false in D by (destruct d; reflexivity).
      assert (Em : (if d then call_methods env cm a g t (HStruct l) else None) = None) by (destruct d; [apply methodless_none, M; reflexivity|reflexivity]). rewrite Em, R in D.
      destruct (copy_fields _ _ g fs l) as [h1 l'| |] eqn:E; try discriminate. injection D as <- <-.
      destruct (fields_keep (fun h ft x => deep fuel env cm true a h ft x) (fun _ _ _ _ _ => deep_keeps _ _ _ _ _ _ _ _) _ _ _ _ _ E) as [K1 G].
      destruct (G i f x Nf Ex N) as (g1 & g2 & x' & A & B & C & X). destruct (IH fuel g1 g2 x') as (k & f1 & f2 & y' & A' & B' & C' & Fo); [eapply keeps_all; eassumption|exact B|].
      exists k, f1, f2, y'. split; [exact A'|]. split; [exact B'|]. split; [eapply keeps_all; eassumption|]. cbn [follow]. rewrite X. eapply follow_keeps; eassumption.
  Qed.
End Calls.

Section Use.
  Variable env : tenv.
  Variable cm : cmethods.
  Hypothesis Ht : tame cm.

  Lemma deep_copied k a h t x : h_isnil x = false -> deep (S k) env cm true a h t x = match call_methods env cm a h t x with Some r => r | None => deep (S k) env cm false a h t x end.
  Proof. intros N. cbn [deep]. rewrite N. cbn [andb]. destruct (call_methods env cm a h t x); reflexivity. Qed.

  Lemma ptr_neq t : TPtr t <> t.
  Proof. induction t; try discriminate. intros H. injection H as H. exact (IHt H). Qed.

  (** DeepCopy methods that return the type. *)
  Lemma use_copy fuel h t v h' v' p a t' x f : met env cm h true false t v p a t' x -> h_isnil x = false -> cm_copy cm t' = Some (t', f) ->
    deep_copy fuel env cm h t v = COk h' v' ->
    exists h1 h2 r, keeps (length h) h h1 /\ f h1 x = COk h2 r /\ keeps (length h2) h2 h' /\ follow h' v' p = Some r.
  Proof.
    intros M N C D. destruct (deep_met env cm Ht _ _ _ _ _ _ _ _ _ M _ _ _ _ (keeps_refl _ _) D) as (k & h1 & h2 & r & K1 & E & K2 & F).
    exists h1, h2, r. rewrite deep_copied in E by exact N. unfold call_methods, call_copy in E. rewrite C in E.
    replace (match t' with TPtr e => gotype_eqb e t' | _ => false end) with false in E.
    2: { destruct t'; try reflexivity. symmetry. apply gotype_eqb_neq. intros H. symmetry in H. exact (ptr_neq _ H). }
    rewrite gotype_eqb_refl in E. auto.
  Qed.
  (** DeepCopy methods of a pointer that return what it points to. *)
  Lemma use_copy_elem fuel h t v h' v' p a e x f : met env cm h true false t v p a (TPtr e) x -> h_isnil x = false -> cm_copy cm (TPtr e) = Some (e, f) ->
    deep_copy fuel env cm h t v = COk h' v' ->
    exists h1 h2 r l, keeps (length h) h h1 /\ f h1 x = COk h2 r /\ keeps (length h2) h2 h' /\
      follow h' v' p = Some (HPtr (Some (l, []))) /\ (length h2 <= l)%nat /\ load h' (l, []) = Some r.
  Proof.
    intros M N C D. destruct (deep_met env cm Ht _ _ _ _ _ _ _ _ _ M _ _ _ _ (keeps_refl _ _) D) as (k & h1 & h2 & r & K1 & E & K2 & F).
    rewrite deep_copied in E by exact N. unfold call_methods, call_copy in E. rewrite C, gotype_eqb_refl in E.
    destruct (f h1 x) as [g y| |] eqn:Ef; try discriminate. injection E as <- <-. exists h1, g, y, (length g). split; [exact K1|]. split; [exact Ef|].
    split; [eapply keeps_all; [apply keeps_app|exact K2]|]. split; [exact F|]. split; [lia|]. eapply load_keeps; [exact K2|].
    unfold load. cbn [fst snd]. rewrite nth_error_app2, Nat.sub_diag by lia. reflexivity.
  Qed.
  (** A DeepCopy method of another type is not called. *)
  Lemma other_copy h e x : (forall ot f, cm_copy cm (TPtr e) = Some (ot, f) -> ot <> e /\ ot <> TPtr e) -> call_copy cm h (TPtr e) x = None.
  Proof.
    intros H. unfold call_copy. destruct (cm_copy cm (TPtr e)) as [[ot f]|]; [|reflexivity]. destruct (H ot f eq_refl) as [N1 N2].
    rewrite !gotype_eqb_neq by congruence. reflexivity.
  Qed.
  (** The pair of a pointer. *)
  Lemma use_pair fuel h t v h' v' p a e x mar unm : met env cm h true false t v p a (TPtr e) x -> h_isnil x = false ->
    (forall ot f, cm_copy cm (TPtr e) = Some (ot, f) -> ot <> e /\ ot <> TPtr e) ->
    cm_amino cm e = Some (mar, unm) -> deep_copy fuel env cm h t v = COk h' v' ->
    exists h1 h2 h3 r, keeps (length h) h h1 /\
      mar (h1 ++ [CVal (hzero env e)]) x = COk h2 (r, None) /\ unm h2 (HPtr (Some (length h1, []))) r = COk h3 None /\ keeps (length h3) h3 h' /\
      follow h' v' p = Some (HPtr (Some (length h1, []))).
  Proof.
    intros M N C A D. destruct (deep_met env cm Ht _ _ _ _ _ _ _ _ _ M _ _ _ _ (keeps_refl _ _) D) as (k & h1 & h2 & r & K1 & E & K2 & F).
    rewrite deep_copied in E by exact N. unfold call_methods in E. rewrite other_copy in E by exact C. unfold call_amino in E. rewrite A in E.
    destruct (mar _ x) as [g [y [q|]]| |] eqn:Em; try discriminate. destruct (unm g _ y) as [g2 [q|]| |] eqn:Eu; try discriminate. injection E as <- <-.
    exists h1, g, g2, y. auto.
  Qed.
End Use.
