(** DeepCopy: C53, C54. *)
From Coq Require Import ZArith String List Bool Lia.
From Coq Require Import ZifyBool ZifyNat.
From Verif Require Import Base Types DeepCopy SpecCopy CopyFacts.
Import ListNotations.
Local Open Scope Z_scope.

(** ** C53 *)

(** An object that is finite, has no types with methods for copying, no non-nil
    functions or channels and no pointer to a nil pointer, nil interface or nil map is copied, and the copy cannot be
    told from the original, however deep one looks; the original heap is kept and
    only extended.  Missing: the objects just excluded. *)
Theorem C53_equal_partial : forall env cm n fuel h t v,
  object env h t v -> copyable n env cm false h t v -> (n <= fuel)%nat ->
  exists ext v', deep_copy fuel env cm h t v = COk (h ++ ext) v' /\ forall m, alike m env h t v (h ++ ext) v'.
Proof.
  intros env cm n fuel h t v Ho Hc Hf. destruct (deep_alike env cm h n fuel true false t v [] Hc Ho Hf) as (ext & v' & E & A).
  rewrite app_nil_r in E. exists ext, v'. split; [exact E|exact A].
Qed.

(** [type Node struct { Name string; Next *Node; secret int; Tags []string; M map[string]*Node; Any interface{}; F func(); At [2]time.Time }] *)
Definition node_field (n : bytes) (ex : bool) (t : gotype) : sfield :=
  {| sf_name := n; sf_exported := ex; sf_type := t; sf_json := []; sf_binary := []; sf_amino := [] |}.
Definition node_fields : list sfield :=
  [node_field [78] true (TPrim PString); node_field [88] true (TPtr (TNamed 0%nat)); node_field [115] false (TPrim PInt);
   node_field [84] true (TSlice (TPrim PString)); node_field [77] true (TMap (TPrim PString) (TPtr (TNamed 0%nat)));
   node_field [65] true (TIface 0%nat); node_field [70] true TFunc; node_field [66] true (TArray 2%nat TTime)].
Definition copy_env : tenv :=
  {| te_def := fun _ => UStruct node_fields; te_zero := fun _ => VOther; te_impl := fun _ _ => true;
     te_marshal := fun _ => None; te_unmarshal := fun _ => None; te_hash := fun b => b |}.
(** Methods on a type that the nodes do not contain. *)
Definition copy_cm : cmethods :=
  {| cm_copy := fun t => if gotype_eqb t (TNamed 9%nat) then Some (t, fun h v => COk h v) else None; cm_amino := fun _ => None |}.
Definition node (name : bytes) (next : option loc) (secret : Z) (tags : option (loc * nat * nat)) (m : option nat)
    (any : option (gotype * hvalue)) : hvalue :=
  HStruct [HStr name; HPtr next; HInt secret; HSlice tags; HMap m; HIface any; HFunc true; HArr [HTime 1 2; HTime 3 4]].
Definition node_t : gotype := TPtr (TNamed 0%nat).
(** Cell 0 holds the second node, 1 the first, 2 the array under the tags, 3 the map. *)
Definition node_heap : heap :=
  [CVal (node [98] None 5 None None (Some (TPrim PInt, HInt 7)));
   CVal (node [97] (Some (0%nat, [])) 6 (Some ((2%nat, []), 1%nat, 2%nat)) (Some 3%nat) None);
   CVal (HArr [HStr [120]; HStr [121]; HStr [122]]); CMap [(HStr [107], HPtr (Some (0%nat, [])))]].
Definition node_v : hvalue := HPtr (Some (1%nat, [])).

Ltac alike_tac :=
  lazymatch goal with
  | |- alike ?n _ _ _ _ _ _ => destruct n as [|?n]; [exact I|]; cbn [alike]; cbn [fst snd resolve copy_env te_def node_t node node_fields node_field sf_type];
      alike_tac
  | |- exists s ns, HTime _ _ = HTime s ns => eexists; eexists; reflexivity
  | |- exists _ _, _ => eexists; eexists; split; [reflexivity|]; split; [reflexivity|]; alike_tac
  | |- Forall3 _ _ _ _ => first [apply Forall3_nil | apply Forall3_cons; [cbv beta; alike_tac|alike_tac]]
  | |- Forall2 _ _ _ => first [apply Forall2_nil | apply Forall2_cons; [cbv beta; alike_tac|alike_tac]]
  | |- sf_exported _ = true -> _ => let E := fresh in intros E; first [discriminate E|clear E; cbn [sf_type node_field]; alike_tac]
  | |- _ /\ _ => split; alike_tac
  | |- exists b, HFunc _ = HFunc b => eexists; reflexivity
  | |- True => exact I
  | _ => reflexivity
  end.

Ltac copyable_tac :=
  repeat (cbn; first [ exact I | left; reflexivity | eexists; reflexivity | eexists; split; [reflexivity|]
    | apply Forall_nil | apply Forall_cons | apply Forall2_nil | apply Forall2_cons
    | (split; [intros _; split; reflexivity|])
    | let E := fresh in intros E; first [discriminate E|clear E] ]).

Lemma node_object : object copy_env node_heap node_t node_v.
Proof. intros n. unfold node_v. alike_tac. Qed.
Example C53_example :
  object copy_env node_heap node_t node_v /\ copyable 6 copy_env copy_cm false node_heap node_t node_v /\
  exists a b c, deep_copy 6 copy_env copy_cm node_heap node_t node_v =
    COk (node_heap ++ [a; b; c]) (HPtr (Some (6%nat, []))).
Proof.
  split; [exact node_object|]. split.
  - copyable_tac.
  - do 3 eexists. vm_compute. reflexivity.
Qed.

(** A pointer to a nil pointer or to a nil interface makes DeepCopy panic, and so
    does a non-nil function; a pointer to a nil map becomes a pointer to an empty
    map that is not nil; an object that contains itself is never copied. *)
Theorem C53_excluded_refuted :
  (forall fuel env cm h t, methodless cm (TPtr (TPtr t)) -> deep_copy (S (S fuel)) env cm (h ++ [CVal (HPtr None)]) (TPtr (TPtr t)) (HPtr (Some (length h, []))) =
     CPanic "unsupported type invalid"%string) /\
  (forall fuel env cm h i, methodless cm (TPtr (TIface i)) -> deep_copy (S (S fuel)) env cm (h ++ [CVal (HIface None)]) (TPtr (TIface i)) (HPtr (Some (length h, []))) =
     CPanic "reflect: call of reflect.Value.Type on zero Value"%string) /\
  (forall fuel env cm h, methodless cm TFunc -> deep_copy (S fuel) env cm h TFunc (HFunc false) = CPanic "unsupported type"%string) /\
  (exists env h t v h' v', object env h t v /\ deep_copy 9 env copy_cm h t v = COk h' v' /\ ~ alike 2 env h t v h' v') /\
  (exists env h t v, object env h t v /\ forall fuel, deep_copy fuel env copy_cm h t v = CFuel).
Proof.
  assert (L : forall h c, load (h ++ [CVal c]) (length h, []) = Some c).
  { intros h c. unfold load. cbn [fst snd]. rewrite nth_error_app2, Nat.sub_diag by lia. reflexivity. }
  split. { intros fuel env cm h t M. unfold deep_copy. cbn [deep h_isnil andb]. rewrite (methodless_none _ _ _ _ _ _ M). cbn [resolve]. rewrite L. reflexivity. }
  split. { intros fuel env cm h i M. unfold deep_copy. cbn [deep h_isnil andb]. rewrite (methodless_none _ _ _ _ _ _ M). cbn [resolve]. rewrite L. reflexivity. }
  split. { intros fuel env cm h M. unfold deep_copy. cbn [deep h_isnil andb]. rewrite (methodless_none _ _ _ _ _ _ M). reflexivity. }
  split.
  - exists copy_env, [CVal (HMap None)], (TPtr (TMap (TPrim PString) (TPrim PInt))), (HPtr (Some (0%nat, []))).
    exists [CVal (HMap None); CMap []; CVal (HMap (Some 1%nat))], (HPtr (Some (2%nat, []))).
    split; [intros n; alike_tac|]. split; [reflexivity|]. cbn. intros (x1 & x2 & H1 & H2 & H). inversion H1; inversion H2; subst. exact H.
  - set (h := [CVal (node [] (Some (0%nat, [])) 0 None None None)]). exists copy_env, h, node_t, (HPtr (Some (0%nat, []))). split.
    + assert (G : forall n, alike n copy_env h node_t (HPtr (Some (0%nat, []))) h (HPtr (Some (0%nat, [])))).
      { induction n as [n IH] using (well_founded_induction lt_wf). destruct n as [|[|n]]; [exact I| |].
        - cbn [alike resolve node_t]. eexists; eexists. split; [reflexivity|]. split; [reflexivity|exact I].
        - cbn [alike resolve node_t]. eexists; eexists. split; [reflexivity|]. split; [reflexivity|]. cbn [alike resolve copy_env te_def node].
          unfold node_fields. apply Forall3_cons; [alike_tac|]. apply Forall3_cons; [intros _; apply IH; lia|]. alike_tac. }
      exact G.
    + assert (G : forall fuel check addr, deep fuel copy_env copy_cm check addr h node_t (HPtr (Some (0%nat, []))) = CFuel).
      { induction fuel as [fuel IH] using (well_founded_induction lt_wf). intros check addr. destruct fuel as [|[|fuel]]; [reflexivity| |].
        - destruct check; reflexivity.
        - assert (E : deep (S (S fuel)) copy_env copy_cm check addr h node_t (HPtr (Some (0%nat, []))) =
            match deep (S fuel) copy_env copy_cm false true h (TNamed 0%nat) (node [] (Some (0%nat, [])) 0 None None None) with
            | COk h1 x' => COk (h1 ++ [CVal x']) (HPtr (Some (length h1, []))) | CPanic p => CPanic p | CFuel => CFuel end)
            by (destruct check; reflexivity).
          rewrite E. cbn [deep h_isnil andb resolve copy_env te_def node]. unfold node_fields. cbn [copy_fields sf_exported node_field sf_type].
          destruct fuel as [|fuel]; [reflexivity|].
          change (deep (S fuel) copy_env copy_cm true true h (TPrim PString) (HStr [])) with (@COk hvalue h (HStr [])). cbv iota beta.
          change (TPtr (TNamed 0%nat)) with node_t. rewrite (IH (S fuel)) by lia. reflexivity. }
      intros fuel. apply G.
Qed.

(** ** C54 *)

(** If no slice and no map holding references is reached through exported fields,
    the copy consists of new cells only, and no cell of the copy can be reached
    from the original.  Missing: slices and maps of references. *)
Theorem C54_separate_partial : forall env cm fuel h t v h' v',
  object env h t v -> closed h v -> (forall n, sliceless n env cm h t v) -> deep_copy fuel env cm h t v = COk h' v' ->
  forall a, reach h' v a -> reach h' v' a -> False.
Proof.
  intros env cm fuel h t v h' v' Ho Hcl Hs H a R R'.
  destruct (deep_fresh env cm h fuel true false t v Ho Hs [] h' v') as (ext & -> & C & Rv); [constructor|rewrite app_nil_r; exact H|].
  cbn [app] in *. pose proof (reach_old _ _ _ _ Hcl R). pose proof (reach_fresh _ _ _ _ C Rv R'). lia.
Qed.

(** So whatever is written later, as long as it is written only to cells reached
    from one of them (or to new cells), the other still looks the same. *)
Theorem C54_writes_partial : forall env cm n fuel h t v,
  object env h t v -> copyable n env cm false h t v -> (n <= fuel)%nat -> closed h v -> (forall k, sliceless k env cm h t v) ->
  exists h' v', deep_copy fuel env cm h t v = COk h' v' /\
    (forall h'', (forall a, (a < length h')%nat -> ~ reach h' v' a -> nth_error h'' a = nth_error h' a) -> forall k, alike k env h' t v h'' v) /\
    (forall h'', (forall a, (a < length h')%nat -> ~ reach h' v a -> nth_error h'' a = nth_error h' a) -> forall k, alike k env h' t v' h'' v').
Proof.
  intros env cm n fuel h t v Ho Hc Hf Hcl Hs. destruct (C53_equal_partial env cm n fuel h t v Ho Hc Hf) as (ext & v' & E & A).
  exists (h ++ ext), v'. split; [exact E|].
  assert (Sep : forall a, reach (h ++ ext) v a -> reach (h ++ ext) v' a -> False).
  { apply (C54_separate_partial env cm fuel h t v _ v' Ho Hcl Hs E). }
  assert (Ov : forall k, alike k env (h ++ ext) t v (h ++ ext) v). { intros k. eapply alike_self_r. apply object_shared, Ho. }
  assert (Ov' : forall k, alike k env (h ++ ext) t v' (h ++ ext) v'). { intros k. eapply alike_self_r. apply A. }
  split; intros h'' W k.
  - apply alike_agree; [|apply Ov]. intros a c R Ha. rewrite W; [exact Ha|apply nth_error_Some; rewrite Ha; discriminate|intros R'; exact (Sep a R R')].
  - apply alike_agree; [|apply Ov']. intros a c R Ha. rewrite W; [exact Ha|apply nth_error_Some; rewrite Ha; discriminate|intros R'; exact (Sep a R' R)].
Qed.

(** The same nodes without tags; the map of the first has an entry without references. *)
Definition plain_heap : heap :=
  [CVal (node [98] None 5 None None (Some (TPrim PInt, HInt 7)));
   CVal (node [97] (Some (0%nat, [])) 6 None (Some 2%nat) None); CMap [(HStr [107], HPtr None)]].
Ltac sliceless_tac :=
  lazymatch goal with
  | |- sliceless ?n _ _ _ _ _ => destruct n as [|?n]; [exact I|]; cbn [sliceless]; split; [split; reflexivity|]; cbn [fst snd resolve copy_env te_def node_t node sf_type node_field]; sliceless_tac
  | |- forall es, load_map _ _ = Some es -> _ => let H := fresh in intros ? H; inversion H; subst; reflexivity
  | |- forall x, load _ _ = Some x -> _ => let H := fresh in intros ? H; inversion H; subst; sliceless_tac
  | |- Forall2 _ _ _ => unfold node_fields; first [apply Forall2_nil | apply Forall2_cons; [cbv beta; sliceless_tac|sliceless_tac]]
  | |- Forall _ _ => first [apply Forall_nil | apply Forall_cons; [cbv beta; sliceless_tac|sliceless_tac]]
  | |- sf_exported _ = true -> _ => let E := fresh in intros E; first [discriminate E|clear E; cbn [sf_type node_field]; sliceless_tac]
  | |- True => exact I
  end.
Lemma plain_sliceless : forall k, sliceless k copy_env copy_cm plain_heap node_t node_v.
Proof.
  intros k. unfold node_v. sliceless_tac.
Qed.
Example C54_example :
  object copy_env plain_heap node_t node_v /\ copyable 6 copy_env copy_cm false plain_heap node_t node_v /\ closed plain_heap node_v /\
  (forall k, sliceless k copy_env copy_cm plain_heap node_t node_v) /\
  exists a b c, deep_copy 6 copy_env copy_cm plain_heap node_t node_v = COk (plain_heap ++ [a; b; c]) (HPtr (Some (5%nat, []))).
Proof.
  split; [intros n; unfold node_v; alike_tac|]. split.
  { copyable_tac. }
  split. { split; [intros a [<-|[]]; cbn; lia|]. intros [|[|[|[|i]]]] c a Hc Ha; inversion Hc; subst c; cbn in Ha; cbn; lia. }
  split; [exact plain_sliceless|]. do 3 eexists. vm_compute. reflexivity.
Qed.

(** The copy of a slice is the slice itself, whatever its elements: the elements
    are shared. *)
Theorem C54_slices_refuted : forall env cm fuel h t e l h' v',
  resolve env t = RSlice e -> methodless cm t -> deep_copy fuel env cm h t (HSlice l) = COk h' v' -> v' = HSlice l.
Proof.
  intros env cm fuel h t e l h' v' Hr M H. destruct fuel as [|fuel]; [discriminate|]. unfold deep_copy in H. cbn [deep] in H. rewrite (methodless_none _ _ _ _ _ _ M), Hr in H.
  destruct l as [[[l o] k]|]; cbn [h_isnil andb] in H; [|inversion H; reflexivity].
  destruct (flat_kind env e); [inversion H; reflexivity|]. destruct (load_slice h l o k); [|discriminate].
  destruct (copy_each _ h l0); inversion H; reflexivity.
Qed.
(** The copy of a map has the same keys and values, so what they point to is shared. *)
Theorem C54_maps_refuted : forall env cm fuel h t k e a h' v',
  resolve env t = RMap k e -> methodless cm t -> deep_copy fuel env cm h t (HMap (Some a)) = COk h' v' ->
  exists b, v' = HMap (Some b) /\ load_map h' b = load_map h a.
Proof.
  intros env cm fuel h t k e a h' v' Hr M H. destruct fuel as [|fuel]; [discriminate|]. unfold deep_copy in H. cbn [deep] in H. rewrite (methodless_none _ _ _ _ _ _ M), Hr in H. cbn [h_isnil andb] in H.
  destruct (load_map h a) as [es|]; [|discriminate]. inversion H; subst. exists (length h). split; [reflexivity|].
  unfold load_map. rewrite nth_error_app2, Nat.sub_diag by lia. reflexivity.
Qed.
(** A write through the copy of a struct with a slice, and one through the copy of
    a map of pointers, that change the original. *)
Definition changes_original (env : tenv) (h : heap) (t : gotype) (v : hvalue) : Prop :=
  object env h t v /\ closed h v /\
  exists h' v' a c, deep_copy 9 env copy_cm h t v = COk h' v' /\ reach h' v' a /\ ~ alike 4 env h t v (upd a c h') v.
Theorem C54_shared_write_refuted :
  changes_original copy_env [CVal (HArr [HInt 1; HInt 2])] (TSlice (TPrim PInt)) (HSlice (Some ((0%nat, []), 0%nat, 2%nat))) /\
  changes_original copy_env [CVal (HInt 1); CMap [(HStr [107], HPtr (Some (0%nat, [])))]] (TMap (TPrim PString) (TPtr (TPrim PInt))) (HMap (Some 1%nat)).
Proof.
  split.
  - split; [intros n; alike_tac|]. split. { split; [intros a [<-|[]]; cbn; lia|]. intros [|[|i]] c a Hc Ha; inversion Hc; subst c; cbn in Ha; cbn; lia. }
    exists [CVal (HArr [HInt 1; HInt 2])], (HSlice (Some ((0%nat, []), 0%nat, 2%nat))), 0%nat, (CVal (HArr [HInt 9; HInt 2])).
    split; [reflexivity|]. split; [apply reach_ref; left; reflexivity|].
    cbn. intros (es1 & es2 & H1 & H2 & H). inversion H1; inversion H2; subst. inversion H as [|? ? ? ? [X _] _]; subst. discriminate X.
  - split; [intros n; alike_tac|]. split. { split; [intros a [<-|[]]; cbn; lia|]. intros [|[|[|i]]] c a Hc Ha; inversion Hc; subst c; cbn in Ha; cbn; lia. }
    exists [CVal (HInt 1); CMap [(HStr [107], HPtr (Some (0%nat, [])))]; CMap [(HStr [107], HPtr (Some (0%nat, [])))]], (HMap (Some 2%nat)), 0%nat, (CVal (HInt 9)).
    split; [reflexivity|]. split; [eapply reach_step; [apply reach_ref; left; reflexivity|reflexivity|left; reflexivity]|].
    cbn. intros (es1 & es2 & H1 & H2 & H). inversion H1; inversion H2; subst. inversion H as [|? ? ? ? [_ X] _]; subst. cbn in X.
    destruct X as (x1 & x2 & L1 & L2 & X & _). inversion L1; inversion L2; subst. discriminate.
Qed.

Print Assumptions C53_equal_partial.
Print Assumptions C53_excluded_refuted.
Print Assumptions C54_separate_partial.
Print Assumptions C54_writes_partial.
Print Assumptions C54_slices_refuted.
Print Assumptions C54_maps_refuted.
Print Assumptions C54_shared_write_refuted.
