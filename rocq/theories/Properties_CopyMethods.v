(** DeepCopy and the methods for copying: C67. *)
From Coq Require Import ZArith String List Bool Lia.
From Coq Require Import ZifyBool ZifyNat.
From Verif Require Import Base Types DeepCopy SpecCopy CopyFacts CopyMethods.
Import ListNotations.
Local Open Scope Z_scope.

(** ** C67 *)

(** The test types of deep_copy_test.go: [DCFoo1] to [DCFoo9], structs with one unexported
    string, and as number 10 [struct { P *DCFoo1; Q interface\{\}; R [2]*DCFoo6 }]. *)
Definition dcf (n : nat) : gotype := TNamed n.
Definition dc_field (n : bytes) (ex : bool) (t : gotype) : sfield :=
  {| sf_name := n; sf_exported := ex; sf_type := t; sf_json := []; sf_binary := []; sf_amino := [] |}.
Definition dc_env : tenv :=
  {| te_def := fun n =>
       if Nat.eqb n 10 then UStruct [dc_field [80] true (TPtr (dcf 1)); dc_field [81] true (TIface 0%nat); dc_field [82] true (TArray 2%nat (TPtr (dcf 6)))]
       else if Nat.eqb n 11 then UStruct [dc_field [70] true (dcf 1)]
       else UStruct [dc_field [97] false (TPrim PString)];
     te_zero := fun _ => VOther; te_impl := fun _ _ => true; te_marshal := fun _ => None; te_unmarshal := fun _ => None; te_hash := fun b => b |}.
Definition good : bytes := [103; 111; 111; 100].
Definition uh_oh : panicmsg := "uh oh"%string.
Definition set_cell (a : nat) (c : cell) (h : heap) : heap :=
  if (a <? length h)%nat then firstn a h ++ c :: skipn (S a) h else h.
(** [MarshalAmino] of [*DCFoo1] and the others. *)
Definition dc_marshal (h : heap) (v : hvalue) : cres (hvalue * option panicmsg) :=
  match v with
  | HPtr (Some l) => match load h l with Some (HStruct [HStr s]) => COk h (HStr s, None) | _ => CPanic "bad receiver"%string end
  | _ => CPanic "nil receiver"%string
  end.
Definition dc_unmarshal (h : heap) (dst r : hvalue) : cres (option panicmsg) :=
  match dst with
  | HPtr (Some (a, [])) => COk (set_cell a (CVal (HStruct [r])) h) None
  | _ => CPanic "nil receiver"%string
  end.
(** DCFoo3 has no pair, because the types do not fit. *)
Definition dc_cm : cmethods :=
  {| cm_copy := fun t =>
       match t with
       | TPtr (TNamed 4%nat) | TPtr (TNamed 7%nat) => Some (t, fun h _ => COk (h ++ [CVal (HStruct [HStr good])]) (HPtr (Some (length h, []))))
       | TPtr (TNamed 5%nat) => Some (dcf 5%nat, fun h _ => COk h (HStruct [HStr good]))
       | TNamed 5%nat => Some (dcf 5%nat, fun h _ => COk h (HStruct [HStr good]))
       | TPtr (TNamed 6%nat) => Some (dcf 6%nat, fun h _ => COk h (HStruct [HStr good]))
       | TNamed 7%nat => Some (TPtr (dcf 7%nat), fun h _ => COk (h ++ [CVal (HStruct [HStr good])]) (HPtr (Some (length h, []))))
       | _ => None
       end;
     cm_amino := fun t =>
       match t with
       | TNamed 1%nat | TNamed 2%nat | TNamed 4%nat | TNamed 5%nat => Some (dc_marshal, dc_unmarshal)
       | TNamed 8%nat => Some (fun h _ => COk h (HStr [], Some uh_oh), dc_unmarshal)
       | TNamed 9%nat => Some (dc_marshal, fun h _ _ => COk h (Some uh_oh))
       | _ => None
       end |}.

Lemma set_cell_keeps a c h : keeps a h (set_cell a c h).
Proof.
  unfold set_cell. destruct (a <? length h)%nat eqn:E; [|apply keeps_refl]. split.
  - rewrite app_length, firstn_length. cbn [length]. rewrite skipn_length. lia.
  - intros i Hi. rewrite nth_error_app1 by (rewrite firstn_length; lia). rewrite <- (firstn_skipn a h) at 2. rewrite nth_error_app1 by (rewrite firstn_length; lia). reflexivity.
Qed.
Lemma dc_tame : tame dc_cm.
Proof.
  split.
  - intros t ot f h v h' x E F. cbn [dc_cm cm_copy] in E.
    repeat match type of E with context [match ?q with _ => _ end] => destruct q; try discriminate end; injection E as <- <-; injection F as <- _; first [apply keeps_refl | apply keeps_app].
  - intros t mar unm h v h' r E F. cbn [dc_cm cm_amino] in E.
    assert (D : mar = dc_marshal \/ mar = (fun h _ => COk h (HStr [], Some uh_oh))).
    { repeat match type of E with context [match ?q with _ => _ end] => destruct q; try discriminate end; injection E as <- <-; auto. }
    destruct D as [->| ->]; [|injection F as <- _; apply keeps_refl].
    unfold dc_marshal in F. repeat match type of F with context [match ?q with _ => _ end] => destruct q; try discriminate end. injection F as <- _. apply keeps_refl.
  - intros t mar unm h a r h' e E F. cbn [dc_cm cm_amino] in E.
    assert (D : unm = dc_unmarshal \/ unm = (fun h _ _ => COk h (Some uh_oh))).
    { repeat match type of E with context [match ?q with _ => _ end] => destruct q; try discriminate end; injection E as <- <-; auto. }
    destruct D as [->| ->]; [|injection F as <- _; apply keeps_refl]. injection F as <- _. apply set_cell_keeps.
Qed.

(** What DeepCopy meets on its way has a DeepCopy method whose result is of its type: the
    method is called for it, with nothing in the original changed, and its result is found at
    the same place of the copy. *)
Theorem C67_copy_partial : forall env cm fuel h t v h' v' p addr t' x f,
  tame cm -> met env cm h true false t v p addr t' x -> h_isnil x = false -> cm_copy cm t' = Some (t', f) ->
  deep_copy fuel env cm h t v = COk h' v' ->
  exists h1 h2 r, keeps (length h) h h1 /\ f h1 x = COk h2 r /\ keeps (length h2) h2 h' /\ follow h' v' p = Some r.
Proof. intros; eapply use_copy; eassumption. Qed.
(** A pointer whose DeepCopy method gives the type pointed to: the place has a pointer to a new
    variable holding the result. *)
Theorem C67_copy_elem_partial : forall env cm fuel h t v h' v' p addr e x f,
  tame cm -> met env cm h true false t v p addr (TPtr e) x -> h_isnil x = false -> cm_copy cm (TPtr e) = Some (e, f) ->
  deep_copy fuel env cm h t v = COk h' v' ->
  exists h1 h2 r l, keeps (length h) h h1 /\ f h1 x = COk h2 r /\ keeps (length h2) h2 h' /\
    follow h' v' p = Some (HPtr (Some (l, []))) /\ (length h2 <= l)%nat /\ load h' (l, []) = Some r.
Proof. intros; eapply use_copy_elem; eassumption. Qed.
(** A pointer without a DeepCopy method of either type, but with the pair: MarshalAmino is called on it,
    UnmarshalAmino on a new zero value with what MarshalAmino gave, and the copy has a pointer
    to that value in this place; neither returned an error. *)
Theorem C67_pair_partial : forall env cm fuel h t v h' v' p addr e x mar unm,
  tame cm -> met env cm h true false t v p addr (TPtr e) x -> h_isnil x = false ->
  (forall ot f, cm_copy cm (TPtr e) = Some (ot, f) -> ot <> e /\ ot <> TPtr e) ->
  cm_amino cm e = Some (mar, unm) -> deep_copy fuel env cm h t v = COk h' v' ->
  exists h1 h2 h3 r, keeps (length h) h h1 /\
    mar (h1 ++ [CVal (hzero env e)]) x = COk h2 (r, None) /\ unm h2 (HPtr (Some (length h1, []))) r = COk h3 None /\ keeps (length h3) h3 h' /\
    follow h' v' p = Some (HPtr (Some (length h1, []))).
Proof. intros; eapply use_pair; eassumption. Qed.
(** An error of MarshalAmino, or of UnmarshalAmino, is the value DeepCopy panics with. *)
Theorem C67_error_panics : forall env cm fuel h e l mar unm h1 r h2 err,
  (forall ot f, cm_copy cm (TPtr e) = Some (ot, f) -> ot <> e /\ ot <> TPtr e) -> cm_amino cm e = Some (mar, unm) ->
  mar (h ++ [CVal (hzero env e)]) (HPtr (Some l)) = COk h1 (r, Some err) \/
  mar (h ++ [CVal (hzero env e)]) (HPtr (Some l)) = COk h1 (r, None) /\ unm h1 (HPtr (Some (length h, []))) r = COk h2 (Some err) ->
  deep_copy (S fuel) env cm h (TPtr e) (HPtr (Some l)) = CPanic err.
Proof.
  intros env cm fuel h e l mar unm h1 r h2 err C A H. unfold deep_copy. cbn [deep h_isnil andb]. unfold call_methods. rewrite other_copy by exact C. unfold call_amino. rewrite A.
  destruct H as [-> |[-> ->]]; reflexivity.
Qed.

(** Cell 0 to 2: DCFoo1 "a", DCFoo6 "b", DCFoo4 "c". *)
Definition dc_heap : heap := [CVal (HStruct [HStr [97]]); CVal (HStruct [HStr [98]]); CVal (HStruct [HStr [99]])].
Definition dc_ptr (a : nat) : hvalue := HPtr (Some (a, [])).
Definition dc_v : hvalue := HStruct [dc_ptr 0; HIface (Some (TPtr (dcf 4), dc_ptr 2)); HArr [HPtr None; dc_ptr 1]].
Example C67_example :
  met dc_env dc_cm dc_heap true false (dcf 10) dc_v [WElem 1; WIface] false (TPtr (dcf 4)) (dc_ptr 2) /\
  met dc_env dc_cm dc_heap true false (dcf 10) dc_v [WElem 2; WElem 1] false (TPtr (dcf 6)) (dc_ptr 1) /\
  met dc_env dc_cm dc_heap true false (dcf 10) dc_v [WElem 0] false (TPtr (dcf 1)) (dc_ptr 0) /\
  deep_copy 9 dc_env dc_cm dc_heap (dcf 10) dc_v =
    COk (dc_heap ++ [CVal (HStruct [HStr [97]]); CVal (HStruct [HStr good]); CVal (HStruct [HStr good])])
      (HStruct [dc_ptr 3; HIface (Some (TPtr (dcf 4), dc_ptr 4)); HArr [HPtr None; dc_ptr 5]]).
Proof.
  split; [|split; [|split]].
  - eapply met_field; try reflexivity. { intros _. split; reflexivity. } eapply met_iface; try reflexivity. { intros _. split; reflexivity. } apply met_here.
  - eapply met_field; try reflexivity. { intros _. split; reflexivity. } eapply met_elem; try reflexivity. { intros _. split; reflexivity. } apply met_here.
  - eapply met_field; try reflexivity. { intros _. split; reflexivity. } apply met_here.
  - vm_compute. reflexivity.
Qed.
(** The tests of deep_copy_test.go: DCFoo1 to DCFoo9. *)
Example C67_tests :
  let run n := match deep_copy 9 dc_env dc_cm [CVal (HStruct [HStr [102; 111; 111]])] (TPtr (dcf n)) (dc_ptr 0) with
               | COk h (HPtr (Some l)) => Some (inl (load h l)) | CPanic p => Some (inr p) | _ => None end in
  map run [1; 2; 3; 4; 5; 6; 7; 8; 9]%nat =
    [Some (inl (Some (HStruct [HStr [102; 111; 111]]))); Some (inl (Some (HStruct [HStr [102; 111; 111]]))); Some (inl (Some (HStruct [HStr []])));
     Some (inl (Some (HStruct [HStr good]))); Some (inl (Some (HStruct [HStr good]))); Some (inl (Some (HStruct [HStr good]))); Some (inl (Some (HStruct [HStr good])));
     Some (inr uh_oh); Some (inr uh_oh)].
Proof. vm_compute. reflexivity. Qed.

(** The documentation says that methods are used on anything along the way.  A value of a type
    with the pair makes DeepCopy panic if it is in a variable ([&struct { F DCFoo1 }]), and
    loses its contents otherwise; what a pointer points to is never asked for methods
    ([**DCFoo4]); the results for elements of slices are thrown away; the values of maps are
    not asked. *)
Theorem C67_anything_refuted :
  deep_copy 9 dc_env dc_cm [CVal (HStruct [HStruct [HStr [97]]])] (TPtr (dcf 11)) (dc_ptr 0) =
    CPanic "reflect: reflect.flag.mustBeAssignable using unaddressable value"%string /\
  (forall h, deep_copy 9 dc_env dc_cm h (dcf 11) (HStruct [HStruct [HStr [97]]]) = COk h (HStruct [HStruct [HStr []]])) /\
  (let h := [CVal (HStruct [HStr [97]]); CVal (dc_ptr 0)] in
   deep_copy 9 dc_env dc_cm h (TPtr (TPtr (dcf 4))) (dc_ptr 1) = COk (h ++ [CVal (HStruct [HStr []]); CVal (dc_ptr 2)]) (dc_ptr 3)) /\
  (let h := [CVal (HStruct [HStr [97]]); CVal (HArr [dc_ptr 0])] in
   exists e, deep_copy 9 dc_env dc_cm h (TSlice (TPtr (dcf 4))) (HSlice (Some ((1%nat, []), 0%nat, 1%nat))) = COk (h ++ e) (HSlice (Some ((1%nat, []), 0%nat, 1%nat)))) /\
  (let h := [CVal (HStruct [HStr [97]]); CMap [(HStr [107], dc_ptr 0)]] in
   deep_copy 9 dc_env dc_cm h (TMap (TPrim PString) (TPtr (dcf 4))) (HMap (Some 1%nat)) = COk (h ++ [CMap [(HStr [107], dc_ptr 0)]]) (HMap (Some 2%nat))).
Proof.
  split; [vm_compute; reflexivity|]. split; [intros h; vm_compute; reflexivity|]. split; [vm_compute; reflexivity|].
  split; [eexists; vm_compute; reflexivity|]. vm_compute. reflexivity.
Qed.

Print Assumptions C67_copy_partial.
Print Assumptions C67_copy_elem_partial.
Print Assumptions C67_pair_partial.
Print Assumptions C67_error_panics.
Print Assumptions C67_anything_refuted.
