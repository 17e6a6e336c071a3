(** Property theorems about programs whose struct types grow. *)
From Coq Require Import ZArith String List Bool Lia.
From Coq Require Import ZifyBool ZifyNat.
From Verif Require Import Base Prims SpecWire PrimFacts PrimProps Types Codec BinEnc BinDec Amino FuelFacts ValueInd Registry SpecRegistry RegistryFacts RegistryProps
  Sane Typing DecSafe Demo DemoFacts SpecNorm EncFacts RoundTrip TopFacts SpecSupported SupportedFacts TopProps SpecProto SpecStruct SpecVersion VersionFacts
  SpecKin Careful KinFacts.
Import ListNotations.
Local Open Scope Z_scope.

(** The relation [reread] is what it should be for one and the same program: equality. *)
Lemma reread_same A : (forall t v w, reread A A t v w -> v = w) /\ (forall e l m, rereads A A e l m -> l = m) /\
  (forall fs l m, reread_fields A A fs l m -> l = m).
Proof.
  assert (P : forall v, (forall t w, reread A A t v w -> v = w)).
  { assert (L : forall l, Forall (fun v => forall t w, reread A A t v w -> v = w) l -> forall e m, rereads A A e l m -> l = m).
    { induction l as [|v l IH]; intros F e m H; inversion H; subst; [reflexivity|]. inversion F as [|? ? Fv Fl]; subst. f_equal; [eapply Fv; eassumption|eapply IH; eassumption]. }
    assert (LF : forall l, Forall (fun v => forall t w, reread A A t v w -> v = w) l -> forall fs m, reread_fields A A fs l m -> l = m).
    { induction l as [|v l IH]; intros F fs m H; inversion H; subst; [reflexivity|]. inversion F as [|? ? Fv Fl]; subst. f_equal; [eapply Fv; eassumption|eapply IH; eassumption]. }
    induction v using value_ind'; intros t0 w R; inversion R; subst; try reflexivity.
    - f_equal. eapply L; eassumption.
    - do 2 f_equal. eapply L; eassumption.
    - do 2 f_equal. eapply IHv; eassumption.
    - match goal with X : resolve A t0 = RStruct (?fs ++ ?ga), Y : resolve A t0 = RStruct (?fs ++ ?gb) |- _ => rewrite X in Y; inversion Y as [Z]; apply app_inv_head in Z; subst gb end.
      match goal with X : ?g = [] \/ ?g = [] |- _ => assert (g = []) by tauto; subst g end.
      match goal with X : length ?x = length [] |- _ => destruct x; [|discriminate X] end.
      match goal with X : ?x = missing _ [] \/ ?x = map _ [] |- _ => assert (x = []) by (destruct X; assumption); subst x end.
      rewrite !app_nil_r in *. f_equal. eapply LF; eassumption.
    - do 3 f_equal. eapply IHv; eassumption. }
  split; [intros; eapply P; eassumption|]. split.
  - intros e l. induction l as [|v l IH]; intros m H; inversion H; subst; [reflexivity|]. f_equal; [eapply P; eassumption|apply IH; assumption].
  - intros fs l. revert fs. induction l as [|v l IH]; intros fs m H; inversion H; subst; [reflexivity|]. f_equal; [eapply P; eassumption|eapply IH; eassumption].
Qed.

(** Two versions of a program:
    type Item struct { N int }                                   (id 0, the old version)
    type Item struct { N int; Tag string; At time.Time; P *Item }  (id 0, the new version)
    type Box struct { Items []Item; P *Item; I Shape; Fix [2]Item; T Temp }   (id 1)
    type Thing struct { X int }                                  (id 2)
    type Temp int32, with MarshalAmino and UnmarshalAmino (id 3, as in Demo.v)
    *Item is registered as "item", Shape is interface{}.  The new version also
    registers Thing. *)
Definition t_item : gotype := TNamed 0%nat.
Definition t_box : gotype := TNamed 1%nat.
Definition t_thing : gotype := TNamed 2%nat.
Definition t_temp3 : gotype := TNamed 3%nat.
Definition item_old : list sfield := [fld "N" TInt "" ""].
Definition item_more : list sfield := [fld "Tag" TStr "" ""; fld "At" TTime "" ""; fld "P" (TPtr t_item) "" ""].
Definition kin_env (item : list sfield) (zitem : value) : tenv :=
  {| te_def := fun id => match id with
       | 0%nat => UStruct item
       | 1%nat => UStruct [fld "Items" (TSlice t_item) "" ""; fld "P" (TPtr t_item) "" ""; fld "I" (TIface 0%nat) "" "";
                           fld "Fix" (TArray 2 t_item) "" ""; fld "T" t_temp3 "" ""]
       | 2%nat => UStruct [fld "X" TInt "" ""]
       | _ => UType (TPrim PInt32)
       end;
     te_zero := fun id => match id with
       | 0%nat => zitem
       | 1%nat => VStruct [VSlice None; VPtr None; VIface None; VArr [zitem; zitem]; VInt 0]
       | 2%nat => VStruct [VInt 0]
       | _ => VInt 0
       end;
     te_impl := fun _ i => (i =? 0)%nat;
     te_marshal := fun id => if (id =? 3)%nat then Some (MOk TStr temp_marshal) else None;
     te_unmarshal := fun id => if (id =? 3)%nat then Some (UOk TStr temp_unmarshal) else None;
     te_hash := te_hash demo |}.
Definition old_env : tenv := kin_env item_old (VStruct [VInt 0]).
Definition new_env : tenv := kin_env (item_old ++ item_more) (VStruct [VInt 0; VStr []; zero_time; VPtr None]).
Definition old_history : list op := [OIface 0%nat None; OConc (TPtr t_item) (bs "item")].
Definition new_history : list op := old_history ++ [OConc t_thing (bs "thing")].

Lemma old_env_wf : wf_env old_env.
Proof.
  split; cbn [te_def te_impl te_hash old_env kin_env].
  - intros [|[|[|id]]]; cbn; discriminate.
  - intros [|[|[|id]]]; reflexivity.
  - intros t i _ H. exact H.
  - intros t i H. exact H.
  - exact (we_hash_len _ demo_wf).
  - exact (we_hash_ok _ demo_wf).
Qed.
Lemma new_env_wf : wf_env new_env.
Proof.
  split; cbn [te_def te_impl te_hash new_env kin_env].
  - intros [|[|[|id]]]; cbn; discriminate.
  - intros [|[|[|id]]]; reflexivity.
  - intros t i _ H. exact H.
  - intros t i H. exact H.
  - exact (we_hash_len _ demo_wf).
  - exact (we_hash_ok _ demo_wf).
Qed.
Lemma kin_marshal_typed item z : marshal_typed (kin_env item z).
Proof.
  intros id r f v w. cbn [te_marshal kin_env]. destruct (id =? 3)%nat; [|discriminate]. intros H. inversion H; subst.
  destruct v; cbn; try discriminate. destruct (_ <? 0); [discriminate|]. intros _ X. inversion X. subst. cbn.
  apply forallb_forall. intros x Hx. apply repeat_spec in Hx. subst. reflexivity.
Qed.
Lemma kin_temp (A B : tenv) id : te_unmarshal A id = (if (id =? 3)%nat then Some (UOk TStr temp_unmarshal) else None) ->
  te_unmarshal B id = te_unmarshal A id ->
  match te_unmarshal A id, te_unmarshal B id with
  | None, None => True
  | Some (UOk r f), Some (UOk r' g) => r = r' /\
      forall x y v, reread A B r x y -> f (zero A (TNamed id)) x = EOk (v, None) ->
      exists w, g (zero B (TNamed id)) y = EOk (w, None) /\ reread A B (TNamed id) v w
  | _, _ => False
  end.
Proof.
  intros EA ->. rewrite EA. destruct (id =? 3)%nat; [|exact I]. split; [reflexivity|].
  intros x y v R H. destruct x; try discriminate H. inversion R; subst. cbn [temp_unmarshal] in *. exists v. split; [exact H|].
  inversion H; subst. apply rr_atom. exact I.
Qed.
Lemma kin_grown : kin old_env new_env.
Proof.
  split; try reflexivity.
  - intros [|[|[|id]]]; try (left; reflexivity). right. exists item_old, item_more. left. split; reflexivity.
  - intros id. apply kin_temp; reflexivity.
Qed.
Lemma kin_shrunk : kin new_env old_env.
Proof.
  split; try reflexivity.
  - intros [|[|[|id]]]; try (left; reflexivity). right. exists item_old, item_more. right. split; reflexivity.
  - intros id. apply kin_temp; reflexivity.
Qed.
Lemma old_clean : clean old_env new_codec old_history = true.
Proof. vm_compute. reflexivity. Qed.
Lemma new_clean : clean new_env new_codec new_history = true.
Proof. vm_compute. reflexivity. Qed.
Lemma new_clean_old : clean new_env new_codec old_history = true.
Proof. vm_compute. reflexivity. Qed.

Lemma kin_known item z h u : item = item_old \/ item = item_old ++ item_more ->
  find_iface 0%nat (cd_ifaces (run (kin_env item z) new_codec h)) <> None -> deref_type u = TIface 0%nat \/ (forall i, deref_type u <> TIface i) ->
  known (kin_env item z) (run (kin_env item z) new_codec h) u = true.
Proof.
  intros Hitem Hf Hu. unfold known, get_type_info. cbv zeta.
  assert (N : forall ct, match ct with TPtr _ | TIface _ => False | _ => True end -> exists ci, new_type_info (kin_env item z) ct = EOk ci).
  { intros ct Hct. unfold new_type_info. destruct ct; try contradiction; try (eexists; reflexivity).
    destruct id as [|[|[|[|id]]]]; destruct Hitem as [-> | ->]; try (eexists; vm_compute; reflexivity); (eexists; cbn; reflexivity). }
  pose proof (deref_is_ptr u) as Hp.
  destruct Hu as [Hu|Hu].
  - rewrite Hu. destruct (find_iface 0%nat _); [reflexivity|contradiction].
  - destruct (deref_type u) eqn:Eu; try discriminate Hp; try (exfalso; eapply Hu; reflexivity);
      (destruct (assoc gotype_eqb _ _); [reflexivity|]); match goal with |- context [new_type_info _ ?ct] => destruct (N ct I) as [ci ->] end; reflexivity.
Qed.
Lemma kin_unknown (env : tenv) h u i : map ii_id (cd_ifaces (run env new_codec h)) = [0%nat] -> known env (run env new_codec h) u = true -> deref_type u = TIface i -> i = 0%nat.
Proof.
  intros E H Hu. unfold known, get_type_info in H. cbv zeta in H. rewrite Hu in H. destruct (find_iface i _) eqn:F; [|discriminate H].
  unfold find_iface in F. apply find_some in F. destruct F as [F1 F2]. apply (in_map ii_id) in F1. rewrite E in F1. destruct F1 as [F1|[]]. apply Nat.eqb_eq in F2. congruence.
Qed.
Lemma kin_known_all (A : tenv) ha item z hb : item = item_old \/ item = item_old ++ item_more ->
  map ii_id (cd_ifaces (run A new_codec ha)) = [0%nat] -> find_iface 0%nat (cd_ifaces (run (kin_env item z) new_codec hb)) <> None ->
  forall u, known A (run A new_codec ha) u = true -> known (kin_env item z) (run (kin_env item z) new_codec hb) u = true.
Proof.
  intros Hi E F u H. apply kin_known; try assumption. destruct (deref_type u) eqn:Eu; try (right; intros ? X; discriminate X).
  left. f_equal. eapply kin_unknown; eassumption.
Qed.
Lemma kin_fields t fs gs : (resolve old_env t = RStruct fs /\ resolve new_env t = RStruct (fs ++ gs)) -> gs <> [] -> t = t_item /\ gs = item_more.
Proof.
  intros [H1 H2] N. destruct t; try discriminate H1. destruct id as [|[|[|id]]]; cbn in H1, H2; try discriminate H1.
  - inversion H1; subst. inversion H2. auto.
  - inversion H1; subst. inversion H2; subst. contradiction.
  - inversion H1; subst. inversion H2; subst. contradiction.
Qed.
Lemma shrink_none t fs gs : resolve old_env t = RStruct (fs ++ gs) -> resolve new_env t = RStruct fs -> gs = [].
Proof.
  intros H1 H2. destruct t; try discriminate H1. destruct id as [|[|[|id]]]; cbn in H1, H2; try discriminate H1; inversion H1 as [E1]; inversion H2 as [E2]; subst;
    apply (f_equal (@length _)) in E1; rewrite app_length in E1; cbn in E1; destruct gs; try reflexivity; cbn in E1; lia.
Qed.

(** ** C35 *)

(** The old version [A] of a program has written a struct (or pointers to one, or a list of them).  The new version [B]
    reads the bytes as the old version reads them, except that wherever a struct type
    that has grown is found, the new fields are there with their defaults.  Missing
    for the full statement: values without a normal form, which the old version itself
    cannot read. *)
Theorem C35_nested_partial : forall A B ha hb t, wf_env A -> wf_env B -> kin A B -> marshal_typed A ->
  clean A new_codec ha = true -> clean B new_codec hb = true -> names_kept A t ha hb ->
  let cA := run A new_codec ha in let cB := run B new_codec hb in
  (forall u, known A cA u = true -> known B cB u = true) ->
  (forall u g, appended A B u g -> visible g = true -> known B cB (sf_type g) = true) ->
  (forall u g, ~ dropped A B u g) ->
  forall k fd v bz v', (2 * k <= fd)%nat ->
  struct_like A (deref_type t) = true -> has_type A t v = true ->
  marshal_bare k A cA t v = EOk bz -> zlen bz < 2 ^ 63 ->
  match under v with Some w => norm k A cA (deref_type t) (set_num 1 no_opts) w | None => None end = Some v' ->
  unmarshal_bare fd A cA bz t (zero A t) = URet (ptrs t v') None /\
  exists w, unmarshal_bare fd B cB bz t (zero B t) = URet w None /\ reread A B t (ptrs t v') w.
Proof.
  intros A B ha hb t WA WB K Hm CA CB NK cA cB Hk Ha Hd k fd v bz v' Hfd Hsl Ht H Hz Hn. split.
  - apply (struct_round_trip A WA cA (wf_history A ha CA) (sane_run A ha) Hm k fd t v bz v' t); try assumption; try reflexivity. apply base_zero.
  - apply (kin_round_trip A B ha hb (fun _ => false) t WA WB K Hm CA CB NK Hk Ha) with (k := k) (v := v); try assumption; try reflexivity.
    + intros u X. discriminate X.
    + intros u g X. exfalso. exact (Hd _ _ X).
    + apply base_zero.
Qed.
(** For supported types there always is a normal form. *)
Theorem C35_nested_supported_partial : forall A B ha hb t mem, wf_env A -> wf_env B -> kin A B -> marshal_typed A ->
  clean A new_codec ha = true -> clean B new_codec hb = true -> names_kept A t ha hb ->
  let cA := run A new_codec ha in let cB := run B new_codec hb in
  (forall u, known A cA u = true -> known B cB u = true) ->
  (forall u g, appended A B u g -> visible g = true -> known B cB (sf_type g) = true) ->
  (forall u g, ~ dropped A B u g) -> supported A cA mem -> mem (deref_type t) = true ->
  forall k fd v bz, (2 * k <= fd)%nat ->
  struct_like A (deref_type t) = true -> has_type A t v = true ->
  marshal_bare k A cA t v = EOk bz -> zlen bz < 2 ^ 63 ->
  exists x w, unmarshal_bare fd A cA bz t (zero A t) = URet x None /\
    unmarshal_bare fd B cB bz t (zero B t) = URet w None /\ reread A B t x w.
Proof.
  intros A B ha hb t mem WA WB K Hm CA CB NK cA cB Hk Ha Hd Hsup Hmem k fd v bz Hfd Hsl Ht H Hz.
  destruct (supported_top A cA mem k t v bz WA (wf_history A ha CA) (sane_run A ha) Hm Hsup Hmem Hsl Ht H) as (y & v' & Hu & Hn).
  destruct (C35_nested_partial A B ha hb t WA WB K Hm CA CB NK Hk Ha Hd k fd v bz v' Hfd Hsl Ht H Hz) as (R & w & U & Rw); [rewrite Hu; exact Hn|].
  exists (ptrs t v'), w. auto.
Qed.

Lemma hash_names : forall d d' p, disfix_of_hash (te_hash old_env (bs "item")) d p -> disfix_of_hash (te_hash old_env (bs "thing")) d' p -> False.
Proof.
  intros d d' p H1 H2. apply (name_to_disfix_exact old_env) in H1, H2.
  assert (E1 : name_to_disfix old_env (bs "item") = EOk ([74; 51; 234], [205; 95; 166; 95])) by (vm_compute; reflexivity).
  assert (E2 : name_to_disfix old_env (bs "thing") = EOk ([93; 233; 77], [105; 26; 227; 3])) by (vm_compute; reflexivity).
  rewrite E1 in H1. rewrite E2 in H2. apply EOk_inj in H1, H2. inversion H1. inversion H2. subst. discriminate.
Qed.
Lemma names_grown : names_kept old_env t_box old_history new_history.
Proof.
  split.
  - intros x [<-|[]]. left. reflexivity.
  - intros x y d d' p [<-|[]] [<-|[<-|[]]] H1 H2; [left; reflexivity|]. exfalso. exact (hash_names _ _ _ H1 H2).
  - intros x [<-|[<-|[]]] E; discriminate E.
Qed.
Definition old_item (n : Z) : value := VStruct [VInt n].
Definition old_box : value :=
  VStruct [VSlice (Some [old_item 1; old_item 0]); VPtr (Some (old_item 2)); VIface (Some (TPtr t_item, VPtr (Some (old_item 3))));
           VArr [old_item 4; old_item 0]; VInt 2].
Definition new_item (n : Z) : value := VStruct [VInt n; VStr []; VTime 0 0; VPtr None].
Definition box_bytes : bytes := [10; 2; 8; 1; 10; 0; 18; 2; 8; 2; 26; 6; 205; 95; 166; 95; 8; 3; 34; 2; 8; 4; 34; 0; 40; 2; 97; 97].
Example C35_nested_example : wf_env old_env /\ wf_env new_env /\ kin old_env new_env /\ marshal_typed old_env /\
  clean old_env new_codec old_history = true /\ clean new_env new_codec new_history = true /\
  names_kept old_env t_box old_history new_history /\
  (forall u, known old_env (run old_env new_codec old_history) u = true -> known new_env (run new_env new_codec new_history) u = true) /\
  (forall u g, appended old_env new_env u g -> visible g = true -> known new_env (run new_env new_codec new_history) (sf_type g) = true) /\
  (forall u g, ~ dropped old_env new_env u g) /\ appended old_env new_env t_item (fld "Tag" TStr "" "") /\
  has_type old_env t_box old_box = true /\
  marshal_bare 10 old_env (run old_env new_codec old_history) t_box old_box = EOk box_bytes /\
  norm 10 old_env (run old_env new_codec old_history) t_box (set_num 1 no_opts) old_box = Some old_box /\
  unmarshal_bare 20 new_env (run new_env new_codec new_history) box_bytes t_box (zero new_env t_box) =
    URet (VStruct [VSlice (Some [new_item 1; VStruct [VInt 0; VStr []; zero_time; VPtr None]]); VPtr (Some (new_item 2));
                   VIface (Some (TPtr t_item, VPtr (Some (new_item 3))));
                   VArr [new_item 4; VStruct [VInt 0; VStr []; zero_time; VPtr None]]; VInt 2]) None.
Proof.
  split; [exact old_env_wf|]. split; [exact new_env_wf|]. split; [exact kin_grown|]. split; [apply kin_marshal_typed|].
  split; [exact old_clean|]. split; [exact new_clean|]. split; [exact names_grown|].
  split; [apply kin_known_all; [right; reflexivity|vm_compute; reflexivity|vm_compute; discriminate]|].
  split. { intros u g (fs & gs & H1 & H2 & Hin) _. assert (N : gs <> []) by (intros ->; destruct Hin). destruct (kin_fields _ _ _ (conj H1 H2) N) as [_ ->].
    apply kin_known; [right; reflexivity|vm_compute; discriminate|]. right. destruct Hin as [<-|[<-|[<-|[]]]]; cbn; intros; discriminate. }
  split. { intros u g (fs & gs & H1 & H2 & Hin). pose proof (shrink_none _ _ _ H1 H2). subst gs. destruct Hin. }
  split. { exists item_old, item_more. split; [reflexivity|]. split; [reflexivity|]. left. reflexivity. }
  split; [reflexivity|]. split; [vm_compute; reflexivity|]. split; [vm_compute; reflexivity|]. vm_compute; reflexivity.
Qed.
Print Assumptions C35_nested_partial.
Print Assumptions C35_nested_supported_partial.

(** ** C36 *)

(** A version [A] of a program has written a struct (or pointers to one, or a list of them); the version
    [B] reads it, which has not all the fields at the ends of structs that [A] has, and
    may have others.  It reads what [A] itself reads, wherever the structs are, without the fields it has not.  The struct types with
    fields that are missing in [B] are regular (see C13); none of these fields is
    a list written as entries (C36_repeated_refuted).  Missing for the full
    statement: such fields, irregular types, values without a normal form. *)
Theorem C36_nested_partial : forall A B ha hb mem t, wf_env A -> wf_env B -> kin A B -> marshal_typed A ->
  clean A new_codec ha = true -> clean B new_codec hb = true -> names_kept A t ha hb ->
  let cA := run A new_codec ha in let cB := run B new_codec hb in
  (forall u, known A cA u = true -> known B cB u = true) ->
  (forall u g, appended A B u g -> visible g = true -> known B cB (sf_type g) = true) ->
  regular A cA mem ->
  (forall u g, dropped A B u g -> mem u = true /\ (visible g = true -> entries A (sf_type g) = false)) ->
  forall k fd v bz v', (2 * k <= fd)%nat ->
  struct_like A (deref_type t) = true -> has_type A t v = true ->
  marshal_bare k A cA t v = EOk bz -> zlen bz < 2 ^ 63 ->
  match under v with Some w => norm k A cA (deref_type t) (set_num 1 no_opts) w | None => None end = Some v' ->
  unmarshal_bare fd A cA bz t (zero A t) = URet (ptrs t v') None /\
  exists w, unmarshal_bare fd B cB bz t (zero B t) = URet w None /\ reread A B t (ptrs t v') w.
Proof.
  intros A B ha hb mem t WA WB K Hm CA CB NK cA cB Hk Ha Hreg Hd k fd v bz v' Hfd Hsl Ht H Hz Hn. split.
  - apply (struct_round_trip A WA cA (wf_history A ha CA) (sane_run A ha) Hm k fd t v bz v' t); try assumption; try reflexivity. apply base_zero.
  - apply (kin_round_trip A B ha hb mem t WA WB K Hm CA CB NK Hk Ha Hreg Hd) with (k := k) (v := v); try assumption; try reflexivity. apply base_zero.
Qed.
(** For supported types there always is a normal form. *)
Theorem C36_nested_supported_partial : forall A B ha hb mem sup t, wf_env A -> wf_env B -> kin A B -> marshal_typed A ->
  clean A new_codec ha = true -> clean B new_codec hb = true -> names_kept A t ha hb ->
  let cA := run A new_codec ha in let cB := run B new_codec hb in
  (forall u, known A cA u = true -> known B cB u = true) ->
  (forall u g, appended A B u g -> visible g = true -> known B cB (sf_type g) = true) ->
  regular A cA mem ->
  (forall u g, dropped A B u g -> mem u = true /\ (visible g = true -> entries A (sf_type g) = false)) ->
  supported A cA sup -> sup (deref_type t) = true ->
  forall k fd v bz, (2 * k <= fd)%nat ->
  struct_like A (deref_type t) = true -> has_type A t v = true ->
  marshal_bare k A cA t v = EOk bz -> zlen bz < 2 ^ 63 ->
  exists x w, unmarshal_bare fd A cA bz t (zero A t) = URet x None /\
    unmarshal_bare fd B cB bz t (zero B t) = URet w None /\ reread A B t x w.
Proof.
  intros A B ha hb mem sup t WA WB K Hm CA CB NK cA cB Hk Ha Hreg Hd Hsup Hmem k fd v bz Hfd Hsl Ht H Hz.
  destruct (supported_top A cA sup k t v bz WA (wf_history A ha CA) (sane_run A ha) Hm Hsup Hmem Hsl Ht H) as (y & v' & Hu & Hn).
  destruct (C36_nested_partial A B ha hb mem t WA WB K Hm CA CB NK Hk Ha Hreg Hd k fd v bz v' Hfd Hsl Ht H Hz) as (R & w & U & Rw); [rewrite Hu; exact Hn|].
  exists (ptrs t v'), w. auto.
Qed.

Definition item_mem (t : gotype) : bool := existsb (gotype_eqb t) [t_item; TInt; TStr; TTime].
Lemma item_regular : regular new_env (run new_env new_codec old_history) item_mem.
Proof.
  intros t H. unfold item_mem in H. apply existsb_exists in H. destruct H as (t' & H & Et). apply gotype_eqb_eq in Et. subst t'.
  cbn [In] in H. repeat (destruct H as [<-|H]; [try exact I; try reflexivity|]). destruct H.
Qed.
Lemma names_same : names_kept new_env t_box old_history old_history.
Proof. split; auto. Qed.
Definition full_item (n : Z) : value := VStruct [VInt n; VStr [65; 66]; VTime 7 0; VPtr (Some (VStruct [VInt 0; VStr [67]; VTime 0 0; VPtr None]))].
Definition full_box : value :=
  VStruct [VSlice (Some [full_item 1; full_item 0]); VPtr (Some (full_item 2)); VIface (Some (TPtr t_item, VPtr (Some (full_item 3))));
           VArr [full_item 4; full_item 0]; VInt 2].
Example C36_nested_example : kin new_env old_env /\ clean new_env new_codec old_history = true /\
  names_kept new_env t_box old_history old_history /\
  (forall u, known new_env (run new_env new_codec old_history) u = true -> known old_env (run old_env new_codec old_history) u = true) /\
  (forall u g, appended new_env old_env u g -> visible g = true -> known old_env (run old_env new_codec old_history) (sf_type g) = true) /\
  regular new_env (run new_env new_codec old_history) item_mem /\
  (forall u g, dropped new_env old_env u g -> item_mem u = true /\ (visible g = true -> entries new_env (sf_type g) = false)) /\
  dropped new_env old_env t_item (fld "Tag" TStr "" "") /\
  has_type new_env t_box full_box = true /\
  norm 10 new_env (run new_env new_codec old_history) t_box (set_num 1 no_opts) full_box = Some full_box /\
  match marshal_bare 10 new_env (run new_env new_codec old_history) t_box full_box with
  | EOk bz => length bz = 106%nat /\ unmarshal_bare 20 old_env (run old_env new_codec old_history) bz t_box (zero old_env t_box) =
      URet (VStruct [VSlice (Some [old_item 1; old_item 0]); VPtr (Some (old_item 2));
                     VIface (Some (TPtr t_item, VPtr (Some (old_item 3)))); VArr [old_item 4; old_item 0]; VInt 2]) None
  | _ => False
  end.
Proof.
  split; [exact kin_shrunk|]. split; [exact new_clean_old|]. split; [exact names_same|].
  split; [apply kin_known_all; [left; reflexivity|vm_compute; reflexivity|vm_compute; discriminate]|].
  split. { intros u g (fs & gs & H1 & H2 & Hin). pose proof (shrink_none _ _ _ H2 H1). subst gs. destruct Hin. }
  split; [exact item_regular|].
  split. { intros u g (fs & gs & H1 & H2 & Hin). assert (N : gs <> []) by (intros ->; destruct Hin). destruct (kin_fields _ _ _ (conj H2 H1) N) as [-> ->].
    split; [reflexivity|]. intros _. destruct Hin as [<-|[<-|[<-|[]]]]; reflexivity. }
  split. { exists item_old, item_more. split; [reflexivity|]. split; [reflexivity|]. left. reflexivity. }
  split; [reflexivity|]. split; [vm_compute; reflexivity|]. vm_compute. split; reflexivity.
Qed.
Print Assumptions C36_nested_partial.
Print Assumptions C36_nested_supported_partial.
