(** Proofs about whole Unmarshal calls. *)
From Coq Require Import ZArith String List Bool Lia.
From Verif Require Import Base Prims PrimFacts Types Codec BinEnc BinDec Amino DecFacts FuelFacts.
Import ListNotations.
Local Open Scope Z_scope.

Definition uspec (Q : value -> option error -> Prop) (P : panicmsg -> Prop) (F : Prop) (r : ures) : Prop :=
  match r with URet v e => Q v e | UPanic p => P p | UFuel => F end.

Lemma um_finish_spec (Q : value -> option error -> Prop) (P : panicmsg -> Prop) (F : Prop) b r :
  dspec (fun v n e => (e = None -> n = length b -> Q v None) /\
                      (forall s, e <> None \/ n <> length b -> Q v (Some s))) P F r ->
  uspec Q P F (um_finish b r).
Proof.
  destruct r as [v n [e|]| |]; cbn; intros H; try exact H.
  - apply H. left. discriminate.
  - destruct (Nat.eqb_spec n (length b)); cbn; apply H; auto.
Qed.

Lemma get_type_info_nofuel env c t : get_type_info env c t <> EFuel.
Proof.
  intros Ei. unfold get_type_info, new_type_info, ebind in Ei.
      assert (X : forall r, unmarshal_repr env r <> EFuel).
      { unfold unmarshal_repr. intros []; try discriminate. destruct (te_unmarshal env id) as [[|[]]|]; discriminate. }
      assert (Y : forall r, marshal_repr env r <> EFuel).
      { unfold marshal_repr. intros []; try discriminate. destruct (te_marshal env id) as [[|[]]|]; discriminate. }
      assert (U : forall t o, type_to_typ3 env t o <> EFuel).
      { unfold type_to_typ3. intros t0 o. destruct (resolve env t0) as [[]| | | | | | | | | |]; try discriminate;
        try (destruct (fo_fixed64 o); discriminate); destruct (fo_fixed32 o); discriminate. }
      assert (V : forall t o, unpacked_list env t o <> EFuel).
      { unfold unpacked_list, ebind. intros t0 o. destruct (resolve env t0); try discriminate;
        (destruct (is_uint8 env e); [discriminate|]; destruct (type_to_typ3 env (deref_type e) o) eqn:E; try discriminate; exfalso; exact (U _ _ E)). }
      assert (W : forall t o, check_unsafe env t o <> EFuel).
      { unfold check_unsafe. intros t0 o. destruct (fo_unsafe o); [discriminate|]. destruct (resolve env t0) as [[]| | | | | | | | | |]; discriminate. }
      assert (Zf : forall fs i n, parse_fields env fs i n <> EFuel).
      { induction fs as [|f fs IH]; intros i n; cbn [parse_fields]; [discriminate|].
        destruct (negb (sf_exported f)); [apply IH|]. destruct (parse_field_options f) as [o|]; [|apply IH]. unfold ebind.
        destruct (unpacked_list env (sf_type f) o) eqn:E1; try discriminate; [|exfalso; exact (V _ _ E1)].
        destruct (check_unsafe _ _ _) eqn:E2; try discriminate; [|exfalso; exact (W _ _ E2)].
        destruct (parse_fields _ _ _ _) eqn:E3; try discriminate. exfalso; exact (IH _ _ E3). }
      assert (Zp : forall t, parse_struct_info env t <> EFuel).
      { unfold parse_struct_info. intros t0. destruct (resolve env t0); try discriminate. apply Zf. }
      assert (N : forall r, match r with TIface i => True | _ =>
        match assoc gotype_eqb r (cd_types c) with Some ci => EOk (TIConc ci) | None => ebind (new_type_info env r) (fun ci => EOk (TIConc ci)) end <> EFuel end).
      { clear Ei. intros r. destruct r; try exact I; cbv beta iota; (destruct (assoc _ _ _); [discriminate|]); unfold new_type_info, ebind; try discriminate;
        (match goal with |- context [parse_struct_info env ?t] => destruct (parse_struct_info env t) eqn:E1 end); try discriminate; try (exfalso; exact (Zp _ E1));
        (match goal with |- context [marshal_repr env ?t] => destruct (marshal_repr env t) eqn:E2 end); try discriminate; try (exfalso; exact (Y _ E2));
        (match goal with |- context [unmarshal_repr env ?t] => destruct (unmarshal_repr env t) eqn:E3 end); try discriminate; exfalso; exact (X _ E3). }
      specialize (N (deref_type t)). unfold new_type_info, ebind in N.
      destruct (deref_type t); try congruence. destruct (find_iface _ _); discriminate.
Qed.

(** What an Unmarshal call does, in terms of decodeReflectBinary on a suffix of
    its input. *)
Lemma unmarshal_spec (Q : value -> option error -> Prop) (P : panicmsg -> Prop) (F : Prop) f env c bz t v :
  (forall s, Q v (Some s)) ->
  (forall p, get_type_info env c t = EPanic p -> P p) ->
  (forall info p, get_type_info env c t = EOk info -> type_to_typ3 env (ti_type info) no_opts = EPanic p ->
     is_struct_or_repeated_struct env (ti_type info) = false -> P p) ->
  (forall p, is_pointer_to_struct env v t = EPanic p -> P p) ->
  (forall info k bare, get_type_info env c t = EOk info -> (k <= length bz)%nat ->
     dspec (fun w n e => (e = None -> n = length (skipn k bz) -> Q w None) /\
                         (forall s, e <> None \/ n <> length (skipn k bz) -> Q w (Some s))) P F
           (decode_reflect f env c (skipn k bz) info t v (set_num 1 no_opts) bare)) ->
  uspec Q P F (unmarshal_bare f env c bz t v).
Proof.
  intros HQ Hg Ht Hp Hd. rewrite unmarshal_bare_eq.
  destruct (get_type_info env c t) as [info|e|p|] eqn:Ei; cbn [uspec]; [|apply HQ|apply Hg; reflexivity|].
  2:{ exfalso. exact (get_type_info_nofuel _ _ _ Ei). }
  cbv zeta.
  assert (B : forall k, (k <= length bz)%nat -> uspec Q P F (um_body env
     (fun b bare => decode_reflect f env c b info t v (set_num 1 no_opts) bare) (ti_type info) t v (skipn k bz))).
  { intros k Hk. unfold um_body.
    destruct (is_struct_or_repeated_struct env (ti_type info)) eqn:Es.
    - cbn [negb andb]. apply um_finish_spec. apply Hd; [reflexivity|assumption].
    - destruct (is_pointer_to_struct env v t) as [b|e|p|] eqn:Ep; cbn [uspec];
        [|apply HQ|apply Hp; reflexivity|exfalso; clear -Ep; unfold is_pointer_to_struct in Ep;
          destruct (is_struct env t); [discriminate|]; destruct (is_ptr t); [|discriminate];
          destruct (deref_pointers v) as [? []]; cbn in Ep; try discriminate;
          destruct (is_struct env (deref_type t)); [discriminate|]; destruct (is_list_kind env (deref_type t)); discriminate].
      destruct (negb b && _); [|apply um_finish_spec; apply Hd; [reflexivity|assumption]].
      destruct (decode_field_key_ret (skipn k bz)) as ([fn ty] & nk & e & -> & Hnk).
      destruct e as [e|]; cbn [uspec]; [apply HQ|]. destruct (negb (fn =? 1)); [apply HQ|].
      destruct (type_to_typ3 env (ti_type info) no_opts) as [tw|e|p|] eqn:Et; cbn [uspec]; [|apply HQ|eapply Ht; eauto|].
      + destruct (negb (ty =? tw)); [apply HQ|]. rewrite (proj2 (Nat.ltb_ge _ _)) by exact Hnk.
        apply um_finish_spec. rewrite skipn_skipn. apply Hd; [reflexivity|]. rewrite skipn_length in Hnk. lia.
      + exfalso. clear -Et. unfold type_to_typ3 in Et. destruct (resolve env (ti_type info)) as [[]| | | | | | | | | |]; discriminate. }
  assert (B0 : uspec Q P F (um_body env
     (fun b bare => decode_reflect f env c b info t v (set_num 1 no_opts) bare) (ti_type info) t v bz))
    by (apply (B 0%nat); lia).
  destruct info as [[ct fs m u [r|]]|ii]; try exact B0.
  destruct (length bz <? 4)%nat eqn:E4; [apply HQ|]. apply Nat.ltb_ge in E4.
  destruct (negb (beqb (firstn 4 bz) (ri_prefix r))); [apply HQ|]. apply B. assumption.
Qed.

Lemma is_pointer_to_struct_panic env v t p : is_pointer_to_struct env v t = EPanic p ->
  p = "reflect: call of reflect.Value.Elem on slice Value"%string.
Proof.
  unfold is_pointer_to_struct. destruct (is_struct env t); [discriminate|]. destruct (is_ptr t); [|discriminate].
  destruct (deref_pointers v) as [? []]; cbn [negb]; [discriminate|].
  destruct (is_struct env (deref_type t)); [discriminate|]. destruct (is_list_kind env (deref_type t)); [|discriminate].
  intros H. inversion H. reflexivity.
Qed.

Lemma bytes_ok_skipn k bz : bytes_ok bz -> bytes_ok (skipn k bz).
Proof. intros H. rewrite <- (firstn_skipn k bz) in H. apply bytes_ok_app in H. tauto. Qed.

(** ** C18 *)

Lemma unmarshal_no_slide env c f bz t v : env_msgs env -> bytes_ok bz ->
  unmarshal_bare f env c bz t v <> UPanic slide_msg.
Proof.
  intros He Hok. pose proof (unmarshal_spec (fun _ _ => True) (fun p => p <> slide_msg) True f env c bz t v) as S.
  intros H. rewrite H in S. cbn [uspec] in S. apply S; try reflexivity; auto.
  - intros p Hp. eapply get_type_info_panic; eassumption.
  - intros info p _ Hp _. apply type_to_typ3_panic in Hp. subst. discriminate.
  - intros p Hp. apply is_pointer_to_struct_panic in Hp. subst. discriminate.
  - intros info k bare _ _. eapply dspec_weaken; [apply decode_good; [assumption|apply bytes_ok_skipn; assumption]|].
    auto.
Qed.

Lemma unmarshal_length_no_slide env c f bz t v : env_msgs env -> bytes_ok bz ->
  unmarshal_length_prefixed f env c bz t v <> UPanic slide_msg.
Proof.
  intros He Hok. unfold unmarshal_length_prefixed. destruct bz as [|b bz]; [discriminate|].
  destruct (uvarint (b :: bz)) as [u n]. destruct (n <? 0); [discriminate|].
  destruct (_ <? u); [discriminate|]. destruct (u <? _); [discriminate|].
  apply unmarshal_no_slide; [assumption|apply bytes_ok_skipn; assumption].
Qed.

(** More fuel does not change a result. *)
Lemma um_body_fuel env dec dec' ty t v b : (forall b bare, dle (dec b bare) (dec' b bare)) ->
  um_body env dec ty t v b <> UFuel -> um_body env dec' ty t v b = um_body env dec ty t v b.
Proof.
  intros D. assert (F : forall b bare, um_finish b (dec b bare) <> UFuel -> um_finish b (dec' b bare) = um_finish b (dec b bare)).
  { intros b' bare. specialize (D b' bare). unfold dle in D. destruct D as [D|D]; rewrite D; [intros X; exfalso; apply X; reflexivity|reflexivity]. }
  unfold um_body.
  destruct (if is_struct_or_repeated_struct env ty then EOk true else is_pointer_to_struct env v t); try reflexivity.
  destruct (negb a && _).
  - destruct (decode_field_key b) as [[fn typ] nk [e|]| |]; try reflexivity. destruct (negb _); [reflexivity|].
    destruct (type_to_typ3 env ty no_opts); try reflexivity. destruct (negb (typ =? a0)); [reflexivity|].
    destruct (length b <? nk)%nat; [reflexivity|]. apply F.
  - apply F.
Qed.
Lemma unmarshal_fuel env c f f' bz t v : (f <= f')%nat -> unmarshal_bare f env c bz t v <> UFuel ->
  unmarshal_bare f' env c bz t v = unmarshal_bare f env c bz t v.
Proof.
  intros Hf. rewrite !unmarshal_bare_eq. destruct (get_type_info env c t) as [i| | |]; try reflexivity. cbv zeta.
  pose proof (fun b => um_body_fuel env _ _ (ti_type i) t v b
    (fun b bare => decode_fuel_mono env c f f' b i t v (set_num 1 no_opts) bare Hf)) as B.
  destruct i as [[ct fs m u [r|]]|ii]; try apply B. destruct (length bz <? 4)%nat; [reflexivity|].
  destruct (negb _); [reflexivity|apply B].
Qed.
Lemma unmarshal_length_fuel env c f f' bz t v : (f <= f')%nat -> unmarshal_length_prefixed f env c bz t v <> UFuel ->
  unmarshal_length_prefixed f' env c bz t v = unmarshal_length_prefixed f env c bz t v.
Proof.
  intros Hf. unfold unmarshal_length_prefixed. destruct bz; [reflexivity|]. destruct (uvarint _).
  destruct (_ <? 0); [reflexivity|]. destruct (_ <? _); [reflexivity|]. destruct (_ <? _); [reflexivity|].
  apply unmarshal_fuel. assumption.
Qed.
