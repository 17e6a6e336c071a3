(** Decoded values are no larger than the input. *)
From Coq Require Import ZArith String List Bool Lia.
From Coq Require Import ZifyBool ZifyNat.
From Verif Require Import Base Prims SpecWire PrimFacts PrimProps Types Codec BinEnc BinDec Amino DecFacts FuelFacts DecProps ValueInd.
Import ListNotations.
Local Open Scope Z_scope.

(** Number of slice elements, map entries and string bytes in a value (the bytes of a
    byte slice are its elements).  Arrays and structs have a size fixed by their type. *)
Fixpoint dsize (v : value) : nat :=
  match v with
  | VStr s => length s
  | VArr l => list_sum (map dsize l)
  | VSlice (Some l) => length l + list_sum (map dsize l)
  | VPtr (Some w) => dsize w
  | VStruct l => list_sum (map dsize l)
  | VIface (Some (_, w)) => dsize w
  | VMap (Some l) => length l + list_sum (map (fun p => dsize (fst p) + dsize (snd p)) l)
  | _ => 0
  end%nat.

(** UnmarshalAmino methods do not blow up their argument. *)
Definition env_nogrow (env : tenv) : Prop :=
  forall id r g v w v' e, te_unmarshal env id = Some (UOk r g) -> g v w = EOk (v', e) ->
    (dsize v' <= dsize v + dsize w)%nat.

Definition lsize (l : list value) : nat := list_sum (map dsize l).
Lemma lsize_app a b : lsize (a ++ b) = (lsize a + lsize b)%nat.
Proof. unfold lsize. rewrite map_app, list_sum_app. reflexivity. Qed.
Lemma lsize_cons x l : lsize (x :: l) = (dsize x + lsize l)%nat.
Proof. reflexivity. Qed.
Lemma lsize_bytes b : lsize (bytes_val b) = 0%nat.
Proof. induction b as [|x b IH]; [reflexivity|]. cbn [bytes_val map]. rewrite lsize_cons. exact IH. Qed.
Lemma lsize_upd : forall i v l m, (dsize v <= dsize (nth i l VInvalid) + m)%nat -> (lsize (upd i v l) <= lsize l + m)%nat.
Proof.
  induction i as [|i IH]; intros v [|x l] m; cbn [upd nth]; intros H; try (cbn; lia); try (rewrite !lsize_cons; lia).
  rewrite !lsize_cons. specialize (IH v l m H). lia.
Qed.

Lemma dsize_zero env t : wf_env env -> dsize (zero env t) = 0%nat.
Proof.
  intros We. apply (zero_ind env (fun _ v => dsize v = 0%nat) We); try reflexivity.
  - destruct p; reflexivity.
  - intros n e H. cbn [dsize]. destruct n as [|n]; [reflexivity|]. specialize (H _ eq_refl ltac:(lia)).
    induction (S n) as [|k IH]; [reflexivity|]. cbn [repeat map list_sum fold_right]. rewrite H. exact IH.
  - intros id fs _ H. cbn [dsize]. induction fs as [|f fs IH]; [reflexivity|].
    cbn [map list_sum fold_right]. rewrite (H f (or_introl eq_refl)). apply IH. intros g Hg. apply H. right. assumption.
  - auto.
Qed.
Lemma dsize_wrap t v : dsize (wrap_ptrs t v) = dsize v.
Proof. induction t; cbn; auto. Qed.
Lemma dsize_default env t : wf_env env -> dsize (default_value env t) = 0%nat.
Proof.
  intros We. unfold default_value. destruct (deref_type t); try (apply dsize_zero; assumption).
  rewrite dsize_wrap. reflexivity.
Qed.
Lemma dsize_base env t : wf_env env -> forall v, (dsize (base_of env t v) <= dsize v)%nat.
Proof.
  intros We. induction t; intros v; cbn [base_of]; try lia.
  etransitivity; [apply IHt|]. destruct v as [| | | | | | | |[w|]| | | | | |]; cbn [dsize]; try lia;
  rewrite (dsize_zero env t We); lia.
Qed.
Lemma dsize_mk_slice l : dsize (mk_slice l) = (length l + lsize l)%nat.
Proof. destruct l; reflexivity. Qed.

Definition T1 : panicmsg -> Prop := fun _ => True.
Definition sized (bare : bool) (bz : bytes) (v0 : value) (r : dres value) : Prop :=
  dspec (fun v n e => (dsize v <= dsize v0 + n)%nat /\
                      (e = None -> bare = false -> bz <> [] -> (dsize v + 1 <= dsize v0 + n)%nat)) T1 True r.

Lemma any_eget {A B} (Q : B -> nat -> option error -> Prop) (r : eres A) kerr k :
  (forall a, r = EOk a -> dspec Q T1 True (k a)) -> (forall e, dspec Q T1 True (kerr e)) ->
  dspec Q T1 True (eget r kerr k).
Proof. intros H1 H2. destruct r; cbn; auto. exact I. Qed.
Lemma any_slide {A} (Q : A -> nat -> option error -> Prop) bz n k :
  dspec Q T1 True (k (skipn n bz)) -> dspec Q T1 True (slide bz n k).
Proof. intros H. unfold slide. destruct (_ <? _)%nat; [exact I|exact H]. Qed.

Section Size.
  Variable env : tenv.
  Hypothesis We : wf_env env.
  Variable c : codec.
  Variable rec : bytes -> tinfo -> gotype -> value -> fopts -> bool -> dres value.
  Hypothesis Hrec : forall bz info t v0 o bare, bytes_ok bz -> sized bare bz v0 (rec bz info t v0 o bare).

  Ltac ret := cbn [dspec fst snd dsize]; splits; intros; try discriminate; try lia.

  Lemma size_scalar {A} bare bz v0 (r : dres A) (f : A -> dres value) :
    (forall a n, r = DRet a n None -> (1 <= n)%nat /\
       dspec (fun v _ _ => (dsize v + 1 <= n \/ v = v0)%nat) T1 True (f a)) ->
    sized bare bz v0 (set_scalar v0 bz r f).
  Proof.
    clear Hrec rec c We env. intros H. unfold sized, set_scalar. destruct r as [a n e| |]; cbn [dbind]; try exact I.
    apply any_slide. destruct e as [e|]; [ret|]. destruct (H a n eq_refl) as [H1 H2].
    destruct (f a) as [v k e| |]; cbn [dbind]; try exact I. cbn in H2.
    assert (dsize v + 1 <= dsize v0 + n)%nat by (destruct H2; [lia|subst; lia]). ret.
  Qed.

  Lemma size_prim bare p v0 bz o : bytes_ok bz -> sized bare bz v0 (decode_prim p v0 bz o).
  Proof.
    clear Hrec rec c We. intros Hok. unfold decode_prim.
    assert (U : forall A (d : bytes -> dres A) f, well_behaved d ->
       (forall a, dspec (fun v _ _ => dsize v = 0%nat \/ v = v0) T1 True (f a)) ->
       sized bare bz v0 (set_scalar v0 bz (d bz) f)).
    { intros A d f (_ & H2 & _) Hf. apply size_scalar. intros a n E. pose proof (H2 _ _ _ E) as Hn. split; [exact Hn|].
      specialize (Hf a). destruct (f a); try exact I. cbn in *. destruct Hf as [Hf|Hf]; [left; lia|right; assumption]. }
    destruct p; try destruct (fo_fixed64 o); try destruct (fo_fixed32 o);
      try (destruct (negb (fo_unsafe o)); [unfold sized; ret|]);
      try (apply U;
       [first [apply wb_uvarint|apply wb_int8|apply wb_int16|apply wb_uint8|apply wb_uint16
            |apply wb_int32|apply wb_int64|apply wb_uint32|apply wb_uint64|apply wb_bool
            |apply wb_float32|apply wb_float64]
       |intros a; try (destruct (_ || _)); cbn; auto]).
    all: apply size_scalar; intros s n E; unfold decode_string in E; apply byte_slice_frame in E; [|assumption];
      (split; [lia|]; cbn; left; lia).
  Qed.

  Lemma size_enter bare bz v0 k : bytes_ok bz ->
    (forall b n0, bytes_ok b -> dspec (fun v n e => (dsize v + n0 <= dsize v0 + n)%nat) T1 True (k b n0)) ->
    sized bare bz v0 (enter v0 bare bz k).
  Proof.
    clear Hrec rec c We env. intros Hok H. unfold sized, enter. destruct bare.
    - eapply dspec_weaken; [apply H; assumption|]. cbn beta. intros; split; [lia|discriminate].
    - destruct (decode_byte_slice bz) as [b n e| |] eqn:E; cbn [dbind]; try exact I. apply any_slide.
      destruct e as [e|]; [ret|]. apply byte_slice_frame in E; [|assumption].
      eapply dspec_weaken; [apply H; tauto|]. cbn beta. intros; split; intros; lia.
  Qed.

  Lemma size_set_iface ii ci v k (Q : value -> nat -> option error -> Prop) :
    (forall w, dsize w = dsize v -> dspec Q T1 True (k w)) -> dspec Q T1 True (set_iface env ii ci v k).
  Proof.
    intros H. unfold set_iface. destruct (match ci_reg ci with Some r => ri_ptr r | None => false end);
      destruct (te_impl env _ _); try exact I; apply H; reflexivity.
  Qed.

  Lemma size_interface bz ii v0 o bare : bytes_ok bz -> sized bare bz v0 (decode_interface env c rec bz ii v0 o bare).
  Proof.
    intros Hok. unfold decode_interface. destruct v0 as [| | | | | | | | | |[v|]| | | |]; try exact I.
    { unfold sized. ret. }
    apply size_enter; [assumption|]. intros b n0 Hb.
    destruct (disamb_ret b) as (dp & n1 & e & -> & Hn1 & _). cbn [dbind]. apply any_slide.
    destruct e as [e|]; [ret|]. apply any_eget; [|intros; ret]. intros ci _. cbv zeta.
    assert (Hgo : forall bz2 n2, bytes_ok bz2 -> (n0 <= n2)%nat ->
      dspec (fun v n e => (dsize v + n0 <= dsize (VIface None) + n)%nat) T1 True
       (dbind (rec bz2 (TIConc ci) (ci_type ci) (zero env (ci_type ci)) o true) (fun v n3 e =>
              slide bz2 n3 (fun bz3 =>
              let n3 := (n2 + n3)%nat in
              match e with
              | Some e => set_iface env ii ci v (fun r => DRet r n3 (Some e))
              | None =>
                  match bz3 with
                  | _ :: _ => DRet (VIface None) n3 (Some "bytes left over after reading interface contents"%string)
                  | [] => set_iface env ii ci v (fun r => DRet r n3 None)
                  end
              end)))).
    { intros bz2 n2 Hok2 Hn2. apply dspec_bind. eapply dspec_weaken; [apply Hrec; assumption|].
      cbn beta. intros v n e [Hn _]. rewrite dsize_zero in Hn by assumption. apply any_slide. cbv zeta.
      destruct e as [e|]; [apply size_set_iface; intros; ret|].
      destruct (skipn n bz2); [apply size_set_iface; intros; ret | ret]. }
    destruct (wants_key env ci (skipn n1 b) o).
    - destruct (key_ret (skipn n1 b)) as (kt & nk & e & -> & Hnk & _). cbn [dbind].
      destruct e as [e|]; [ret|]. destruct (negb _); [ret|].
      apply any_eget; [|intros; ret]. intros tw _. destruct (negb _); [ret|]. apply any_slide. apply Hgo; [|lia].
      do 2 apply bytes_ok_skipn. assumption.
    - apply Hgo; [apply bytes_ok_skipn; assumption | lia].
  Qed.

  Lemma size_byte_array bare bz len ert v0 : bytes_ok bz -> sized bare bz v0 (decode_byte_array bz len ert v0).
  Proof.
    clear Hrec rec c We. intros Hok. unfold decode_byte_array, sized. destruct (length bz <? len)%nat; [ret|].
    destruct (decode_byte_slice bz) as [b n e| |] eqn:E; cbn [dbind]; try exact I. apply any_slide.
    destruct e as [e|]; [ret|]. apply byte_slice_frame in E; [|assumption].
    destruct (negb _); [ret|]. destruct (gotype_eqb _ _); [|exact I]. cbn [dspec dsize].
    fold (lsize (bytes_val b)). rewrite lsize_bytes. split; intros; lia.
  Qed.
  Lemma size_byte_slice_val bare bz ert v0 : bytes_ok bz -> sized bare bz v0 (decode_byte_slice_val bz ert v0).
  Proof.
    clear Hrec rec c We. intros Hok. unfold decode_byte_slice_val, sized. destruct bz as [|b0 bz'].
    { cbn. split; [lia|congruence]. }
    set (bz := b0 :: bz') in *.
    destruct (decode_byte_slice bz) as [b n e| |] eqn:E; cbn [dbind]; try exact I. apply any_slide.
    destruct e as [e|]; [ret|]. apply byte_slice_frame in E; [|assumption]. destruct b as [|x b]; [ret|].
    destruct (gotype_eqb _ _); [|exact I]. cbn [dspec dsize].
    fold (lsize (bytes_val (x :: b))). rewrite lsize_bytes. unfold bytes_val. rewrite map_length. split; intros; lia.
  Qed.

  Lemma size_prefer_nil ert v : (dsize (prefer_nil env ert v) <= dsize v)%nat.
  Proof. unfold prefer_nil. destruct (_ && _); [rewrite dsize_zero by assumption; lia|lia]. Qed.

  Lemma size_array_packed einfo ert o : forall todo bz n done, bytes_ok bz ->
    dspec (fun r n' e => (lsize (fst r) + n <= lsize done + lsize todo + n')%nat) T1 True
          (decode_array_packed env rec bz n einfo ert o done todo).
  Proof.
    induction todo as [|w0 todo IH]; intros bz n done Hok; cbn [decode_array_packed]; [cbn [dspec fst]; change (lsize []) with 0%nat; lia|].
    apply dspec_bind. eapply dspec_weaken; [apply Hrec; assumption|]. cbn beta. intros w k e [Hk _]. apply any_slide.
    pose proof (bytes_ok_skipn k bz Hok). destruct e as [e|].
    { cbn [dspec fst]. rewrite lsize_app, !lsize_cons. lia. }
    eapply dspec_weaken; [apply IH; assumption|]. cbn beta. intros r n' e' Hr.
    rewrite lsize_app, lsize_cons in Hr. rewrite lsize_cons. pose proof (size_prefer_nil ert w). change (lsize []) with 0%nat in *. lia.
  Qed.
  Lemma size_array_unpacked einfo ert o : forall todo bz n done, bytes_ok bz ->
    dspec (fun r n' e => (lsize (fst r) + n <= lsize done + lsize todo + n')%nat) T1 True
          (decode_array_unpacked env rec bz n einfo ert o done todo).
  Proof.
    induction todo as [|w0 todo IH]; intros bz n done Hok; cbn [decode_array_unpacked]; [cbn [dspec fst]; change (lsize []) with 0%nat; lia|].
    destruct (key_ret bz) as (kt & k & e & -> & Hk & _). cbn [dbind].
    destruct (negb _). { cbn [dspec fst]. rewrite lsize_app, !lsize_cons. lia. }
    destruct (negb _). { cbn [dspec fst]. rewrite lsize_app, !lsize_cons. lia. }
    apply any_slide. cbv zeta.
    pose proof (bytes_ok_skipn k bz Hok) as Hok1.
    destruct e as [e|]. { cbn [dspec fst]. rewrite lsize_app, !lsize_cons. lia. }
    set (bz1 := skipn k bz) in *.
    destruct (skip_empty env einfo ert o bz1).
    - eapply dspec_weaken; [apply IH; apply bytes_ok_skipn; assumption|]. cbn beta. intros r n' e' Hr.
      rewrite lsize_app, lsize_cons, (dsize_default env ert We) in Hr. rewrite lsize_cons. change (lsize []) with 0%nat in *. lia.
    - apply dspec_bind. eapply dspec_weaken; [apply Hrec; assumption|]. cbn beta. intros w k2 e [Hk2 _]. apply any_slide.
      destruct e as [e|]. { cbn [dspec fst]. rewrite lsize_app, !lsize_cons. lia. }
      eapply dspec_weaken; [apply IH; apply bytes_ok_skipn; assumption|]. cbn beta. intros r n' e' Hr.
      rewrite lsize_app, lsize_cons in Hr. rewrite lsize_cons. change (lsize []) with 0%nat in *. lia.
  Qed.
  Lemma size_array bz ert v0 o bare : bytes_ok bz -> sized bare bz v0 (decode_array env c rec bz ert v0 o bare).
  Proof.
    intros Hok. unfold decode_array. destruct (is_uint8 env ert); [exact I|]. destruct v0; try exact I.
    unfold sized. apply any_eget; [|intros; ret]. intros einfo _.
    apply size_enter; [assumption|]. intros b n0 Hb. apply any_eget; [|intros; ret]. intros typ3 _.
    assert (F : lsize [] = 0%nat) by reflexivity.
    destruct (negb _); apply dspec_bind.
    - eapply dspec_weaken; [apply size_array_packed; assumption|]. cbn beta. intros [l' bz'] n e H. cbn [fst] in H.
      unfold lsize in *. destruct e as [e|]; [ret|]. destruct bz'; ret.
    - eapply dspec_weaken; [apply size_array_unpacked; assumption|]. cbn beta. intros [l' bz'] n e H. cbn [fst] in H.
      unfold lsize in *. destruct e as [e|]; [ret|]. destruct bz' as [|x bz']; [ret|].
      destruct (key_ret (x :: bz')) as (kt & k & e & -> & Hk & _). cbn [dbind]. destruct e; [ret|]. destruct (_ <=? _); ret.
  Qed.

  Lemma size_slice_packed einfo ert o : forall k bz n done, bytes_ok bz ->
    dspec (fun r n' e => (length r + lsize r + n <= length done + lsize done + n')%nat) T1 True
          (decode_slice_packed env rec k bz n einfo ert o done).
  Proof.
    induction k as [|k IH]; intros bz n done Hok; destruct bz as [|b0 bz']; cbn [decode_slice_packed];
      try (ret; fail); try exact I. set (bz := b0 :: bz') in *.
    apply dspec_bind. eapply dspec_weaken; [apply Hrec; assumption|]. cbn beta. intros w m e [Hm Hm1]. apply any_slide.
    pose proof (bytes_ok_skipn m bz Hok). destruct e as [e|]; [ret|].
    specialize (Hm1 eq_refl eq_refl ltac:(discriminate)). rewrite dsize_zero in Hm1 by assumption.
    eapply dspec_weaken; [apply IH; assumption|]. cbn beta. intros r n' e' Hr.
    rewrite lsize_app, lsize_cons, app_length in Hr. cbn [length] in Hr. pose proof (size_prefer_nil ert w).
    change (lsize []) with 0%nat in *. lia.
  Qed.
  Lemma size_slice_unpacked einfo ert o : forall k bz n done, bytes_ok bz ->
    dspec (fun r n' e => (length r + lsize r + n <= length done + lsize done + n')%nat) T1 True
          (decode_slice_unpacked env rec k bz n einfo ert o done).
  Proof.
    induction k as [|k IH]; intros bz n done Hok; destruct bz as [|b0 bz']; cbn [decode_slice_unpacked];
      try (ret; fail); try exact I. set (bz := b0 :: bz') in *.
    destruct (key_ret bz) as (kt & m & e & -> & Hm & Hm1). cbn [dbind].
    destruct (_ <? _); [ret|]. destruct (_ <? _); [ret|]. destruct (negb _); [ret|].
    apply any_slide. cbv zeta. pose proof (bytes_ok_skipn m bz Hok) as Hok1. destruct e as [e|]; [ret|]. specialize (Hm1 eq_refl).
    set (bz1 := skipn m bz) in *. destruct (skip_empty env einfo ert o bz1) eqn:Es.
    - eapply dspec_weaken; [apply IH; apply bytes_ok_skipn; assumption|]. cbn beta. intros r n' e' Hr.
      rewrite lsize_app, lsize_cons, app_length, (dsize_default env ert We) in Hr. cbn [length] in Hr. change (lsize []) with 0%nat in *. lia.
    - apply dspec_bind. eapply dspec_weaken; [apply Hrec; assumption|]. cbn beta. intros w k2 e [Hk2 _]. apply any_slide.
      rewrite dsize_zero in Hk2 by assumption. destruct e as [e|]; [ret|].
      eapply dspec_weaken; [apply IH; apply bytes_ok_skipn; assumption|]. cbn beta. intros r n' e' Hr.
      rewrite lsize_app, lsize_cons, app_length in Hr. cbn [length] in Hr. change (lsize []) with 0%nat in *. lia.
  Qed.
  Lemma size_slice bz ert v0 o bare : bytes_ok bz -> sized bare bz v0 (decode_slice env c rec bz ert v0 o bare).
  Proof.
    intros Hok. unfold decode_slice. destruct (is_uint8 env ert); [exact I|].
    unfold sized. apply any_eget; [|intros; ret]. intros einfo _.
    apply size_enter; [assumption|]. intros b n0 Hb. apply any_eget; [|intros; ret]. intros typ3 _. apply dspec_bind.
    assert (F : lsize [] = 0%nat) by reflexivity. assert (G : length (@nil value) = 0%nat) by reflexivity.
    destruct (negb _).
    - eapply dspec_weaken; [apply size_slice_packed; assumption|]. cbn beta. intros l n e H.
      destruct e as [e|]; cbn [dspec]; [|rewrite dsize_mk_slice]; lia.
    - eapply dspec_weaken; [apply size_slice_unpacked; assumption|]. cbn beta. intros l n e H.
      destruct e as [e|]; cbn [dspec]; [|rewrite dsize_mk_slice]; lia.
  Qed.

  Lemma size_field f l bz last n : bytes_ok bz ->
    dspec (fun st n' e => (lsize (fst (fst st)) + n <= lsize l + n')%nat /\ bytes_ok (snd (fst st))) T1 True
          (decode_field env c rec f l bz last n).
  Proof.
    intros Hok. unfold decode_field. cbv zeta. apply any_eget; [|intros; cbn [dspec fst snd]; split; [lia|assumption]]. intros info _.
    assert (D : (lsize (upd (fi_index f) (default_value env (fi_type f)) l) <= lsize l)%nat).
    { pose proof (lsize_upd (fi_index f) (default_value env (fi_type f)) l 0%nat) as D.
      rewrite (dsize_default env _ We) in D. specialize (D ltac:(lia)). lia. }
    destruct bz as [|b0 bz']; [cbn [dspec fst snd]; split; [lia|assumption]|]. set (bz := b0 :: bz') in *.
    destruct (fi_unpacked f).
    - apply dspec_bind. eapply dspec_weaken; [apply Hrec; assumption|]. cbn beta. intros w m e [Hm _]. apply any_slide.
      cbn [dspec fst snd]. apply lsize_upd in Hm. split; [lia|apply bytes_ok_skipn; assumption].
    - destruct (key_ret bz) as ([fnum typ] & m & e & -> & Hm & _). cbn [dbind].
      destruct (_ <? _); [cbn [dspec fst snd]; split; [lia|assumption]|]. destruct (_ <=? _); [cbn [dspec fst snd]; split; [lia|assumption]|].
      apply any_slide. cbv zeta. pose proof (bytes_ok_skipn m bz Hok) as Hok1.
      destruct e as [e|]; [cbn [dspec fst snd]; split; [lia|assumption]|]. destruct (negb _); [cbn [dspec fst snd]; split; [lia|assumption]|].
      apply any_eget; [|intros; cbn [dspec fst snd]; split; [lia|assumption]]. intros tw _. destruct (negb _); [cbn [dspec fst snd]; split; [lia|assumption]|].
      apply dspec_bind. eapply dspec_weaken; [apply Hrec; assumption|]. cbn beta. intros w m2 e [Hm2 _]. apply any_slide.
      cbn [dspec fst snd]. apply lsize_upd in Hm2. split; [lia|apply bytes_ok_skipn; assumption].
  Qed.
  Lemma size_fields : forall fs l bz last n, bytes_ok bz ->
    dspec (fun st n' e => (lsize (fst (fst st)) + n <= lsize l + n')%nat) T1 True (decode_fields env c rec fs l bz last n).
  Proof.
    induction fs as [|f fs IH]; intros l bz last n Hok; cbn [decode_fields]; [cbn [dspec fst snd]; lia|].
    apply dspec_bind. eapply dspec_weaken; [apply size_field; assumption|].
    cbn beta. intros [[l' bz'] last'] n' e (H1 & H2). cbn [fst snd] in *. destruct e as [e|]; [cbn [dspec fst snd]; lia|].
    eapply dspec_weaken; [apply IH; assumption|]. cbn beta. intros; lia.
  Qed.
  Lemma size_consume_rest : forall k bz last n,
    dspec (fun _ n' e => (n <= n')%nat) T1 True (consume_rest k bz last n).
  Proof.
    clear Hrec rec c We. induction k as [|k IH]; intros bz last n; destruct bz as [|b0 bz']; cbn [consume_rest];
      try (ret; fail); try exact I. set (bz := b0 :: bz') in *.
    destruct (key_ret bz) as ([fnum typ] & m & e & -> & Hm & _). cbn [dbind fst snd]. apply any_slide. cbv zeta.
    destruct e as [e|]; [ret|]. destruct (_ <=? _); [ret|].
    destruct (consume_any_ret typ (skipn m bz)) as (m2 & e & -> & Hm2 & _). cbn [dbind]. apply any_slide.
    destruct e as [e|]; [ret|]. eapply dspec_weaken; [apply IH|]. cbn beta. intros; lia.
  Qed.
  Lemma size_struct bz ci v0 bare : bytes_ok bz -> sized bare bz v0 (decode_struct env c rec bz ci v0 bare).
  Proof.
    intros Hok. unfold decode_struct. apply size_enter; [assumption|]. intros b n0 Hb.
    destruct (resolve env (ci_type ci)); try exact I.
    - destruct (decode_time b) as [[s ns] n e| |]; cbn [dbind]; try exact I. apply any_slide. destruct e; ret.
    - destruct v0; try exact I. apply dspec_bind. eapply dspec_weaken; [apply size_fields; assumption|].
      cbn beta. intros [[l' bz'] last'] n' e H. cbn [fst snd] in *. unfold lsize in H. destruct e as [e|]; [ret|].
      apply dspec_bind. eapply dspec_weaken; [apply size_consume_rest|]. cbn beta. intros; ret.
  Qed.
  Lemma size_switch bz info v0 o bare : bytes_ok bz -> sized bare bz v0 (decode_switch env c rec bz info v0 o bare).
  Proof.
    intros Hok. unfold decode_switch. destruct (resolve env (ti_type info)); try exact I.
    - apply size_prim; assumption.
    - destruct info; [apply size_struct; assumption | exact I].
    - destruct (is_uint8 env e); [apply size_byte_array; assumption | apply size_array; assumption].
    - destruct (is_uint8 env e); [apply size_byte_slice_val; assumption | apply size_slice; assumption].
    - destruct info; [exact I | apply size_interface; assumption].
    - destruct info; [apply size_struct; assumption | exact I].
  Qed.
End Size.

Theorem decode_sized env c : wf_env env -> env_nogrow env -> forall fuel bz info t v0 o bare, bytes_ok bz ->
  sized bare bz v0 (decode_reflect fuel env c bz info t v0 o bare).
Proof.
  intros We Hg. induction fuel as [|k IH]; intros bz info t v0 o bare Hok; cbn [decode_reflect]; [exact I|].
  assert (G : sized bare bz v0 (dmap (rebuild t)
            (let w0 := base_of env t v0 in
             match info with
             | TIConc {| ci_type := ct; ci_unmarshal := Some r |} =>
                 eget (get_type_info env c r) (fun e => DRet w0 0 (Some e)) (fun rinfo =>
                 dbind (decode_reflect k env c bz rinfo r (zero env r) o bare) (fun rv n e =>
                 slide bz n (fun _ =>
                 match e with
                 | Some e => DRet w0 n (Some e)
                 | None => eget (from_repr env ct w0 rv) (fun e => DRet w0 n (Some e))
                                (fun r => DRet (fst r) n (snd r))
                 end)))
             | _ => decode_switch env c (decode_reflect k env c) bz info w0 o bare
             end))).
  { unfold sized, dmap. apply dspec_bind. cbv zeta.
    assert (L : sized bare bz (base_of env t v0) (match info with
             | TIConc {| ci_type := ct; ci_unmarshal := Some r |} =>
                 eget (get_type_info env c r) (fun e => DRet (base_of env t v0) 0 (Some e)) (fun rinfo =>
                 dbind (decode_reflect k env c bz rinfo r (zero env r) o bare) (fun rv n e =>
                 slide bz n (fun _ =>
                 match e with
                 | Some e => DRet (base_of env t v0) n (Some e)
                 | None => eget (from_repr env ct (base_of env t v0) rv) (fun e => DRet (base_of env t v0) n (Some e))
                                (fun r => DRet (fst r) n (snd r))
                 end)))
             | _ => decode_switch env c (decode_reflect k env c) bz info (base_of env t v0) o bare
             end)).
    { assert (S : sized bare bz (base_of env t v0) (decode_switch env c (decode_reflect k env c) bz info (base_of env t v0) o bare))
        by (apply size_switch; assumption).
      destruct info as [[ct fs m [r|] rg]|ii]; try exact S.
      unfold sized. apply any_eget; [|intros; cbn; split; [lia|discriminate]]. intros rinfo _.
      apply dspec_bind. eapply dspec_weaken; [apply IH; assumption|]. cbn beta. intros rv n e [Hn Hp]. apply any_slide.
      rewrite dsize_zero in * by assumption.
      destruct e as [e|]; [cbn; split; [lia|discriminate]|].
      apply any_eget; [|intros; cbn; split; [lia|discriminate]]. intros [v e] Hv. cbn [dspec fst snd].
      assert (D : (dsize v <= dsize (base_of env t v0) + dsize rv)%nat).
      { unfold from_repr in Hv. destruct ct; try discriminate. destruct (te_unmarshal env id) as [[|rr g]|] eqn:E; try discriminate.
        eapply Hg; eassumption. }
      split; [lia|]. intros. specialize (Hp eq_refl H0 H1). lia. }
    eapply dspec_weaken; [exact L|]. cbn beta. intros v n e [H1 H2]. cbn [dspec]. unfold rebuild. rewrite dsize_wrap.
    pose proof (dsize_base env t We v0). split; [lia|]. intros. specialize (H2 H0 H3 H4). lia. }
  destruct info, t; try exact G; exact I.
Qed.

Lemma unmarshal_sized env c : wf_env env -> env_msgs env -> env_nogrow env -> forall fuel bz t v0 v e, bytes_ok bz ->
  unmarshal_bare fuel env c bz t v0 = URet v e -> (dsize v <= dsize v0 + length bz)%nat.
Proof.
  intros We Hm Hg fuel bz t v0 v e Hok H.
  pose proof (unmarshal_spec (fun v _ => (dsize v <= dsize v0 + length bz)%nat) T1 True fuel env c bz t v0) as U.
  rewrite H in U. apply U; clear U H; try (intros; exact I); [intros; lia|].
  intros info k bare _ Hk.
  pose proof (decode_good env c Hm fuel (skipn k bz) info t v0 (set_num 1 no_opts) bare (bytes_ok_skipn k bz Hok)) as G.
  pose proof (decode_sized env c We Hg fuel (skipn k bz) info t v0 (set_num 1 no_opts) bare (bytes_ok_skipn k bz Hok)) as S.
  destruct (decode_reflect _ _ _ _ _ _ _ _ _) as [w n e'| |]; try exact I. cbn in *. rewrite skipn_length in *.
  destruct G as [G _], S as [S _]. split; intros; lia.
Qed.
Lemma unmarshal_length_sized env c : wf_env env -> env_msgs env -> env_nogrow env -> forall fuel bz t v0 v e, bytes_ok bz ->
  unmarshal_length_prefixed fuel env c bz t v0 = URet v e -> (dsize v <= dsize v0 + length bz)%nat.
Proof.
  intros We Hm Hg fuel bz t v0 v e Hok. unfold unmarshal_length_prefixed. destruct bz as [|b bz].
  { intros H. inversion H. subst. lia. }
  destruct (uvarint (b :: bz)) as [u n]. set (l := b :: bz) in *.
  destruct (n <? 0); [intros H; inversion H; subst; lia|].
  destruct (_ <? u); [intros H; inversion H; subst; lia|]. destruct (u <? _); [intros H; inversion H; subst; lia|].
  intros H. apply (unmarshal_sized env c We Hm Hg) in H; [|apply bytes_ok_skipn; assumption]. rewrite skipn_length in H. lia.
Qed.
