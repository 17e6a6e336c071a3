(** Reading and writing again. *)
From Coq Require Import ZArith String List Bool Lia.
From Coq Require Import ZifyBool ZifyNat.
From Verif Require Import Base Prims SpecWire PrimFacts PrimProps Types Codec BinEnc BinDec Amino FuelFacts DecFacts
  ValueInd Typing Registry SpecRegistry RegistryFacts Sane DecSafe SpecNorm EncFacts RoundTrip TopFacts SpecSupported SupportedFacts SpecReencode.
Import ListNotations.
Local Open Scope Z_scope.
Local Open Scope amino_scope.

Lemma under_ptrs t v : under v = Some v -> under (ptrs t v) = Some v.
Proof. intros H. induction t; cbn [ptrs under]; auto. Qed.
Lemma val_ptr_ptrs t v : under v = Some v -> val_is_ptr (ptrs t v) = is_ptr t.
Proof. intros H. destruct t; try reflexivity; cbn [ptrs is_ptr]; apply (under_not_ptr v v H). Qed.
Lemma opt_map_forall2 {A B} (f : A -> option B) l l' : opt_map f l = Some l' -> Forall2 (fun x y => f x = Some y) l l'.
Proof.
  revert l'. induction l as [|x l IH]; intros l' H; cbn [opt_map] in H.
  - inversion H. constructor.
  - destruct (f x) eqn:E; [|discriminate]. destruct (opt_map f l) eqn:E'; [|discriminate]. inversion H; subst. constructor; auto.
Qed.
Lemma typed_under env t v : wf_env env -> has_type env t v = true -> deref_type t = t -> under v = Some v.
Proof. intros We H D. apply (under_nonptr env v t H); [|exact We]. rewrite <- D. apply deref_is_ptr. Qed.

(** Values that take no room at some depth of recursion take none at greater ones. *)
Lemma blank_field_mono env (b b' : gotype -> fopts -> value -> bool) t o v : (forall t o v, b t o v = true -> b' t o v = true) ->
  blank_field env b t o v = true -> blank_field env b' t o v = true.
Proof.
  intros H. unfold blank_field. destruct (_ && _); [auto|]. destruct (entries env t); [auto|]. intros X.
  apply andb_true_iff in X. destruct X as [X1 X2]. rewrite X1. apply H. exact X2.
Qed.
Lemma blank_mono env : forall k k' t o v, (k <= k')%nat -> blank k env t o v = true -> blank k' env t o v = true.
Proof.
  induction k as [|k IH]; intros k' t o v Hk; [discriminate|]. destruct k' as [|k']; [lia|]. cbn [blank].
  assert (F : forall fs num l, blank_fields env (blank k env) num fs l = true -> blank_fields env (blank k' env) num fs l = true).
  { induction fs as [|f fs IHf]; intros num l; [destruct l; auto|]. destruct l as [|x l]; [auto|]. cbn [blank_fields].
    destruct (field_opts num f); [|apply IHf]. intros X. apply andb_true_iff in X. destruct X as [X1 X2]. rewrite (IHf _ _ X2), andb_true_r.
    revert X1. apply blank_field_mono. intros; apply IH; [lia|assumption]. }
  assert (P : forall X Y : bool, X = Y -> X = true -> Y = true) by congruence.
  assert (Q : match resolve env t, v with
        | RPrim p, _ => blank_prim p o v
        | RTime, VTime s ns => (s =? 0) && (ns =? 0)
        | RArray _ e, VArr [] | RSlice e, VSlice (None | Some []) => negb (is_list env e)
        | RStruct fs, VStruct l => blank_fields env (blank k env) 1 fs l
        | RIface _, VIface None => true
        | _, _ => false
        end = true -> match resolve env t, v with
        | RPrim p, _ => blank_prim p o v
        | RTime, VTime s ns => (s =? 0) && (ns =? 0)
        | RArray _ e, VArr [] | RSlice e, VSlice (None | Some []) => negb (is_list env e)
        | RStruct fs, VStruct l => blank_fields env (blank k' env) 1 fs l
        | RIface _, VIface None => true
        | _, _ => false
        end = true).
  { destruct (resolve env t); auto. destruct v; auto. }
  destruct t; try exact Q. destruct (te_marshal env id) as [[|r f]|]; try exact Q. destruct (f v); auto. apply IH; lia.
Qed.
Lemma ele_ok {A} (a b : eres A) x : ele a b -> a = EOk x -> b = EOk x.
Proof. intros [->| ->]; [discriminate|auto]. Qed.

Section Re.
  Variable env : tenv.
  Hypothesis We : wf_env env.
  Variable c : codec.
  Hypothesis Hs : sane_codec env c.
  Hypothesis Hm : marshal_typed env.

  (** What a value reads back as is no pointer, and default only if the value is. *)
  Lemma norm_shape k t o v v' : deref_type t = t -> has_type env t v = true -> lasting k env c t o v -> norm k env c t o v = Some v' ->
    under v' = Some v' /\ (defaultv v' = true -> defaultv v = true).
  Proof.
    intros D Ht HL Hn. destruct k as [|k]; [discriminate|]. pose proof (typed_under _ _ _ We Ht D) as U. cbn [lasting] in HL.
    destruct (has_method env t) eqn:Em.
    { rewrite HL in Hn. inversion Hn; subst v'. split; [exact U|auto]. }
    cbn [norm] in Hn.
    assert (P : match resolve env t, v with
        | RPrim PFloat32, VFloat b => Some (VFloat (quiet32 b))
        | RPrim _, _ | RTime, _ => Some v
        | RArray _ e, VArr l =>
            if is_uint8 env e then (if gotype_eqb e (TPrim PUint8) then Some v else None)
            else if is_list env e then None
            else norm_list env c (blank k env) (fixed_width k env) (norm k env c) t o v
        | RSlice e, VSlice ol =>
            if is_uint8 env e then
              match ol with
              | None | Some [] => Some (VSlice None)
              | _ => if gotype_eqb e (TPrim PUint8) then Some v else None
              end
            else if is_list env e then None
            else norm_list env c (blank k env) (fixed_width k env) (norm k env c) t o v
        | RStruct fs, VStruct l =>
            option_map VStruct (norm_fields env c (blank k env) (fixed_width k env) (norm k env c) 1 fs l)
        | RIface i, VIface (Some (ct, cv)) => norm_iface env c (norm k env c) i o ct cv
        | _, _ => None
        end = Some v').
    { destruct t; try exact Hn. unfold has_method in Em. destruct (te_marshal env id) as [[]|], (te_unmarshal env id) as [[]|]; try discriminate Em. exact Hn. }
    clear Hn. destruct (resolve env t) as [p| |n e|e| | | | |i|fs|] eqn:Er; try discriminate P.
    - destruct p; try (inversion P; subst; split; [exact U|auto]). destruct v; inversion P; subst; try (split; [exact U|auto]). split; [reflexivity|discriminate].
    - inversion P; subst; split; [exact U|auto].
    - destruct v; try discriminate P. destruct (is_uint8 env e); [destruct (gotype_eqb _ _); inversion P; subst; split; [reflexivity|auto]|].
      destruct (is_list env e); [discriminate|]. unfold norm_list in P. rewrite Er in P. destruct (norm_elems _ _ _ _ _ _ _); inversion P; subst. split; [reflexivity|discriminate].
    - destruct v as [| | | | | | |ol| | | | | | |]; try discriminate P. destruct (is_uint8 env e).
      { destruct ol as [[|x l]|]; [inversion P; subst; split; reflexivity| |inversion P; subst; split; reflexivity].
        destruct (gotype_eqb _ _); inversion P; subst; split; [reflexivity|auto]. }
      destruct (is_list env e); [discriminate|]. unfold norm_list in P. rewrite Er in P. destruct ol as [l|].
      + destruct (known env c e); [|discriminate]. destruct (norm_elems env (blank k env) (fixed_width k env) (norm k env c) e o l) as [l'|] eqn:El; [|discriminate]. inversion P; subst.
        unfold norm_elems in El. apply opt_map_forall2 in El. destruct l' as [|y l']; inversion El; subst; split; try reflexivity. discriminate.
      + destruct (known env c e); inversion P; subst. split; reflexivity.
    - destruct v as [| | | | | | | | | |[[ct cv]|]| | | |]; try discriminate P. unfold norm_iface in P.
      destruct (registered c _); [|discriminate]. destruct (under cv); [|discriminate]. destruct (_ && _); [|discriminate].
      destruct (norm k env c _ _ _); inversion P; subst. split; [reflexivity|discriminate].
    - destruct v; try discriminate P. destruct (norm_fields _ _ _ _ _ _ _ _); inversion P; subst. split; [reflexivity|discriminate].
  Qed.

  Definition re_ok (k : nat) (enc : tinfo -> value -> fopts -> bool -> eres bytes) : Prop :=
    forall info t v o bare bz v' bz', minfo env c info t -> deref_type t = t -> has_type env t v = true -> 0 <= fo_num o ->
    enc info v o bare = EOk bz -> zlen bz < 2 ^ 63 -> norm k env c t o v = Some v' -> lasting k env c t o v ->
    enc info v' o bare = EOk bz' -> zlen bz' < 2 ^ 63 -> bz' = bz.

  Section Step.
  Variable k : nat.
  Let enc := encode_reflect k env c.
  Let bl := blank k env.
  Let fw := fixed_width k env.
  Let nm := norm k env c.
  Let la := lasting k env c.
  Hypothesis IH : re_ok k enc.

  Lemma zlen_app_l (a b : bytes) : zlen (a ++ b) < 2 ^ 63 -> zlen a < 2 ^ 63 /\ zlen b < 2 ^ 63.
  Proof. clear. rewrite zlen_app. pose proof (zlen_nonneg a). pose proof (zlen_nonneg b). lia. Qed.

  (** An empty entry is a zero byte. *)
  Lemma empty_zero j e einfo o v x : minfo env c einfo e -> has_type env e v = true -> 0 <= fo_num o ->
    empty_entry (blank j env) e o v = true -> zlen x < 2 ^ 63 ->
    (let '(erv, isdef) := is_default_value v in
     if isdef then (if is_ptr e && is_struct env (ti_type einfo) && fo_empty_elements o
                    then EErr "nil struct pointers not supported when empty_elements field tag is set"%string else EOk (encode_byte 0))
     else enc einfo erv o false) = EOk x -> x = [0].
  Proof.
    intros Hi Ht Hn He Hz H. rewrite default_pair in H. unfold empty_entry in He. destruct (defaultv v) eqn:Dv.
    - destruct (_ && _); [discriminate|]. apply EOk_inj in H. subst x. reflexivity.
    - cbn [orb] in He. destruct (under v) as [w|] eqn:U; [|apply under_default in U; congruence].
      pose proof (under_typed _ We _ _ _ Ht U) as Hw. unfold enc in H.
      apply (ele_ok _ _ _ (encode_fuel_mono env c k (max k j) einfo w o false ltac:(lia))) in H.
      destruct (encode_lead env We c Hs Hm (max k j) einfo (deref_type e) w o x (minfo_deref _ _ _ _ Hi) (deref_idem e) Hw Hn H Hz) as [L _].
      apply L. revert He. apply blank_mono. lia.
  Qed.

  Lemma entry_re e einfo o v v' x x' : minfo env c einfo e -> has_type env e v = true ->
    norm_entry env bl fw nm e o v = Some v' -> lasting_entry env bl la e o v ->
    (let '(erv, isdef) := is_default_value v in
     if isdef then (if is_ptr e && is_struct env (ti_type einfo) && fo_empty_elements o
                    then EErr "nil struct pointers not supported when empty_elements field tag is set"%string else EOk (encode_byte 0))
     else enc einfo erv (set_num 1 o) false) = EOk x ->
    (let '(erv, isdef) := is_default_value v' in
     if isdef then (if is_ptr e && is_struct env (ti_type einfo) && fo_empty_elements o
                    then EErr "nil struct pointers not supported when empty_elements field tag is set"%string else EOk (encode_byte 0))
     else enc einfo erv (set_num 1 o) false) = EOk x' ->
    zlen x < 2 ^ 63 -> zlen x' < 2 ^ 63 -> x' = x.
  Proof.
    intros Hi Ht Hn HL H H' Hz Hz'. unfold norm_entry in Hn. unfold lasting_entry in HL. cbv zeta in *.
    rewrite (minfo_type _ _ _ _ Hi) in *. set (keep := is_ptr e && is_struct env (deref_type e) && fo_empty_elements o) in *.
    assert (Z1 : empty_entry bl e (set_num 1 o) v = true -> x = [0]).
    { intros E. eapply (empty_zero k e einfo (set_num 1 o) v); try eassumption; [cbn; lia|]. rewrite (minfo_type _ _ _ _ Hi). exact H. }
    assert (AB : empty_entry bl e (set_num 1 o) v = true -> keep = false -> v' = absent env e -> x' = x).
    { intros E K ->. rewrite E, K in HL. cbn [andb negb] in HL. destruct HL as [j HL]. rewrite (Z1 E).
      eapply (empty_zero j e einfo (set_num 1 o) (absent env e)); try eassumption.
      - rewrite absent_eq. apply has_type_default; assumption.
      - cbn; lia.
      - rewrite (minfo_type _ _ _ _ Hi). exact H'. }
    rewrite default_pair in H, H'. destruct (defaultv v) eqn:Dv.
    { destruct keep eqn:K; [discriminate|]. apply AB; [unfold empty_entry; rewrite Dv; reflexivity|reflexivity|congruence]. }
    destruct (under v) as [w|] eqn:U; [|discriminate]. pose proof (under_typed _ We _ _ _ Ht U) as Hw.
    destruct (negb keep && bl (deref_type e) (set_num 1 o) w) eqn:B.
    { apply andb_true_iff in B. destruct B as [B1 B2]. apply AB; [unfold empty_entry; rewrite Dv, U; exact B2|destruct keep; [discriminate|reflexivity]|congruence]. }
    destruct (negb keep && fw _ _); [discriminate|]. destruct (is_ptr e && is_iface (deref_type e)); [discriminate|].
    destruct (nm (deref_type e) (set_num 1 o) w) as [w'|] eqn:Ew; [|discriminate]. cbn in Hn. inversion Hn; subst v'. clear Hn.
    assert (LW : la (deref_type e) (set_num 1 o) w).
    { unfold empty_entry in HL. rewrite Dv, U in HL. cbn [orb] in HL. rewrite andb_comm in HL. rewrite B in HL. exact HL. }
    destruct (norm_shape k _ _ _ _ (deref_idem e) Hw LW Ew) as [U' D'].
    rewrite ptrs_default, (under_ptrs _ _ U') in H'. destruct (defaultv w') eqn:Dw'.
    { specialize (D' eq_refl). rewrite (under_defaultv _ _ U) in D'. congruence. }
    eapply (IH einfo (deref_type e) w (set_num 1 o) false x w' x'); try eassumption; [apply minfo_deref; exact Hi|apply deref_idem|cbn; lia].
  Qed.

  Lemma unpacked_re e einfo o : minfo env c einfo e -> forall l l' b b',
    Forall2 (fun v v' => norm_entry env bl fw nm e o v = Some v') l l' -> Forall (lasting_entry env bl la e o) l ->
    forallb (has_type env e) l = true ->
    encode_unpacked env enc e einfo l o = EOk b -> encode_unpacked env enc e einfo l' o = EOk b' ->
    zlen b < 2 ^ 63 -> zlen b' < 2 ^ 63 -> b' = b.
  Proof.
    intros Hi l l' b b' F. revert b b'. induction F as [|v v' l l' N F IHF]; intros b b' HL Ht H H' Hz Hz'; cbn [encode_unpacked] in H, H'.
    - congruence.
    - einv H. rename a into key. rewrite E in H'. cbn [ebind] in H'. inversion HL as [|? ? L1 L2]; subst. cbn [forallb] in Ht. apply andb_true_iff in Ht. destruct Ht as [T1 T2].
      destruct (is_default_value v) as [erv isdef] eqn:Dv. einv H. einv H. apply EOk_inj in H. subst b.
      destruct (is_default_value v') as [erv' isdef'] eqn:Dv'. einv H'. einv H'. apply EOk_inj in H'. subst b'.
      apply zlen_app_l in Hz. destruct Hz as [_ Hz]. apply zlen_app_l in Hz. apply zlen_app_l in Hz'. destruct Hz' as [_ Hz']. apply zlen_app_l in Hz'.
      rewrite (IHF a0 a2); try tauto. f_equal. f_equal.
      eapply (entry_re e einfo o v v' a a1); try eassumption; try tauto; [rewrite Dv|rewrite Dv']; assumption.
  Qed.

  Lemma zero_default t w : delimited env t = false -> deref_type t = t -> has_type env t w = true -> defaultv w = true -> w = zero env t.
  Proof.
    clear - We. intros Hdl Hd Ht Dw. unfold delimited in Hdl. rewrite Hd in Hdl.
    assert (G : forall u, resolve env t = resolve env u -> zero env t = zero env u -> (forall id, u <> TNamed id) -> w = zero env t).
    { intros u Er Ez Hu. rewrite Ez. rewrite (has_type_res env t u w Er) in Ht. rewrite Er in Hdl.
      assert (Hp : is_ptr u = false \/ exists e, u = TPtr e) by (destruct u; eauto).
      destruct Hp as [Hp|[e ->]].
      - destruct u; try discriminate Hp; cbn [resolve] in Hdl; try discriminate Hdl.
        + rewrite (has_type_prim env (TPrim p) p w eq_refl) in Ht. cbn [zero]. destruct p, w; try discriminate; cbn [defaultv] in Dw; try (apply Z.eqb_eq in Dw; subst); try reflexivity; try congruence.
        + cbn [has_type] in Ht. destruct w; try discriminate. cbn [defaultv] in Dw. destruct isnil; [reflexivity|discriminate].
        + cbn [has_type] in Ht. destruct w; try discriminate.
        + exfalso. apply (Hu id). reflexivity.
      - cbn [resolve] in Er. apply (resolve_ptr env _ _ We) in Er. subst t. cbn [deref_type] in Hd. pose proof (deref_is_ptr e) as Q. rewrite Hd in Q. discriminate. }
    destruct t; try (apply (G _ eq_refl eq_refl); discriminate).
    destruct (te_def env id) as [fs|u] eqn:Ed.
    - cbn [resolve] in Hdl. rewrite Ed in Hdl. discriminate.
    - apply (G u).
      + apply resolve_utype; assumption.
      + cbn [zero]. rewrite (we_zero _ We), Ed. reflexivity.
      + intros id' ->. pose proof (we_def _ We id) as B. cbn [resolve] in B. rewrite Ed in B. congruence.
  Qed.

  Lemma packed_one_re e einfo o v v' x x' : minfo env c einfo e -> has_type env e v = true -> delimited env e = false -> 0 <= fo_num o ->
    norm_packed env nm e o v = Some v' -> lasting_packed env la e o v ->
    enc einfo (deref_pointers_zero env e v) o false = EOk x -> enc einfo (deref_pointers_zero env e v') o false = EOk x' ->
    zlen x < 2 ^ 63 -> zlen x' < 2 ^ 63 -> x' = x.
  Proof.
    intros Hi Ht Hdl Hnum Hn HL H H' Hz Hz'. unfold norm_packed in Hn. unfold lasting_packed in HL. rewrite deref_zero_under in H, H'.
    pose proof (packed_typed env We e v Ht) as Hw.
    set (w := match under v with Some w => w | None => zero env (deref_type e) end) in *.
    destruct (nm (deref_type e) o w) as [w'|] eqn:Ew; [|discriminate]. inversion Hn; subst v'. clear Hn.
    destruct (norm_shape k _ _ _ _ (deref_idem e) Hw HL Ew) as [U' D'].
    assert (X : match under (if is_ptr e && defaultv w' then VPtr None else ptrs e w') with Some w => w | None => zero env (deref_type e) end = w').
    { destruct (is_ptr e && defaultv w') eqn:B; [|rewrite (under_ptrs _ _ U'); reflexivity]. cbn [under]. apply andb_true_iff in B. destruct B as [_ B]. symmetry.
      apply zero_default; try assumption; try apply deref_idem.
      - unfold delimited in *. rewrite deref_idem. exact Hdl.
      - specialize (D' B). unfold nm in Ew. destruct k as [|k']; [discriminate|]. cbn [lasting] in HL. unfold la in HL. cbn [lasting] in HL.
        destruct (has_method env (deref_type e)) eqn:Em; [rewrite HL in Ew; inversion Ew; subst w'; exact Hw|].
        cbn [norm] in Ew. unfold delimited in Hdl. 
        assert (P : match resolve env (deref_type e), w with
          | RPrim PFloat32, VFloat b => Some (VFloat (quiet32 b))
          | RPrim _, _ => Some w
          | _, _ => None
          end = Some w').
        { unfold has_method in Em. destruct (deref_type e); try (destruct (resolve env _) as [[]| | | | | | | | | |]; try discriminate; exact Ew).
          destruct (te_marshal env id) as [[]|], (te_unmarshal env id) as [[]|]; try discriminate Em.
          destruct (resolve env _) as [[]| | | | | | | | | |]; try discriminate; exact Ew. }
        destruct (resolve env (deref_type e)) as [[]| | | | | | | | | |]; try discriminate; try (inversion P; subst; exact Hw).
        destruct w; inversion P; subst; try exact Hw. discriminate B. }
    rewrite X in H'. eapply (IH einfo (deref_type e) w o false x w' x'); try eassumption; [apply minfo_deref; exact Hi|apply deref_idem].
  Qed.

  Lemma packed_re e einfo o : minfo env c einfo e -> delimited env e = false -> 0 <= fo_num o -> forall l l' b b',
    Forall2 (fun v v' => norm_packed env nm e o v = Some v') l l' -> Forall (lasting_packed env la e o) l ->
    forallb (has_type env e) l = true ->
    encode_packed env enc e einfo l o = EOk b -> encode_packed env enc e einfo l' o = EOk b' ->
    zlen b < 2 ^ 63 -> zlen b' < 2 ^ 63 -> b' = b.
  Proof.
    intros Hi Hd Hn l l' b b' F. revert b b'. induction F as [|v v' l l' N F IHF]; intros b b' HL Ht H H' Hz Hz'; cbn [encode_packed] in H, H'.
    - congruence.
    - inversion HL as [|? ? L1 L2]; subst. cbn [forallb] in Ht. apply andb_true_iff in Ht. destruct Ht as [T1 T2].
      einv H. einv H. apply EOk_inj in H. subst b. einv H'. einv H'. apply EOk_inj in H'. subst b'.
      apply zlen_app_l in Hz. apply zlen_app_l in Hz'. rewrite (IHF a0 a2); try tauto. f_equal.
      eapply (packed_one_re e einfo o v v' a a1); try eassumption; tauto.
  Qed.

  (** The elements of a list and of what it reads as. *)
  Lemma norm_list_elems t e o v v' l : elem_type env t = Some e -> norm_list env c bl fw nm t o v = Some v' -> list_elems v = Some l ->
    exists l', list_elems v' = Some l' /\ norm_elems env bl fw nm e o l = Some l' /\ under v' = Some v' /\
      (defaultv v' = true <-> defaultv v = true).
  Proof.
    unfold elem_type, norm_list. intros He Hn Hl. destruct (resolve env t); try discriminate; inversion He; subst.
    - destruct v; try discriminate. cbn [list_elems] in Hl. inversion Hl; subst. destruct (norm_elems _ _ _ _ _ _ _) as [l'|]; inversion Hn; subst.
      exists l'. split; [reflexivity|]. split; [reflexivity|]. split; [reflexivity|]. split; discriminate.
    - destruct v as [| | | | | | |[l0|]| | | | | | |]; try discriminate; cbn [list_elems] in Hl; inversion Hl; subst; destruct (known env c e); try discriminate.
      + destruct (norm_elems env bl fw nm e o l) as [l'|] eqn:El; inversion Hn; subst. exists l'. unfold norm_elems in El. apply opt_map_forall2 in El.
        destruct El; cbn; (split; [reflexivity|split; [reflexivity|split; [reflexivity|tauto]]]).
      + inversion Hn; subst. exists []. cbn. (split; [reflexivity|split; [reflexivity|split; [reflexivity|tauto]]]).
  Qed.

  Lemma list_re info t e o v v' bare b b' : minfo env c info t -> deref_type t = t -> has_type env t v = true -> 0 <= fo_num o ->
    elem_type env t = Some e -> norm_list env c bl fw nm t o v = Some v' -> lasting_elems env bl la e o v ->
    encode_list env c enc info v o bare = EOk b -> encode_list env c enc info v' o bare = EOk b' ->
    zlen b < 2 ^ 63 -> zlen b' < 2 ^ 63 -> b' = b.
  Proof.
    intros Hi Hd Ht Hnum Ee Hn HL H H' Hz Hz'.
    apply encode_list_inv in H. destruct H as (e1 & einfo & l & buf & A1 & A2 & A3 & A4 & A5 & [z A6] & A7).
    apply encode_list_inv in H'. destruct H' as (e2 & einfo2 & l2 & buf2 & B1 & B2 & B3 & B4 & B5 & _ & B7).
    rewrite (minfo_type _ _ _ _ Hi), Hd, Ee in A1, B1. inversion A1; subst e1. inversion B1; subst e2. rewrite A3 in B3. inversion B3; subst einfo2. clear A1 B1 B3.
    specialize (A7 z A6). specialize (B7 z A6). pose proof (gti_minfo _ _ _ _ Hs A3) as Hie. rewrite (typ3_elem env c _ _ _ _ Hie A6) in A7, B7.
    destruct (norm_list_elems _ _ _ _ _ _ Ee Hn A4) as (l' & C1 & C2 & _ & _). rewrite C1 in B4. inversion B4; subst l2. clear B4.
    pose proof (elem_typed _ _ _ _ _ Ee Ht A4) as Hl. unfold norm_elems in C2. apply opt_map_forall2 in C2.
    assert (HL' : Forall (if delimited env e then lasting_entry env bl la e o else lasting_packed env la e o) l).
    { unfold lasting_elems in HL. destruct v as [| | | | | |l0|[l0|]| | | | | | |]; cbn [list_elems] in A4; try discriminate; inversion A4; subst; exact HL. }
    assert (L : forall buf, zlen (finish bare buf) < 2 ^ 63 -> zlen buf < 2 ^ 63).
    { intros x X. destruct bare; cbn [finish] in X; [exact X|]. pose proof (zlen_byte_slice x). lia. }
    subst b b'. apply L in Hz. apply L in Hz'. f_equal. destruct (delimited env e) eqn:Ed.
    - eapply unpacked_re; eassumption.
    - eapply packed_re; eassumption.
  Qed.

  Lemma field_re f v v' b b' : has_type env (fi_type f) v = true -> fi_unpacked f = entries env (fi_type f) -> 0 <= fo_num (fi_opts f) ->
    norm_field env c bl fw nm (fi_type f) (fi_opts f) v = Some v' -> lasting_field env bl la (fi_type f) (fi_opts f) v ->
    encode_field env c enc f v = EOk b -> encode_field env c enc f v' = EOk b' -> zlen b < 2 ^ 63 -> zlen b' < 2 ^ 63 -> b' = b.
  Proof.
    intros Ht Hup Hnum Hn HL H H' Hz Hz'. unfold norm_field in Hn. unfold lasting_field in HL.
    set (t := fi_type f) in *. set (o := fi_opts f) in *.
    assert (AB : entries env t = false -> blank_field env bl t o v = true -> v' = absent env t -> b' = b).
    { intros En B ->. rewrite En, B in HL. destruct HL as [j HL].
      destruct (field_lead env We c Hs enc bl fw nm (encode_lead env We c Hs Hm k) (blank_num env k) f v b Ht Hup Hnum H Hz) as [L1 _].
      set (m := max k j).
      assert (H2 : encode_field env c (encode_reflect m env c) f (absent env t) = EOk b').
      { eapply ele_ok; [|exact H']. apply ele_field; [apply codec_equiv_refl|]. intros. apply encode_mono; [apply codec_equiv_refl|lia|assumption]. }
      destruct (field_lead env We c Hs (encode_reflect m env c) (blank m env) (fixed_width m env) (norm m env c) (encode_lead env We c Hs Hm m) (blank_num env m) f (absent env t) b') as [L2 _]; try assumption.
      { rewrite absent_eq. apply has_type_default; assumption. }
      rewrite (L1 B), L2; [reflexivity|]. revert HL. apply blank_field_mono. intros u p q. apply blank_mono. lia. }
    unfold encode_field in H, H'. fold t o in H, H'. einv H. rewrite E in H'. cbn [ebind] in H'. rename a into info. pose proof (gti_minfo _ _ _ _ Hs E) as Hi.
    rewrite default_pair in H, H'. rewrite Hup in H, H'. unfold blank_field in AB.
    destruct (entries env t) eqn:Een.
    - clear AB. destruct (has_method env t); [discriminate|]. destruct (entries_elem _ _ Een) as (e & Ee & Ed & Eu).
      pose proof (elem_nonptr _ _ _ Ee) as Np. rewrite (under_nonptr env _ _ Ht Np We) in H.
      assert (HLe : lasting_elems env bl la e o v) by (unfold elem_type in Ee; destruct (resolve env t); try discriminate; inversion Ee; subst; exact HL).
      destruct (list_elems v) as [l|] eqn:El.
      2:{ exfalso. unfold norm_list, elem_type in *. destruct (resolve env t); try discriminate; destruct v as [| | | | | | |[|]| | | | | | |]; discriminate. }
      destruct (norm_list_elems _ _ _ _ _ _ Ee Hn El) as (l' & C1 & C2 & C3 & C4). rewrite C3 in H'.
      assert (Edef : defaultv v' = defaultv v) by (destruct (defaultv v'), (defaultv v); try reflexivity; [symmetry; tauto|tauto]).
      rewrite Edef in H'. destruct (defaultv v && negb (fo_write_empty o)); [congruence|].
      eapply (list_re info t e o v v' true b b'); try eassumption. apply deref_nonptr; assumption.
    - destruct (defaultv v && negb (fo_write_empty o)) eqn:Dd.
      { apply AB; [reflexivity|reflexivity|congruence]. }
      destruct (under v) as [w|] eqn:U; [|discriminate]. pose proof (under_typed _ We _ _ _ Ht U) as Hw.
      destruct (negb (fo_write_empty o) && negb (is_ptr t) && bl t o w) eqn:B.
      { assert (w = v).
        { destruct (is_ptr t) eqn:Ep; [rewrite andb_false_r in B; discriminate|]. rewrite (under_nonptr env _ _ Ht Ep We) in U. congruence. }
        subst w. apply AB; [reflexivity|exact B|congruence]. }
      destruct (is_ptr t && is_iface (deref_type t)); [discriminate|]. destruct (nm (deref_type t) o w) as [w'|] eqn:Ew; [|discriminate].
      cbn in Hn. inversion Hn; subst v'. clear Hn.
      assert (LW : la (deref_type t) o w).
      { unfold blank_field in HL. rewrite Een, Dd in HL.
        replace (negb (fo_write_empty o) && negb (is_ptr t) && bl t o v) with false in HL; [exact HL|].
        destruct (is_ptr t) eqn:Ep; [rewrite andb_false_r; reflexivity|]. rewrite (under_nonptr env _ _ Ht Ep We) in U. inversion U; subst. symmetry; exact B. }
      destruct (norm_shape k _ _ _ _ (deref_idem t) Hw LW Ew) as [U' D'].
      rewrite ptrs_default, (under_ptrs _ _ U'), (val_ptr_ptrs _ _ U') in H'. rewrite (val_ptr_typed _ _ _ We Ht) in H.
      destruct (defaultv w' && negb (fo_write_empty o)) eqn:Dw'.
      { exfalso. apply andb_true_iff in Dw'. destruct Dw' as [X1 X2]. specialize (D' X1). rewrite (under_defaultv _ _ U) in D'. rewrite D', X2 in Dd. discriminate. }
      unfold write_field in H, H'. einv H. rewrite E0 in H'. cbn [ebind] in H'. einv H. rewrite E1 in H'. cbn [ebind] in H'. einv H. einv H'.
      assert (X : a2 = a1).
      { assert (L : forall x y, (if negb (fo_write_empty o || is_ptr t) && beqb x [0] then EOk [] else EOk (a0 ++ x)) = EOk y -> zlen y < 2 ^ 63 -> zlen x < 2 ^ 63).
        { intros x y P Q. destruct (negb _ && beqb x [0]) eqn:Bz.
          - apply andb_true_iff in Bz. destruct Bz as [_ Bz]. apply beqb_eq in Bz. subst x. reflexivity.
          - apply EOk_inj in P. subst y. apply zlen_app_l in Q. tauto. }
        eapply (IH info (deref_type t) w o false a1 w' a2); try eassumption; try (eapply L; eassumption); [apply minfo_deref; exact Hi|apply deref_idem]. }
      subst a2. congruence.
  Qed.

  Lemma fields_re : forall fs i num infos pre pre' l l' buf buf', parse_fields env fs i num = EOk infos -> length pre = i -> length pre' = i ->
    forall2b (fun f w => has_type env (sf_type f) w) fs l = true ->
    norm_fields env c bl fw nm (Z.of_nat num + 1) fs l = Some l' -> lasting_fields env bl la (Z.of_nat num + 1) fs l ->
    encode_fields env c enc infos (pre ++ l) = EOk buf -> encode_fields env c enc infos (pre' ++ l') = EOk buf' ->
    zlen buf < 2 ^ 63 -> zlen buf' < 2 ^ 63 -> buf' = buf.
  Proof.
    induction fs as [|f fs IHf]; intros i num infos pre pre' l l' buf buf' Hp Hl Hl' Ht Hn HL H H' Hz Hz'; destruct l as [|v l]; try discriminate Ht; cbn [norm_fields] in Hn.
    - inversion Hn; subst l'. cbn [parse_fields] in Hp. apply EOk_inj in Hp. subst infos. cbn [encode_fields] in *. congruence.
    - cbn [forall2b] in Ht. apply andb_true_iff in Ht. destruct Ht as [Hv Ht]. cbn [lasting_fields] in HL.
      apply parse_step in Hp. destruct (field_opts (Z.of_nat num + 1) f) as [o|] eqn:Eo.
      + destruct Hp as (fi & rest & -> & Hix & Hty & Hup & Hopts & _ & Hp). destruct HL as [HL1 HL2].
        destruct (Z.leb_spec (2 ^ 29) (Z.of_nat num + 1)); [discriminate|].
        destruct (norm_field env c bl fw nm (sf_type f) o v) as [v'|] eqn:N1; [|discriminate].
        replace (Z.of_nat num + 1 + 1) with (Z.of_nat (S num) + 1) in * by lia.
        destruct (norm_fields env c bl fw nm (Z.of_nat (S num) + 1) fs l) as [r|] eqn:N2; [|discriminate]. inversion Hn; subst l'. clear Hn.
        cbn [encode_fields] in H, H'. einv H. einv H. einv H'. einv H'. apply EOk_inj in H. apply EOk_inj in H'. subst buf buf'. rewrite Hix in E, E1.
        replace (nth i (pre ++ v :: l) VInvalid) with v in E by (rewrite <- Hl; symmetry; apply nth_mid).
        replace (nth i (pre' ++ v' :: r) VInvalid) with v' in E1 by (rewrite <- Hl'; symmetry; apply nth_mid).
        assert (Nm : fo_num o = Z.of_nat num + 1).
        { unfold field_opts in Eo. destruct (sf_exported f); [|discriminate]. destruct (parse_field_options f); inversion Eo. reflexivity. }
        assert (Eopts : fi_opts fi = o).
        { rewrite Hopts. replace (u32 (Z.of_nat num + 1)) with (fo_num o); [apply set_num_id|]. unfold u32, uwrap. rewrite Z.mod_small; lia. }
        apply zlen_app_l in Hz. apply zlen_app_l in Hz'.
        f_equal.
        * eapply (field_re fi v v' a a1); try eassumption; try tauto; rewrite ?Hty, ?Eopts; try assumption. lia.
        * eapply (IHf (S i) (S num) rest (pre ++ [v]) (pre' ++ [v'])); try eassumption; try tauto; try (rewrite app_length; cbn; lia); rewrite <- app_assoc; assumption.
      + destruct (norm_fields env c bl fw nm (Z.of_nat num + 1) fs l) as [r|] eqn:N2; [|discriminate]. cbn in Hn. inversion Hn; subst l'. clear Hn.
        eapply (IHf (S i) num infos (pre ++ [v]) (pre' ++ [zero env (sf_type f)])); try eassumption; try (rewrite app_length; cbn; lia); rewrite <- app_assoc; assumption.
  Qed.
  End Step.

  Lemma iface_enc rec ii ct cv o bare bz : encode_interface env c rec ii (VIface (Some (ct, cv))) o bare = EOk bz ->
    exists w ci r body, under cv = Some w /\ get_type_info env c (deref_type ct) = EOk (TIConc ci) /\ ci_reg ci = Some r /\
      rec (TIConc ci) w o true = EOk body /\
      bz = finish bare ((if ii_always ii || (1 <? length match assoc beqb (ri_prefix r) (ii_impls ii) with Some l => l | None => [] end)%nat
                         then 0 :: ri_disamb r else []) ++ ri_prefix r ++ body).
  Proof.
    clear. unfold encode_interface. rewrite deref_pointers_under. destruct (under cv) as [w|]; [|discriminate]. intros H.
    destruct w; try discriminate H; einv H; (destruct a as [ci|]; [|discriminate H]); (destruct (ci_reg ci) as [r|] eqn:Er; [|discriminate H]);
      cbv zeta in H; einv H; apply EOk_inj in H; eexists _, ci, r, a; splits; try eassumption; try reflexivity; symmetry; exact H.
  Qed.

  Theorem re_all : forall k, re_ok k (encode_reflect k env c).
  Proof.
    induction k as [|k IH]; intros info t v o bare bz v' bz' Hi Hd Ht Hnum H Hz Hn HL H' Hz'; [discriminate|].
    cbn [lasting] in HL. destruct (has_method env t) eqn:Em.
    { rewrite HL in Hn. inversion Hn; subst v'. congruence. }
    pose proof (minfo_type _ _ _ _ Hi) as Ety. rewrite Hd in Ety.
    assert (SW : forall u x, encode_reflect (S k) env c info u o bare = EOk x -> encode_switch env c (encode_reflect k env c) (S k) info u o bare = EOk x).
    { intros u x X. apply encode_reflect_inv in X. destruct info as [ci|ii]; [|exact X]. destruct Hi as [Hi1 Hi2]. rewrite Hd in Hi1.
      pose proof (minfo_method _ _ _ Hi1 Hi2) as M. destruct (ci_marshal ci) as [r|]; [|exact X]. destruct M as (id & f & -> & M & _).
      unfold has_method in Em. rewrite M in Em. destruct (te_unmarshal env id); discriminate. }
    apply SW in H. apply SW in H'. clear SW.
    assert (P : match resolve env t, v with
        | RPrim PFloat32, VFloat b => Some (VFloat (quiet32 b))
        | RPrim _, _ | RTime, _ => Some v
        | RArray _ e, VArr l =>
            if is_uint8 env e then (if gotype_eqb e (TPrim PUint8) then Some v else None)
            else if is_list env e then None
            else norm_list env c (blank k env) (fixed_width k env) (norm k env c) t o v
        | RSlice e, VSlice ol =>
            if is_uint8 env e then
              match ol with
              | None | Some [] => Some (VSlice None)
              | _ => if gotype_eqb e (TPrim PUint8) then Some v else None
              end
            else if is_list env e then None
            else norm_list env c (blank k env) (fixed_width k env) (norm k env c) t o v
        | RStruct fs, VStruct l =>
            option_map VStruct (norm_fields env c (blank k env) (fixed_width k env) (norm k env c) 1 fs l)
        | RIface i, VIface (Some (ct, cv)) => norm_iface env c (norm k env c) i o ct cv
        | _, _ => None
        end = Some v').
    { cbn [norm] in Hn. destruct t; try exact Hn. unfold has_method in Em. destruct (te_marshal env id) as [[]|], (te_unmarshal env id) as [[]|]; try discriminate Em. exact Hn. }
    clear Hn. unfold encode_switch in H, H'. rewrite Ety in H, H'.
    destruct (resolve env t) as [p| |n e|e| | | | |i|fs|] eqn:Er; try discriminate P.
    - destruct p; try (inversion P; subst; congruence). destruct v; inversion P; subst; try congruence.
      cbn [encode_prim] in H, H'. destruct (fo_unsafe o); [|discriminate]. apply EOk_inj in H. apply EOk_inj in H'. subst bz bz'.
      f_equal. apply f32conv_idem.
    - inversion P; subst; congruence.
    - destruct v; try discriminate P. destruct (is_uint8 env e) eqn:Eu; [destruct (gotype_eqb _ _); inversion P; subst; congruence|].
      change (is_list_kind env e) with (is_list env e) in H, H'. destruct (is_list env e); [discriminate|].
      eapply (list_re k IH info t e o); try eassumption. unfold elem_type. rewrite Er. reflexivity.
    - destruct v as [| | | | | | |ol| | | | | | |]; try discriminate P. destruct (is_uint8 env e) eqn:Eu.
      { destruct ol as [[|x l]|]; [inversion P; subst; change (val_bytes []) with (@nil Z) in H; congruence| |inversion P; subst; congruence]. destruct (gotype_eqb _ _); inversion P; subst; congruence. }
      change (is_list_kind env e) with (is_list env e) in H, H'. destruct (is_list env e); [discriminate|].
      eapply (list_re k IH info t e o); try eassumption. unfold elem_type. rewrite Er. reflexivity.
    - destruct info as [|ii]; [discriminate|]. destruct v as [| | | | | | | | | |[[ct cv]|]| | | |]; try discriminate P. unfold norm_iface in P.
      destruct (registered c _) as [ptr|] eqn:Rg; [|discriminate]. destruct (under cv) as [w|] eqn:U; [|discriminate]. destruct (_ && _); [|discriminate].
      destruct (norm k env c (deref_type ct) o w) as [w'|] eqn:Ew; [|discriminate]. inversion P; subst v'. clear P.
      apply iface_enc in H. destruct H as (w1 & ci & r & body & A1 & A2 & A3 & A4 & A5). rewrite U in A1. inversion A1; subst w1. clear A1.
      apply iface_enc in H'. destruct H' as (w2 & ci2 & r2 & body2 & B1 & B2 & B3 & B4 & B5).
      pose proof (gti_minfo _ _ _ _ Hs A2) as Hc2. pose proof (resolve_iface env t i We Er) as ->.
      cbn [has_type resolve] in Ht. apply andb_true_iff in Ht. destruct Ht as [_ Hi2].
      assert (Hw : has_type env (deref_type ct) w = true) by (eapply under_typed; [eassumption| |eassumption]; destruct ct; try exact Hi2; discriminate).
      destruct (norm_shape k _ _ _ _ (deref_idem ct) Hw HL Ew) as [U' _].
      replace (deref_type (if ptr then TPtr (deref_type ct) else deref_type ct)) with (deref_type ct) in B2 by (destruct ptr; cbn [deref_type]; rewrite deref_idem; reflexivity).
      rewrite A2 in B2. inversion B2; subst ci2. rewrite A3 in B3. inversion B3; subst r2.
      replace (under (if ptr then VPtr (Some w') else w')) with (Some w') in B1 by (destruct ptr; cbn [under]; symmetry; exact U'). inversion B1; subst w2.
      assert (L : forall x y z, zlen (finish bare (x ++ y ++ z)) < 2 ^ 63 -> zlen z < 2 ^ 63).
      { intros x y z X. assert (zlen (x ++ y ++ z) < 2 ^ 63) as Y by (destruct bare; cbn [finish] in X; [exact X|pose proof (zlen_byte_slice (x ++ y ++ z)); lia]).
        apply zlen_app_l in Y. destruct Y as [_ Y]. apply zlen_app_l in Y. tauto. }
      rewrite A5 in *. rewrite B5 in *. apply L in Hz. apply L in Hz'. f_equal. f_equal. f_equal.
      eapply (IH (TIConc ci) (deref_type ct) w o true body w' body2); try eassumption. apply deref_idem.
    - destruct info as [ci|]; [|discriminate]. cbn [ti_type] in Ety. destruct v; try discriminate P.
      destruct (norm_fields _ _ _ _ _ _ _ _) as [l'|] eqn:N; [|discriminate]. cbn in P. inversion P; subst v'. clear P.
      unfold encode_struct in H, H'. rewrite Ety, Er in H, H'. einv H. einv H'. apply EOk_inj in H. apply EOk_inj in H'. subst bz bz'.
      cbn [has_type] in Ht. rewrite Er in Ht. destruct Hi as [_ Hi]. destruct (info_ok_parts _ _ Hi) as (_ & Hpf & _). unfold parse_struct_info in Hpf. rewrite Ety, Er in Hpf.
      assert (L : forall buf, zlen (finish bare buf) < 2 ^ 63 -> zlen buf < 2 ^ 63).
      { intros x X. destruct bare; cbn [finish] in X; [exact X|]. pose proof (zlen_byte_slice x). lia. }
      f_equal. eapply (fields_re k IH fs 0%nat 0%nat (ci_fields ci) [] []); try eassumption; try reflexivity; apply L; assumption.
  Qed.
End Re.

(** ** Steady types *)
Section St.
  Variable env : tenv.
  Hypothesis We : wf_env env.
  Variable c : codec.
  Hypothesis Hc : wf_codec env c.
  Hypothesis Hs : sane_codec env c.
  Hypothesis Hm : marshal_typed env.
  Variable mem calm : gotype -> bool.
  Hypothesis Hsup : supported env c mem.
  Hypothesis Hst : steady env c mem calm.

  Lemma default_zero t v : has_type env t v = true -> defaultv v = true -> defaultv (zero env t) = true.
  Proof.
    clear - We.
    assert (G : forall u, (forall id, u <> TNamed id) -> has_type env u v = true -> defaultv v = true -> defaultv (zero env u) = true).
    { intros u Hu Ht Dv. destruct u; cbn [zero]; try reflexivity.
      - rewrite (has_type_prim env (TPrim p) p v eq_refl) in Ht. destruct p, v; try discriminate; reflexivity.
      - cbn [has_type resolve] in Ht. destruct v; discriminate.
      - cbn [has_type resolve] in Ht. destruct v; discriminate.
      - cbn [has_type resolve] in Ht. destruct v; discriminate.
      - exfalso. apply (Hu id). reflexivity. }
    destruct t; try (apply G; discriminate). intros Ht Dv. cbn [zero]. rewrite (we_zero _ We).
    destruct (te_def env id) as [fs|u] eqn:Ed.
    - destruct v; try discriminate Dv; cbn [has_type resolve] in Ht; rewrite Ed in Ht; discriminate.
    - cbn [zero_of_def]. apply G; [|rewrite <- (has_type_res env (TNamed id) u v (resolve_utype _ _ _ We Ed)); exact Ht|exact Dv].
      intros id' ->. pose proof (we_def _ We id) as B. cbn [resolve] in B. rewrite Ed in B. congruence.
  Qed.

  Lemma prim_zero t p : resolve env t = RPrim p -> zero env t = zero_prim p.
  Proof.
    clear - We. intros Hr. destruct t; cbn [resolve] in Hr; try discriminate; try (inversion Hr; subst; reflexivity).
    cbn [zero]. rewrite (we_zero _ We). destruct (te_def env id) as [fs|u] eqn:Ed; [discriminate|]. cbn [zero_of_def]. destruct u; try discriminate; inversion Hr; subst; reflexivity.
  Qed.
  Lemma iface_zero t i : resolve env t = RIface i -> zero env t = VIface None.
  Proof. clear - We. intros Hr. apply (resolve_iface _ _ _ We) in Hr. subst. reflexivity. Qed.

  Lemma blank_field_zero b t o v : has_type env t v = true ->
    blank_field env b t o v = true ->
    (fo_write_empty o = false -> is_ptr t = false -> b t o v = true -> exists j, blank j env t o (zero env t) = true) ->
    exists j, blank_field env (blank j env) t o (zero env t) = true.
  Proof.
    clear - We. intros Ht H HB. unfold blank_field in *. destruct (defaultv v && negb (fo_write_empty o)) eqn:D.
    - apply andb_true_iff in D. destruct D as [D1 D2]. exists 0%nat. rewrite (default_zero _ _ Ht D1), D2. reflexivity.
    - destruct (entries env t) eqn:En.
      + exists 0%nat. destruct (defaultv (zero env t) && _); [reflexivity|]. clear D. unfold entries in En. destruct (resolve env t) as [| |n e|e| | | | | | |] eqn:Er; try discriminate.
        * rewrite (zero_array _ _ _ _ We Er). destruct v as [| | | | | |[|x l]| | | | | | | |]; cbn [has_type] in Ht; rewrite Er in Ht; try discriminate.
          apply andb_true_iff in Ht. destruct Ht as [Ht _]. destruct n; [reflexivity|discriminate].
        * rewrite (zero_slice _ _ _ We Er). reflexivity.
      + apply andb_true_iff in H. destruct H as [H H1]. apply andb_true_iff in H. destruct H as [H2 H3].
        destruct (HB ltac:(destruct (fo_write_empty o); [discriminate|reflexivity]) ltac:(destruct (is_ptr t); [discriminate|reflexivity]) H1) as [j Hj].
        exists j. rewrite Hj, H2, H3. destruct (defaultv (zero env t) && _); reflexivity.
  Qed.

  Lemma calm_blank : forall k t o v, calm t = true -> has_type env t v = true -> blank k env t o v = true ->
    exists j, blank j env t o (zero env t) = true.
  Proof.
    induction k as [|k IH]; intros t o v Hcalm Ht H; [discriminate|].
    destruct (proj2 Hst t Hcalm) as [Hnt Hok]. destruct (has_method env t) eqn:Em; [exact (Hok _ _ _ Ht H)|].
    assert (P : match resolve env t, v with
        | RPrim p, _ => blank_prim p o v
        | RTime, VTime s ns => (s =? 0) && (ns =? 0)
        | RArray _ e, VArr [] | RSlice e, VSlice (None | Some []) => negb (is_list env e)
        | RStruct fs, VStruct l => blank_fields env (blank k env) 1 fs l
        | RIface _, VIface None => true
        | _, _ => false
        end = true).
    { cbn [blank] in H. destruct t; try exact H. unfold has_method in Em. destruct (te_marshal env id) as [[]|], (te_unmarshal env id) as [[]|]; try discriminate Em. exact H. }
    assert (R : forall j, match resolve env t, zero env t with
        | RPrim p, _ => blank_prim p o (zero env t)
        | RTime, VTime s ns => (s =? 0) && (ns =? 0)
        | RArray _ e, VArr [] | RSlice e, VSlice (None | Some []) => negb (is_list env e)
        | RStruct fs, VStruct l => blank_fields env (blank j env) 1 fs l
        | RIface _, VIface None => true
        | _, _ => false
        end = true -> exists j, blank j env t o (zero env t) = true).
    { intros j X. exists (S j). cbn [blank]. destruct t; try exact X. unfold has_method in Em. destruct (te_marshal env id) as [[]|], (te_unmarshal env id) as [[]|]; try discriminate Em. exact X. }
    destruct (resolve env t) as [p| |n e|e| | | | |i|fs|] eqn:Er; try discriminate P.
    - apply (R 0%nat). rewrite (has_type_prim _ _ _ _ Er) in Ht. rewrite (prim_zero _ _ Er). destruct p, v; try discriminate; cbn [blank_prim zero_prim] in *; try reflexivity;
      apply andb_true_iff in P; destruct P as [_ P]; rewrite P; reflexivity.
    - apply (resolve_time _ _ We) in Er. congruence.
    - destruct v as [| | | | | |[|x l]| | | | | | | |]; try discriminate P. cbn [has_type] in Ht. rewrite Er in Ht. apply andb_true_iff in Ht. destruct Ht as [Ht _].
      destruct n; [|discriminate]. apply (R 0%nat). rewrite (zero_array _ _ _ _ We Er). exact P.
    - apply (R 0%nat). rewrite (zero_slice _ _ _ We Er). destruct v as [| | | | | | |[[|]|]| | | | | | |]; try discriminate P; exact P.
    - apply (R 0%nat). rewrite (iface_zero _ _ Er). reflexivity.
    - destruct v; try discriminate P. cbn [has_type] in Ht. rewrite Er in Ht.
      assert (F : forall fs num l, Forall (fun f => sf_exported f = true -> is_ptr (sf_type f) = false -> calm (sf_type f) = true) fs ->
        forall2b (fun f w => has_type env (sf_type f) w) fs l = true -> blank_fields env (blank k env) num fs l = true ->
        exists j, blank_fields env (blank j env) num fs (map (fun f => zero env (sf_type f)) fs) = true).
      { clear - IH Hst We. induction fs as [|f fs IHf]; intros num l HF Ht H; [exists 0%nat; reflexivity|]. destruct l as [|x l]; [discriminate Ht|].
        cbn [forall2b] in Ht. apply andb_true_iff in Ht. destruct Ht as [T1 T2]. inversion HF as [|? ? F1 F2]; subst. cbn [blank_fields map] in *.
        destruct (field_opts num f) as [o|] eqn:Eo; [|exact (IHf _ _ F2 T2 H)]. apply andb_true_iff in H. destruct H as [H1 H2].
        destruct (IHf _ _ F2 T2 H2) as [j1 J1].
        assert (X : exists j, blank_field env (blank j env) (sf_type f) o (zero env (sf_type f)) = true).
        { eapply blank_field_zero; [exact T1|exact H1|]. intros _ Np B. eapply IH; [|exact T1|exact B]. apply F1; [|exact Np].
          unfold field_opts in Eo. destruct (sf_exported f); [reflexivity|discriminate]. }
        destruct X as [j2 J2]. exists (max j1 j2). apply andb_true_iff. split.
        - revert J2. apply blank_field_mono. intros a b d. apply blank_mono. lia.
        - clear - J1. revert J1. generalize (num + 1). clear num. induction fs as [|g fs IHf]; intros num J1; [reflexivity|]. cbn [map blank_fields] in *.
          destruct (field_opts num g); [|apply IHf; exact J1]. apply andb_true_iff in J1. destruct J1 as [A1 A2]. rewrite (IHf _ A2), andb_true_r.
          revert A1. apply blank_field_mono. intros a b d. apply blank_mono. lia. }
      destruct (F fs 1 l Hok Ht P) as [j J]. apply (R j). rewrite (zero_struct _ _ _ We Er). exact J.
  Qed.

  Lemma steady_field_lasts k t o v v' : steady_field env calm t = true -> field_ok env c mem t o = true -> has_type env t v = true ->
    (forall e o w w', mem e = true -> deref_type e = e -> has_type env e w = true -> norm k env c e o w = Some w' -> lasting k env c e o w) ->
    norm_field env c (blank k env) (fixed_width k env) (norm k env c) t o v = Some v' ->
    (entries env t = true -> match resolve env t with RArray _ e | RSlice e => lasting_elems env (blank k env) (lasting k env c) e o v | _ => True end) ->
    lasting_field env (blank k env) (lasting k env c) t o v.
  Proof.
    intros Hf Hok Ht IH Hn He. unfold lasting_field. unfold steady_field in Hf. unfold field_ok in Hok. unfold norm_field in Hn.
    destruct (entries env t) eqn:En; [exact (He eq_refl)|]. rewrite !andb_true_iff in Hok. destruct Hok as [[Hmem _] _].
    assert (TM : forall w, w = VTime 0 0 -> blank 1 env TTime o w = true) by (intros w ->; reflexivity).
    destruct (blank_field env (blank k env) t o v) eqn:B.
    - destruct (is_ptr t) eqn:Ep.
      + assert (A : absent env t = VPtr None).
        { destruct t; try discriminate Ep. unfold absent. destruct (deref_type (TPtr t)) eqn:Ed; try reflexivity. rewrite (proj2 (gotype_eqb_eq TTime TTime) eq_refl) in Hf. discriminate. }
        rewrite A. exists 0%nat. unfold blank_field in *. rewrite En in B. cbn [defaultv andb]. destruct (fo_write_empty o); [|reflexivity].
        rewrite andb_false_r in B. discriminate.
      + apply orb_true_iff in Hf. destruct Hf as [Hf|Hf].
        * apply gotype_eqb_eq in Hf. subst t. exists 1%nat. unfold absent. cbn [deref_type ptrs]. unfold blank_field in *. cbn [defaultv andb]. rewrite En in *.
          destruct (fo_write_empty o); [rewrite andb_false_r in B; discriminate|]. reflexivity.
        * assert (A : absent env t = zero env t).
          { unfold absent. rewrite (deref_nonptr _ Ep). destruct (proj2 Hst t Hf) as [Hnt _]. destruct t; try reflexivity. congruence. }
          rewrite A. eapply blank_field_zero; [exact Ht|exact B|]. intros _ _ X. eapply calm_blank; eassumption.
    - unfold blank_field in B. rewrite En in B. destruct (defaultv v && negb (fo_write_empty o)); [discriminate|].
      destruct (under v) as [w|] eqn:U; [|exact I]. 
      replace (negb (fo_write_empty o) && negb (is_ptr t) && blank k env t o w) with false in Hn.
      2:{ destruct (is_ptr t) eqn:Ep; [rewrite andb_false_r; reflexivity|]. rewrite (under_nonptr env _ _ Ht Ep We) in U. inversion U; subst. symmetry; exact B. }
      destruct (is_ptr t && _); [discriminate|]. destruct (norm k env c (deref_type t) o w) eqn:N; [|discriminate].
      eapply IH; try eassumption; [apply deref_idem|eapply under_typed; eassumption].
  Qed.

  Lemma steady_elems_last k e o l l' : elem_ok env c mem e = true -> delimited env e = false \/ steady_elem calm e = true ->
    forallb (has_type env e) l = true ->
    (forall e o w w', mem e = true -> deref_type e = e -> has_type env e w = true -> norm k env c e o w = Some w' -> lasting k env c e o w) ->
    norm_elems env (blank k env) (fixed_width k env) (norm k env c) e o l = Some l' ->
    Forall (if delimited env e then lasting_entry env (blank k env) (lasting k env c) e o else lasting_packed env (lasting k env c) e o) l.
  Proof.
    intros Hok Hse Ht IH Hn. unfold norm_elems in Hn. apply opt_map_forall2 in Hn. unfold elem_ok in Hok. rewrite !andb_true_iff in Hok. destruct Hok as [[[Hmem _] _] _].
    rewrite forallb_forall in Ht. rewrite Forall_forall. intros v Hv. specialize (Ht v Hv).
    assert (N : exists v', (if delimited env e then norm_entry env (blank k env) (fixed_width k env) (norm k env c) e o else norm_packed env (norm k env c) e o) v = Some v').
    { clear - Hn Hv. induction Hn as [|x y l l' H F IHF]; [destruct Hv|]. destruct Hv as [->|Hv]; eauto. }
    destruct N as [v' N]. destruct (delimited env e) eqn:Ed.
    - destruct Hse as [X|Hse]; [discriminate X|]. unfold lasting_entry. cbv zeta.
      destruct (empty_entry (blank k env) e (set_num 1 o) v && _) eqn:B.
      + apply andb_true_iff in B. destruct B as [B _]. unfold steady_elem in Hse.
        assert (PT : deref_type e = TTime -> exists j, empty_entry (blank j env) e (set_num 1 o) (absent env e) = true).
        { intros D. exists 1%nat. unfold absent. rewrite D. unfold empty_entry. rewrite (under_ptrs e (VTime 0 0) eq_refl), D. apply orb_true_r. }
        apply orb_true_iff in Hse. destruct Hse as [Hse|Hse].
        * apply orb_true_iff in Hse. destruct Hse as [Hse|Hse].
          -- destruct (deref_type e) eqn:D; try (apply PT; reflexivity); exists 0%nat; unfold absent; rewrite D; destruct e; try discriminate Hse; reflexivity.
          -- apply gotype_eqb_eq in Hse. subst e. apply PT. reflexivity.
        * destruct (is_ptr e) eqn:Ep.
          { destruct (deref_type e) eqn:D; try (apply PT; reflexivity); exists 0%nat; unfold absent; rewrite D; destruct e; try discriminate Ep; reflexivity. }
          assert (A : absent env e = zero env e).
          { unfold absent. rewrite (deref_nonptr _ Ep). destruct (proj2 Hst e Hse) as [Hnt _]. destruct e; try reflexivity. congruence. }
          rewrite A. unfold empty_entry in *. destruct (defaultv v) eqn:Dv.
          -- exists 0%nat. rewrite (default_zero _ _ Ht Dv). reflexivity.
          -- rewrite (under_nonptr env _ _ Ht Ep We) in B. cbn [orb] in B. rewrite (deref_nonptr _ Ep) in *.
             destruct (calm_blank _ _ _ _ Hse Ht B) as [j J]. exists j. rewrite (under_nonptr env _ _ (has_type_zero env e We) Ep We), J. apply orb_true_r.
      + destruct (under v) as [w|] eqn:U; [|exact I]. unfold norm_entry in N. rewrite U in N. unfold empty_entry in B. rewrite U in B.
        destruct (defaultv v) eqn:Dv.
        { cbn [orb andb] in B. destruct (is_ptr e && _ && _); discriminate. }
        cbn [orb] in B. rewrite andb_comm in B. rewrite B in N. destruct (_ && fixed_width _ _ _ _); [discriminate|]. destruct (is_ptr e && is_iface _); [discriminate|].
        destruct (norm k env c (deref_type e) (set_num 1 o) w) eqn:Nw; [|discriminate].
        eapply IH; try eassumption; [apply deref_idem|eapply under_typed; eassumption].
    - unfold lasting_packed. unfold norm_packed in N. pose proof (packed_typed env We e v Ht) as Hw.
      set (w := match under v with Some w => w | None => zero env (deref_type e) end) in *.
      destruct (norm k env c (deref_type e) o w) eqn:Nw; [|discriminate]. eapply IH; try eassumption. apply deref_idem.
  Qed.

  Lemma steady_list_lasts k t e o v v' : elem_type env t = Some e -> elem_ok env c mem e = true -> delimited env e = false \/ steady_elem calm e = true ->
    has_type env t v = true ->
    (forall e o w w', mem e = true -> deref_type e = e -> has_type env e w = true -> norm k env c e o w = Some w' -> lasting k env c e o w) ->
    norm_list env c (blank k env) (fixed_width k env) (norm k env c) t o v = Some v' ->
    lasting_elems env (blank k env) (lasting k env c) e o v.
  Proof.
    intros Ee Hok Hse Ht IH Hn. unfold lasting_elems, norm_list, elem_type in *.
    destruct (resolve env t) eqn:Er; try discriminate; inversion Ee; subst e0.
    - destruct v; try discriminate Hn. cbn [has_type] in Ht. rewrite Er in Ht. apply andb_true_iff in Ht. destruct Ht as [_ Ht].
      destruct (norm_elems _ _ _ _ _ _ _) eqn:N; [|discriminate]. eapply steady_elems_last; eassumption.
    - destruct v as [| | | | | | |[l|]| | | | | | |]; try discriminate Hn; [|constructor]. destruct (known env c e); [|discriminate]. cbn [has_type] in Ht. rewrite Er in Ht.
      destruct (norm_elems _ _ _ _ _ _ _) eqn:N; [|discriminate]. eapply steady_elems_last; eassumption.
  Qed.

  Theorem steady_lasts : forall k t o v v', mem t = true -> deref_type t = t -> has_type env t v = true ->
    norm k env c t o v = Some v' -> lasting k env c t o v.
  Proof.
    induction k as [|k IH]; intros t o v v' Hmem Hd Ht Hn; [exact I|]. cbn [lasting].
    pose proof (proj1 Hst t Hmem) as Hok. unfold steady_ok in Hok. destruct (Hsup t Hmem) as [Hty _].
    destruct (has_method env t) eqn:Em; [rewrite Hn; f_equal; eapply Hok; eassumption|].
    unfold type_ok in Hty. rewrite Em in Hty. cbn [orb] in Hty.
    assert (P : match resolve env t, v with
        | RPrim PFloat32, VFloat b => Some (VFloat (quiet32 b))
        | RPrim _, _ | RTime, _ => Some v
        | RArray _ e, VArr l =>
            if is_uint8 env e then (if gotype_eqb e (TPrim PUint8) then Some v else None)
            else if is_list env e then None
            else norm_list env c (blank k env) (fixed_width k env) (norm k env c) t o v
        | RSlice e, VSlice ol =>
            if is_uint8 env e then
              match ol with
              | None | Some [] => Some (VSlice None)
              | _ => if gotype_eqb e (TPrim PUint8) then Some v else None
              end
            else if is_list env e then None
            else norm_list env c (blank k env) (fixed_width k env) (norm k env c) t o v
        | RStruct fs, VStruct l =>
            option_map VStruct (norm_fields env c (blank k env) (fixed_width k env) (norm k env c) 1 fs l)
        | RIface i, VIface (Some (ct, cv)) => norm_iface env c (norm k env c) i o ct cv
        | _, _ => None
        end = Some v').
    { cbn [norm] in Hn. destruct t; try exact Hn. unfold has_method in Em. destruct (te_marshal env id) as [[]|], (te_unmarshal env id) as [[]|]; try discriminate Em. exact Hn. }
    clear Hn. destruct (resolve env t) as [p| |n e|e| | | | |i|fs|] eqn:Er; try exact I.
    - destruct (is_uint8 env e) eqn:Eu; [exact I|]. unfold list_ok in Hty. rewrite Eu in Hty. apply andb_true_iff in Hty. destruct Hty as [_ Hty].
      destruct v; try discriminate P. destruct (is_list env e); [discriminate|].
      eapply (steady_list_lasts k t e); try eassumption; [unfold elem_type; rewrite Er; reflexivity|]. destruct Hok as [X|Hok]; [discriminate X|exact Hok].
    - destruct (is_uint8 env e) eqn:Eu; [exact I|]. unfold list_ok in Hty. rewrite Eu in Hty. apply andb_true_iff in Hty. destruct Hty as [_ Hty].
      destruct v; try discriminate P. destruct (is_list env e); [discriminate|].
      eapply (steady_list_lasts k t e); try eassumption; [unfold elem_type; rewrite Er; reflexivity|]. destruct Hok as [X|Hok]; [discriminate X|exact Hok].
    - destruct v as [| | | | | | | | | |[[ct cv]|]| | | |]; try exact I. destruct (under cv) as [w|] eqn:U; [|exact I].
      unfold norm_iface in P. destruct (registered c (deref_type ct)) as [ptr|] eqn:Rg; [|discriminate]. rewrite U in P. destruct (_ && _); [|discriminate].
      destruct (norm k env c (deref_type ct) o w) eqn:N; [|discriminate].
      apply (resolve_iface _ _ _ We) in Er. subst t. cbn [has_type resolve] in Ht. apply andb_true_iff in Ht. destruct Ht as [Hi1 Hi2].
      assert (Hw : has_type env (deref_type ct) w = true) by (eapply under_typed; [eassumption| |eassumption]; destruct ct; try exact Hi2; discriminate).
      eapply IH; try eassumption; [|apply deref_idem].
      unfold registered in Rg. destruct (find _ _) as [ci|] eqn:Ef; [|discriminate]. apply find_some in Ef. destruct Ef as [F1 F2]. apply gotype_eqb_eq in F2.
      destruct (ci_reg ci) as [r|] eqn:Er; [|discriminate]. unfold iface_ok in Hty. rewrite forallb_forall in Hty. specialize (Hty ci F1). rewrite Er in Hty.
      assert (Hio : info_ok env ci).
      { exact (proj1 (sa_conc _ _ Hs ci F1)). }
      assert (Himp : te_impl env (TPtr (ci_type ci)) i = true).
      { rewrite F2. destruct (impl_deref env We ct i Hi1) as [E|E]; [|exact E]. rewrite E. apply (we_impl_ptr _ We); [|exact Hi1].
        pose proof (conc_nonptr env ci Hio) as Np. rewrite F2, E in Np. destruct ct; auto. }
      rewrite Himp in Hty. cbn [negb orb] in Hty. rewrite !andb_true_iff, F2 in Hty. tauto.
    - destruct v; try exact I. destruct (norm_fields _ _ _ _ _ _ _ _) as [l'|] eqn:N; [|discriminate]. clear P. cbn [has_type] in Ht. rewrite Er in Ht.
      clear Er. revert Hok Hty l Ht l' N. generalize 1. induction fs as [|f fs IHf]; intros num Hok Hty l Ht l' N; destruct l as [|x l]; try discriminate Ht; [exact I|].
      cbn [forall2b] in Ht. apply andb_true_iff in Ht. destruct Ht as [T1 T2]. inversion Hok as [|? ? F1 F2]; subst. cbn [fields_ok norm_fields lasting_fields] in *.
      destruct (field_opts num f) as [fo|] eqn:Eo.
      + rewrite !andb_true_iff in Hty. destruct Hty as [[_ Hf] Hty]. destruct (2 ^ 29 <=? num); [discriminate|].
        destruct (norm_field env c _ _ _ _ _ _) as [x'|] eqn:Nf; [|discriminate]. destruct (norm_fields _ _ _ _ _ _ _ _) as [r|] eqn:Nr; [|discriminate].
        split; [|eapply IHf; eassumption].
        assert (Hsf : steady_field env calm (sf_type f) = true) by (apply F1; unfold field_opts in Eo; destruct (sf_exported f); [reflexivity|discriminate]).
        eapply steady_field_lasts; try eassumption. intros En. unfold field_ok in Hf. unfold steady_field in Hsf. unfold norm_field in Nf. rewrite En in Hf, Hsf, Nf.
        apply andb_true_iff in Hf. destruct Hf as [_ Hf]. destruct (has_method env (sf_type f)); [discriminate|].
        destruct (resolve env (sf_type f)) eqn:Er; try exact I;
          (eapply (steady_list_lasts k (sf_type f)); try eassumption; [unfold elem_type; rewrite Er; reflexivity|right; exact Hsf]).
      + destruct (norm_fields _ _ _ _ _ _ _ _) as [r|] eqn:Nr; [|discriminate]. eapply IHf; eassumption.
  Qed.
End St.

(** ** Marshal *)
Lemma marshal_re env c k t v w v' bz bz' : wf_env env -> sane_codec env c -> marshal_typed env ->
  struct_like env (deref_type t) = true -> has_type env t v = true -> under v = Some w ->
  norm k env c (deref_type t) top_opts w = Some v' -> lasting k env c (deref_type t) top_opts w ->
  marshal_bare k env c t v = EOk bz -> marshal_bare k env c t (ptrs t v') = EOk bz' -> zlen bz < 2 ^ 63 -> zlen bz' < 2 ^ 63 -> bz' = bz.
Proof.
  intros We Hs Hm Hsl Ht Hu Hn HL H H' Hz Hz'. pose proof (under_typed _ We _ _ _ Ht Hu) as Hw.
  destruct (norm_shape env We c k _ _ _ _ (deref_idem t) Hw HL Hn) as [U' _].
  rewrite marshal_eq in H, H'. rewrite Hu in H. rewrite (under_ptrs _ _ U') in H'. einv H. rewrite E in H'. cbn [ebind] in H'.
  pose proof (gti_minfo _ _ _ _ Hs E) as Hi. rewrite (minfo_type _ _ _ _ Hi), Hsl in H, H'. cbn [negb] in H, H'.
  einv H. einv H'. apply EOk_inj in H. apply EOk_inj in H'. subst bz bz'. apply zlen_app_l in Hz. apply zlen_app_l in Hz'. f_equal.
  eapply (re_all env We c Hs Hm k a (deref_type t) w top_opts true a0 v' a1); try eassumption; try tauto; [apply minfo_deref; exact Hi|apply deref_idem|cbn; lia].
Qed.

Lemma marshal_fuel env c k k' t v bz : (k <= k')%nat -> marshal_bare k env c t v = EOk bz -> marshal_bare k' env c t v = EOk bz.
Proof.
  intros Hk. rewrite !marshal_eq. destruct (under v); [|discriminate]. destruct (get_type_info env c t); cbn [ebind]; try discriminate.
  destruct (negb _).
  - destruct (type_to_typ3 _ _ _); cbn [ebind]; try discriminate. unfold write_field. destruct (type_to_typ3 _ _ _); cbn [ebind]; try discriminate.
    destruct (encode_field_key _ _); cbn [ebind]; try discriminate.
    destruct (encode_fuel_mono env c k k' a v0 no_opts (negb (a0 =? Typ3ByteLength)) Hk) as [E|E]; rewrite E; [discriminate|auto].
  - destruct (encode_fuel_mono env c k k' a v0 top_opts true Hk) as [E|E]; rewrite E; [discriminate|auto].
Qed.
