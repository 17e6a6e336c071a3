(** Facts about goroutines sharing one codec. *)
From Coq Require Import ZArith String List Bool Lia.
From Coq Require Import ZifyBool ZifyNat.
From Verif Require Import Base Prims Types Codec Registry RegistryFacts Conc SpecConc.
Import ListNotations.
Local Open Scope Z_scope.

(** ** Lists *)

Lemma nth_upd_same {A} (l : list A) : forall i x y, nth_error l i = Some y -> nth_error (upd i x l) i = Some x.
Proof. induction l as [|z l IH]; intros [|i] x y H; cbn in *; try discriminate; [reflexivity|]. eapply IH; eassumption. Qed.
Lemma nth_upd_other {A} (l : list A) : forall i j x, i <> j -> nth_error (upd i x l) j = nth_error l j.
Proof. induction l as [|z l IH]; intros [|i] [|j] x H; cbn; try reflexivity; try congruence. apply IH. congruence. Qed.
Lemma upd_cases {A} (l : list A) i j x y z : nth_error l i = Some z -> nth_error (upd i x l) j = Some y -> (j = i /\ y = x) \/ (j <> i /\ nth_error l j = Some y).
Proof.
  intros Hz H. destruct (Nat.eq_dec j i) as [->|Hn]; [left; split; [reflexivity|]|right; split; [exact Hn|]].
  - rewrite (nth_upd_same _ _ _ _ Hz) in H. congruence.
  - rewrite nth_upd_other in H by congruence. exact H.
Qed.
Definition b2n (b : bool) : nat := if b then 1%nat else 0%nat.
Lemma count_upd {A} (f : A -> bool) (l : list A) : forall i x y, nth_error l i = Some y ->
  (length (filter f (upd i x l)) + b2n (f y) = length (filter f l) + b2n (f x))%nat.
Proof.
  induction l as [|z l IH]; intros [|i] x y H; cbn in H; try discriminate.
  - inversion H; subst. cbn [upd filter]. destruct (f x), (f y); cbn [length b2n]; lia.
  - cbn [upd filter]. specialize (IH i x y H). destruct (f z); cbn [length]; lia.
Qed.
Lemma count_pos {A} (f : A -> bool) (l : list A) i y : nth_error l i = Some y -> f y = true -> (0 < length (filter f l))%nat.
Proof.
  intros H Hf. apply nth_error_In in H. assert (In y (filter f l)) by (apply filter_In; auto). destruct (filter f l); [contradiction|cbn; lia].
Qed.

(** ** Records *)

Lemma with_sealed_id c : with_sealed (cd_sealed c) c = c.
Proof. destruct c; reflexivity. Qed.
Lemma with_sealed_twice a b c : with_sealed a (with_sealed b c) = with_sealed a c.
Proof. reflexivity. Qed.

(** ** The code of a call does what the call does at once *)

(** [x], run by itself on [c], answers [a] and leaves [c']. *)
Definition one (env : tenv) (c : codec) (x : call) (a : answer) (c' : codec) : Prop :=
  reply env c x = (c', a) \/
  (registers x = true /\ cd_sealed c = true /\ exists c1, reply env (with_sealed false c) x = (c1, a) /\ c' = with_sealed true c1).

(** [p] completes [x], which took its lock when the codec was [cc]; it is [c] now. *)
Fixpoint good (env : tenv) (x : call) (m : mode) (cc c : codec) (p : prog) {struct p} : Prop :=
  match m, p with
  | Out, PLock k => forall c, good env x W c c k
  | Out, PRLock k => forall c, good env x R c c k
  | Out, PRead f => unlocked x = true /\ forall c, exists a, f c = PRet a
  | W, PRead f => good env x W cc c (f c)
  | W, PWrite f k => good env x W cc (f c) k
  | W, PUnlock k => match k with PRet a => one env cc x a c /\ unlocked x = false | _ => c = cc /\ good env x Out c c k end
  | W, PRet a => one env cc x a c /\ unlocked x = false /\ c = cc /\ get_panic (0%nat, x, a)
  | R, PRead f => good env x R cc c (f c)
  | R, PRUnlock k => match k with PRet a => one env cc x a c /\ unlocked x = false /\ c = cc | _ => False end
  | R, PRet a => one env cc x a c /\ unlocked x = false /\ c = cc /\ prefix_panic (0%nat, x, a)
  | _, _ => False
  end.

Lemma good_out env x cc c cc' c' p : good env x Out cc c p -> good env x Out cc' c' p.
Proof. destruct p; cbn; auto. Qed.

Lemma one_late env x c c1 a : registers x = true -> reply env (with_sealed false c) x = (c1, a) -> one env c x a (with_sealed (cd_sealed c) c1) \/ cd_sealed c1 = true.
Proof.
  intros Hx H. destruct (cd_sealed c) eqn:E.
  - left. right. split; [exact Hx|]. split; [exact E|]. exists c1. auto.
  - destruct (cd_sealed c1) eqn:E1; [right; reflexivity|]. left. left. rewrite <- E in H at 1. rewrite with_sealed_id in H. rewrite H. f_equal.
    rewrite <- E1. symmetry. apply with_sealed_id.
Qed.
Lemma one_main env x c c1 a : registers x = true -> reply env (with_sealed false c) x = (with_sealed false c1, a) -> cd_sealed c1 = cd_sealed c -> one env c x a c1.
Proof.
  intros Hx H Hc. destruct (one_late _ _ _ _ _ Hx H) as [K|K]; [|discriminate K]. rewrite with_sealed_twice, <- Hc, with_sealed_id in K. exact K.
Qed.

(** [p] is all that is left of [x]. *)
Definition completes (env : tenv) (x : call) (p : prog) : Prop :=
  match p with PRet a => forall c, one env c x a c | _ => good env x Out new_codec new_codec p end.

(** Registering an interface. *)
Lemma iface_good env i o : completes env (CIface i o) (iface_main env i o).
Proof.
  unfold completes, iface_main. destruct (new_iface_info env i o) as [info| | |] eqn:E.
  - cbn [good]. intros c. destruct (check_conflicts _) eqn:Ec; cbn [negb good fail].
    + destruct (find_iface i (cd_ifaces c)) eqn:Ef; cbn [good fail].
      * split; [|reflexivity]. apply one_main; try reflexivity. cbn [reply step outcome]. unfold register_interface. cbn [cd_sealed with_sealed cd_concretes cd_ifaces].
        rewrite E. cbv zeta. rewrite Ec, Ef. reflexivity.
      * split; [|reflexivity]. apply one_main; try reflexivity. cbn [reply step outcome]. unfold register_interface. cbn [cd_sealed with_sealed cd_concretes cd_ifaces].
        rewrite E. cbv zeta. rewrite Ec, Ef. reflexivity.
    + split; [|reflexivity]. apply one_main; try reflexivity. cbn [reply step outcome]. unfold register_interface. cbn [cd_sealed with_sealed cd_concretes cd_ifaces].
      rewrite E. cbv zeta. rewrite Ec. reflexivity.
  - intros c. apply one_main; try reflexivity. cbn [reply step outcome]. unfold register_interface. cbn [cd_sealed with_sealed]. rewrite E. reflexivity.
  - intros c. apply one_main; try reflexivity. cbn [reply step outcome]. unfold register_interface. cbn [cd_sealed with_sealed]. rewrite E. reflexivity.
  - intros c. apply one_main; try reflexivity. cbn [reply step outcome]. unfold register_interface. cbn [cd_sealed with_sealed]. rewrite E. reflexivity.
Qed.

(** Registering a concrete type. *)
Lemma set_nth_mid pre ii ii' l c : cd_ifaces c = pre ++ ii :: l -> set_nth (length pre) ii' c = set_ifaces (pre ++ ii' :: l) c.
Proof.
  intros H. unfold set_nth. rewrite H. f_equal. clear. induction pre as [|x pre IH]; [reflexivity|]. cbn. f_equal. exact IH.
Qed.
Lemma nth_mid_error {A} (pre l : list A) x : nth_error (pre ++ x :: l) (length pre) = Some x.
Proof. rewrite nth_error_app2 by lia. rewrite Nat.sub_diag. reflexivity. Qed.

Lemma loop_good env x ci cc k : forall l pre c, cd_ifaces c = pre ++ l ->
  (forall r, add_check_conflicts env ci l = (r, true) -> good env x W cc (set_ifaces (pre ++ r) c) k) ->
  (forall r, add_check_conflicts env ci l = (r, false) -> one env cc x (APanic "conflicts with other(s)"%string) (set_ifaces (pre ++ r) c) /\ unlocked x = false) ->
  good env x W cc c (impl_loop env ci (length pre) (length l) k).
Proof.
  induction l as [|ii l IH]; intros pre c Hc Hk Hf; cbn [length impl_loop].
  - specialize (Hk [] eq_refl). rewrite <- Hc in Hk. destruct c; exact Hk.
  - cbn [good]. rewrite Hc, nth_mid_error. destruct (implements env ci ii) eqn:Ei; cbn [negb].
    + cbn [good]. rewrite (set_nth_mid pre ii _ l c Hc). cbn [set_ifaces cd_ifaces]. rewrite nth_mid_error.
      set (ii' := with_impls (add_impl (ci_prefix ci) ci (ii_impls ii)) ii) in *. destruct (check_conflicts ii') eqn:Ec.
      * replace (S (length pre)) with (length (pre ++ [ii'])) by (rewrite app_length; cbn; lia). apply IH.
        -- cbn [cd_ifaces]. rewrite <- app_assoc. reflexivity.
        -- intros r Hr. specialize (Hk (ii' :: r)). rewrite <- app_assoc. apply Hk. cbn [add_check_conflicts]. rewrite Ei. cbn [negb]. cbv zeta. fold ii'. rewrite Ec, Hr. reflexivity.
        -- intros r Hr. specialize (Hf (ii' :: r)). rewrite <- app_assoc. apply Hf. cbn [add_check_conflicts]. rewrite Ei. cbn [negb]. cbv zeta. fold ii'. rewrite Ec, Hr. reflexivity.
      * cbn [good fail]. specialize (Hf (with_impls (restore_impl (ci_prefix ci) (ii_impls ii)) ii :: l)).
        rewrite (set_nth_mid pre ii' _ l) by reflexivity. apply Hf. cbn [add_check_conflicts]. rewrite Ei. cbn [negb]. cbv zeta. fold ii'. rewrite Ec. reflexivity.
    + replace (S (length pre)) with (length (pre ++ [ii])) by (rewrite app_length; cbn; lia). apply IH.
      * rewrite <- app_assoc. exact Hc.
      * intros r Hr. specialize (Hk (ii :: r)). rewrite <- app_assoc. apply Hk. cbn [add_check_conflicts]. rewrite Ei. cbn [negb]. rewrite Hr. reflexivity.
      * intros r Hr. specialize (Hf (ii :: r)). rewrite <- app_assoc. apply Hf. cbn [add_check_conflicts]. rewrite Ei. cbn [negb]. rewrite Hr. reflexivity.
Qed.

Definition conc_reg (env : tenv) (rt : gotype) (ptr : bool) (name : bytes) : prog :=
  match new_registered_info env rt ptr name with
  | EOk ci => PLock (PRead (fun c => impl_loop env ci 0 (length (cd_ifaces c)) (set_prog ci name)))
  | EPanic p => PRet (APanic p)
  | EErr e => PRet (APanic e)
  | EFuel => PRet (APanic "fuel"%string)
  end.
Definition reg_seq (env : tenv) (c : codec) (rt : gotype) (ptr : bool) (name : bytes) : rres :=
  match new_registered_info env rt ptr name with
  | EOk ci =>
      let '(ifs, ok) := add_check_conflicts env ci (cd_ifaces c) in
      let c' := set_ifaces ifs c in
      if negb ok then (c', Some "conflicts with other(s)"%string)
      else set_registered c' ci name
  | EPanic p => (c, Some p)
  | EErr e => (c, Some e)
  | EFuel => (c, Some "fuel"%string)
  end.

Lemma reg_good env t name rt ptr : (forall c, cd_sealed c = false -> register_concrete env c t name = reg_seq env c rt ptr name) ->
  completes env (CConc t name) (conc_reg env rt ptr name).
Proof.
  intros Hs. unfold completes, conc_reg.
  assert (Hm : forall c c1 p, reg_seq env (with_sealed false c) rt ptr name = (with_sealed false c1, p) -> cd_sealed c1 = cd_sealed c ->
    one env c (CConc t name) (match p with None => ADone | Some p => APanic p end) c1).
  { intros c c1 p H Hc. apply one_main; [reflexivity| |exact Hc]. cbn [reply step]. rewrite Hs by reflexivity. rewrite H. reflexivity. }
  unfold reg_seq in Hm. destruct (new_registered_info env rt ptr name) as [ci| | |].
  - cbn [good]. intros c. apply (loop_good env _ ci c (set_prog ci name) (cd_ifaces c) [] c eq_refl).
    + intros r Hr. cbn [app]. unfold set_prog. cbn [good].
      assert (Hm' : forall c1 p, set_registered (set_ifaces r (with_sealed false c)) ci name = (with_sealed false c1, p) -> cd_sealed c1 = cd_sealed c ->
        one env c (CConc t name) (match p with None => ADone | Some p => APanic p end) c1).
      { intros c1 p H Hc. apply Hm; [|exact Hc]. cbn [cd_ifaces with_sealed]. rewrite Hr. cbn [negb]. exact H. }
      clear Hm. unfold set_registered in Hm'. cbn [cd_types cd_disfix cd_names cd_ifaces cd_concretes set_ifaces with_sealed] in Hm'.
      cbn [cd_types set_ifaces]. destruct (assoc gotype_eqb (ci_type ci) (cd_types c)).
      * cbn [good fail]. split; [|reflexivity]. apply (Hm' _ (Some _)); reflexivity.
      * cbn [good set_types set_concretes cd_disfix cd_names set_ifaces]. destruct (assoc beqb (ci_disfix ci) (cd_disfix c)).
        -- cbn [good fail]. split; [|reflexivity]. apply (Hm' _ (Some _)); reflexivity.
        -- cbn [good]. change (cd_names (set_concretes ci (set_types (ci_type ci) ci (set_ifaces r c)))) with (cd_names c). destruct (assoc beqb name (cd_names c)).
           ++ cbn [good fail]. split; [|reflexivity]. apply (Hm' _ (Some _)); reflexivity.
           ++ cbn [good]. split; [|reflexivity]. apply (Hm' _ None); reflexivity.
    + intros r Hr. cbn [app]. split; [|reflexivity]. apply (Hm _ _ (Some _)); [|reflexivity]. cbn [cd_ifaces with_sealed]. rewrite Hr. reflexivity.
  - intros c. apply (Hm _ _ (Some _)); reflexivity.
  - intros c. apply (Hm _ _ (Some _)); reflexivity.
  - intros c. apply (Hm _ _ (Some _)); reflexivity.
Qed.
Lemma conc_good env t name : completes env (CConc t name) (conc_main env t name).
Proof.
  assert (P : forall msg, (forall c, cd_sealed c = false -> register_concrete env c t name = (c, Some msg)) -> forall c, one env c (CConc t name) (APanic msg) c).
  { intros msg H c. apply one_main; try reflexivity. cbn [reply step]. rewrite H by reflexivity. reflexivity. }
  assert (Q : forall rt ptr, (forall c, cd_sealed c = false -> register_concrete env c t name = reg_seq env c rt ptr name) -> conc_main env t name = conc_reg env rt ptr name ->
    completes env (CConc t name) (conc_main env t name)).
  { intros rt ptr H ->. apply reg_good. exact H. }
  assert (S : forall c : codec, cd_sealed c = false -> forall (a b : rres), (if cd_sealed c then a else b) = b) by (intros c -> a b; reflexivity).
  destruct t as [| | | |e| | | | |];
    try (eapply Q; [intros c Hc; unfold register_concrete; rewrite S by exact Hc; reflexivity|reflexivity]).
  - destruct e; try (eapply Q; [intros c Hc; unfold register_concrete; rewrite S by exact Hc; reflexivity|reflexivity]);
      (unfold completes; cbn [conc_main]; apply P; intros c Hc; unfold register_concrete; rewrite S by exact Hc; reflexivity).
  - unfold completes. cbn [conc_main]. apply P. intros c Hc. unfold register_concrete. rewrite S by exact Hc. reflexivity.
Qed.

Lemma assert_good env x main : registers x = true -> completes env x (main) ->
  (forall c, cd_sealed c = true -> reply env c x = (c, APanic sealed_msg)) -> good env x Out new_codec new_codec (assert_not_sealed main).
Proof.
  intros Hx Hm Hs. unfold completes in Hm. assert (U : unlocked x = false) by (destruct x; try discriminate; reflexivity). cbn [good assert_not_sealed]. intros c. destruct (cd_sealed c) eqn:E; cbn [good].
  - split; [|exact U]. left. apply Hs. exact E.
  - destruct main; try (split; [reflexivity|]; eapply good_out; exact Hm). split; [apply Hm|exact U].
Qed.

Theorem code_good env x : good env x Out new_codec new_codec (prog_of env x).
Proof.
  destruct x; cbn [prog_of].
  - apply assert_good; [reflexivity|apply iface_good|]. intros c Hc. cbn [reply step]. unfold register_interface. rewrite Hc. reflexivity.
  - apply assert_good; [reflexivity|apply conc_good|]. intros c Hc. cbn [reply step]. unfold register_concrete. rewrite Hc. reflexivity.
  - cbn [good]. intros c. split; [left; reflexivity|reflexivity].
  - cbn [good]. intros c. split; [left; reflexivity|split; reflexivity].
  - unfold get_prog. cbn [good]. intros c.
    assert (E : reply env c (CGet t) = (fst (get_type_info_st env c t), of_info (snd (get_type_info_st env c t)))) by (cbn [reply step fst]; rewrite get_type_info_st_res; reflexivity).
    unfold get_type_info_st in E.
    destruct (deref_type t) as [| | | | | | | |i|] eqn:Et; try (destruct (assoc gotype_eqb _ (cd_types c)) as [ci|]; cbn [fst snd of_info] in E;
      [cbn [good]; split; [left; exact E|reflexivity]|];
      destruct (new_type_info env _); cbn [fst snd of_info] in E; cbn [good]; repeat split; left; exact E).
    cbn [fst snd] in E. unfold get_type_info in E. rewrite Et in E. destruct (find_iface i (cd_ifaces c)); cbn [good of_info] in *; split; try reflexivity; left; exact E.
  - unfold prefix_prog. cbn [good]. intros c. destruct (find_iface i (cd_ifaces c)) as [ii|] eqn:E; [destruct (type_info_from_prefix ii pb) eqn:E2|]; cbn [good];
      repeat split; left; cbn [reply]; rewrite E, ?E2; reflexivity.
  - cbn [good]. intros c. split; [left; reflexivity|split; reflexivity].
  - cbn [good]. intros c. split; [left; reflexivity|split; reflexivity].
  - cbn [good]. split; [reflexivity|]. intros c. eexists. reflexivity.
Qed.

(** ** Logs *)

Lemma replay_app env c l : forall c' l' c'', replay env c l c' -> replay env c' l' c'' -> replay env c (l ++ l') c''.
Proof.
  intros c' l' c'' H. revert l' c''. induction H; intros l' c0 H'; cbn [app]; [exact H'| | |].
  - eapply rp_call; try eassumption. auto.
  - eapply rp_late; try eassumption. auto.
  - eapply rp_unlocked; try eassumption. auto.
Qed.
Lemma replay_one env c l c' i x a c'' : replay env c l c' -> unlocked x = false -> one env c' x a c'' -> replay env c (l ++ [(i, x, a)]) c''.
Proof.
  intros H U [E|(Hx & Hs & c1 & E & ->)]; eapply replay_app; try eassumption.
  - eapply rp_call; [exact U|exact E|constructor].
  - eapply rp_late; [exact Hx|exact Hs|exact E|constructor].
Qed.
Lemma replay_unlocked env c l c' i x a : replay env c l c' -> unlocked x = true -> replay env c (l ++ [(i, x, a)]) c'.
Proof. intros H U. eapply replay_app; [exact H|]. apply rp_unlocked; [exact U|constructor]. Qed.
Lemma replay_split env l : forall c l' c'', replay env c (l ++ l') c'' -> exists c', replay env c l c' /\ replay env c' l' c''.
Proof.
  induction l as [|e l IH]; intros c l' c'' H; cbn [app] in H; [exists c; split; [constructor|exact H]|].
  inversion H; subst; edestruct IH as (c2 & A & B); try eassumption; exists c2; (split; [|exact B]).
  - eapply rp_call; eassumption.
  - eapply rp_late; eassumption.
  - eapply rp_unlocked; eassumption.
Qed.

(** ** The invariant *)

Definition is_busy (m : mode) (th : thread) : bool := in_mode m th.
Record inv_at (env : tenv) (c0 : codec) (s : state) (cc : codec) : Prop := {
  iv_log : replay env c0 (st_log s) cc;
  iv_good : forall i x m p k, nth_error (st_threads s) i = Some (Busy x m p k) -> good env x m cc (st_codec s) p;
  iv_same : (forall i th, nth_error (st_threads s) i = Some th -> in_mode W th = false) -> st_codec s = cc;
  iv_writer : forall i th, nth_error (st_threads s) i = Some th -> in_mode W th = true -> st_writer s = true;
  iv_one : forall i j th th', nth_error (st_threads s) i = Some th -> nth_error (st_threads s) j = Some th' -> in_mode W th = true -> in_mode W th' = true -> i = j;
  iv_excl : st_writer s = true -> st_readers s = 0%nat;
  iv_readers : (reading s <= st_readers s)%nat;
  iv_wleak : st_writer s = true -> (exists i th, nth_error (st_threads s) i = Some th /\ in_mode W th = true) \/ Exists get_panic (st_log s);
  iv_rleak : st_readers s = reading s \/ Exists prefix_panic (st_log s)
}.

Lemma no_writer_cases s : (forall i th, nth_error (st_threads s) i = Some th -> in_mode W th = false) \/ exists i th, nth_error (st_threads s) i = Some th /\ in_mode W th = true.
Proof.
  destruct (existsb (in_mode W) (st_threads s)) eqn:E.
  - right. apply existsb_exists in E. destruct E as (th & Hin & H). apply In_nth_error in Hin. destruct Hin as [i Hi]. exists i, th. auto.
  - left. intros i th H. apply nth_error_In in H. destruct (in_mode W th) eqn:M; [|reflexivity].
    assert (existsb (in_mode W) (st_threads s) = true) by (apply existsb_exists; exists th; auto). congruence.
Qed.
Lemma get_entry i x a : get_panic (0%nat, x, a) -> get_panic (i, x, a).
Proof. destruct x, a; auto. Qed.
Lemma prefix_entry i x a : prefix_panic (0%nat, x, a) -> prefix_panic (i, x, a).
Proof. destruct x, a; auto. Qed.

(** Putting [th'] for the [i]th thread. *)
Lemma inv_put env c0 s cc i th s' th' cc' :
  inv_at env c0 s cc -> nth_error (st_threads s) i = Some th -> st_threads s' = upd i th' (st_threads s) ->
  replay env c0 (st_log s') cc' -> (exists l, st_log s' = st_log s ++ l) ->
  match th' with Busy x m p k => good env x m cc' (st_codec s') p | Idle _ => True end ->
  (st_codec s' = st_codec s /\ cc' = cc \/ (forall j th0, j <> i -> nth_error (st_threads s) j = Some th0 -> in_mode W th0 = false /\ in_mode R th0 = false)) ->
  (in_mode W th' = false -> (forall j th0, j <> i -> nth_error (st_threads s) j = Some th0 -> in_mode W th0 = false) -> st_codec s' = cc') ->
  (in_mode W th' = true -> st_writer s' = true /\ forall j th0, j <> i -> nth_error (st_threads s) j = Some th0 -> in_mode W th0 = false) ->
  ((exists j th0, j <> i /\ nth_error (st_threads s) j = Some th0 /\ in_mode W th0 = true) -> st_writer s' = true) ->
  (st_writer s' = true -> st_readers s' = 0%nat) ->
  (st_readers s' + b2n (in_mode R th) = st_readers s + b2n (in_mode R th') \/ (Exists prefix_panic (st_log s') /\ st_readers s <= st_readers s' /\ in_mode R th' = false))%nat ->
  (st_writer s' = true -> st_writer s = true /\ (in_mode W th = true -> in_mode W th' = true) \/ in_mode W th' = true \/ Exists get_panic (st_log s')) ->
  inv_at env c0 s' cc'.
Proof.
  intros I Hi Ht Hlog (l & Hl) Hg Hothers Hsame Hw Hw2 Hex Hr Hwl.
  pose proof (count_upd (in_mode R) (st_threads s) i th' th Hi) as Hc. rewrite <- Ht in Hc. fold (reading s) (reading s') in Hc.
  assert (Hkeep : forall P : nat * call * answer -> Prop, Exists P (st_log s) -> Exists P (st_log s')) by (intros P X; rewrite Hl; apply Exists_app; left; exact X).
  split.
  - exact Hlog.
  - intros j x m p k Hj. rewrite Ht in Hj. apply (upd_cases _ _ _ _ _ _ Hi) in Hj. destruct Hj as [[-> <-]|[Hn Hj]]; [exact Hg|].
    destruct Hothers as [[-> ->]|Ho]; [eapply iv_good; eassumption|]. destruct (Ho _ _ Hn Hj) as [N1 N2]. pose proof (iv_good _ _ _ _ I _ _ _ _ _ Hj) as G.
    destruct m; cbn in N1, N2; try discriminate. eapply good_out. exact G.
  - intros Hall. apply Hsame.
    + apply (Hall i). rewrite Ht. eapply nth_upd_same. exact Hi.
    + intros j th0 Hn Hj. apply (Hall j). rewrite Ht. rewrite nth_upd_other by congruence. exact Hj.
  - intros j th0 Hj Hm. rewrite Ht in Hj. apply (upd_cases _ _ _ _ _ _ Hi) in Hj. destruct Hj as [[-> ->]|[Hn Hj]]; [apply Hw; exact Hm|].
    apply Hw2. exists j, th0. auto.
  - intros j j' th0 th1 Hj Hj' Hm Hm'. rewrite Ht in Hj, Hj'. apply (upd_cases _ _ _ _ _ _ Hi) in Hj. apply (upd_cases _ _ _ _ _ _ Hi) in Hj'.
    destruct Hj as [[-> ->]|[Hn Hj]], Hj' as [[-> ->]|[Hn' Hj']]; try reflexivity.
    + destruct (Hw Hm) as [_ K]. rewrite (K _ _ Hn' Hj') in Hm'. discriminate.
    + destruct (Hw Hm') as [_ K]. rewrite (K _ _ Hn Hj) in Hm. discriminate.
    + eapply iv_one; eassumption.
  - exact Hex.
  - pose proof (iv_readers _ _ _ _ I). destruct Hr as [Hr|(_ & Hr & Hr2)]; [lia|]. rewrite Hr2 in Hc. cbn [b2n] in Hc. lia.
  - intros Hsw. destruct (Hwl Hsw) as [[A B]|[A|A]]; [| |right; exact A].
    + destruct (iv_wleak _ _ _ _ I A) as [(j & th0 & Hj & Hm)|X]; [|right; auto]. left. destruct (Nat.eq_dec j i) as [->|Hn].
      * assert (th0 = th) by congruence. subst th0. exists i, th'. split; [rewrite Ht; eapply nth_upd_same; exact Hi|auto].
      * exists j, th0. split; [rewrite Ht, nth_upd_other by congruence; exact Hj|exact Hm].
    + left. exists i, th'. split; [rewrite Ht; eapply nth_upd_same; exact Hi|exact A].
  - pose proof (iv_readers _ _ _ _ I). destruct Hr as [Hr|(X & _)]; [|right; exact X]. destruct (iv_rleak _ _ _ _ I) as [E|X]; [left; lia|right; auto].
Qed.

Lemma settle_cases i x m p k s : (exists a, p = PRet a /\ settle i x m p k s = add_log (i, x, a) (set_thread i (Idle (k a)) s)) \/
  ((forall a, p <> PRet a) /\ settle i x m p k s = set_thread i (Busy x m p k) s).
Proof. destruct p; try (right; split; [discriminate|reflexivity]). left. eexists. split; reflexivity. Qed.

Lemma nil_log (s : state) : exists l, st_log s = st_log s ++ l.
Proof. exists []. rewrite app_nil_r. reflexivity. Qed.

Theorem inv_step env c0 s cc i s' : inv_at env c0 s cc -> tstep env i s = Some s' -> exists cc', inv_at env c0 s' cc'.
Proof.
  intros I H. unfold tstep in H. destruct (nth_error (st_threads s) i) as [th|] eqn:Hi; [|discriminate].
  (* the others when thread i, or nobody, holds the write lock *)
  assert (Alone : st_writer s = true -> in_mode W th = true -> forall j th0, j <> i -> nth_error (st_threads s) j = Some th0 -> in_mode W th0 = false /\ in_mode R th0 = false).
  { intros Hw Hm j th0 Hn Hj. split.
    - destruct (in_mode W th0) eqn:M; [|reflexivity]. exfalso. apply Hn. eapply iv_one; eassumption.
    - destruct (in_mode R th0) eqn:M; [|reflexivity]. pose proof (iv_readers _ _ _ _ I). pose proof (iv_excl _ _ _ _ I Hw). pose proof (count_pos _ _ _ _ Hj M). unfold reading in *. lia. }
  assert (NoW : st_writer s = false -> forall j th0, nth_error (st_threads s) j = Some th0 -> in_mode W th0 = false).
  { intros Hw j th0 Hj. destruct (in_mode W th0) eqn:M; [|reflexivity]. pose proof (iv_writer _ _ _ _ I _ _ Hj M). congruence. }
  destruct th as [[|x k]|x m p k]; [discriminate| |].
  - (* invocation *)
    inversion H; subst s'; clear H. pose proof (code_good env x) as G.
    destruct (settle_cases i x Out (prog_of env x) k s) as [(a & E & ->)|[E ->]]; [rewrite E in G; contradiction|].
    exists cc. eapply (inv_put env c0 s cc i); try eassumption; try reflexivity; cbn [st_threads st_codec st_log st_writer st_readers set_thread in_mode b2n].
    + apply iv_log with (1 := I).
    + apply nil_log.
    + eapply good_out. exact G.
    + left; auto.
    + intros _ Ho. apply (iv_same _ _ _ _ I). intros j th0 Hj. destruct (Nat.eq_dec j i) as [->|Hn]; [|eapply Ho; eassumption]. rewrite Hi in Hj. inversion Hj; subst. reflexivity.
    + discriminate.
    + intros (j & th0 & _ & Hj & Hm). eapply iv_writer; eassumption.
    + apply (iv_excl _ _ _ _ I).
    + left. lia.
    + intros Hw. left. split; [exact Hw|]. intros; congruence.
  - pose proof (iv_good _ _ _ _ I _ _ _ _ _ Hi) as G. destruct p as [a|q|q|q|q|f|f q].
    + discriminate.
    + (* Lock *)
      destruct (st_writer s) eqn:Hw; [discriminate|]. destruct (Nat.ltb_spec 0 (st_readers s)) as [Hr|Hr]; [discriminate|]. cbn [orb] in H. inversion H; subst s'; clear H.
      assert (Hm : m = Out). { destruct m; [reflexivity|pose proof (NoW eq_refl _ _ Hi); discriminate|contradiction G]. } subst m. cbn [good] in G.
      assert (Hcc : st_codec s = cc) by (apply (iv_same _ _ _ _ I); apply NoW; reflexivity).
      pose proof (iv_readers _ _ _ _ I) as Hrd. assert (Hr0 : st_readers s = 0%nat) by lia.
      assert (Others : forall j th0, j <> i -> nth_error (st_threads s) j = Some th0 -> in_mode W th0 = false /\ in_mode R th0 = false).
      { intros j th0 _ Hj. split; [apply (NoW eq_refl _ _ Hj)|]. destruct (in_mode R th0) eqn:M; [|reflexivity]. pose proof (count_pos _ _ _ _ Hj M). unfold reading in *. lia. }
      destruct (settle_cases i x W q k (set_lock true 0 s)) as [(a & -> & ->)|[E ->]].
      * specialize (G cc). cbn [good] in G. destruct G as (G1 & G2 & G3 & G4).
        exists cc. eapply (inv_put env c0 s cc i); try eassumption; try reflexivity; cbn [st_threads st_codec st_log st_writer st_readers set_thread set_lock add_log in_mode b2n].
        -- eapply replay_one; [apply (iv_log _ _ _ _ I)|exact G2|exact G1].
        -- eexists; reflexivity.
        -- left; auto.
        -- auto.
        -- discriminate.
        -- left; lia.
        -- intros _. right. right. apply Exists_app; right; constructor; apply get_entry; exact G4.
      * exists cc. eapply (inv_put env c0 s cc i); try eassumption; try reflexivity; cbn [st_threads st_codec st_log st_writer st_readers set_thread set_lock add_log in_mode b2n].
        -- apply (iv_log _ _ _ _ I).
        -- apply nil_log.
        -- rewrite Hcc. apply G.
        -- left; auto.
        -- discriminate.
        -- intros _. split; [reflexivity|]. intros j th0 Hn Hj. apply (Others j th0 Hn Hj).
        -- left; lia.
        -- intros _. right. left. reflexivity.
    + (* Unlock *)
      destruct (st_writer s) eqn:Hw; [|discriminate]. inversion H; subst s'; clear H.
      assert (Hm : m = W) by (destruct m; [contradiction G|reflexivity|contradiction G]). subst m. cbn [good] in G.
      destruct (settle_cases i x Out q k (set_lock false (st_readers s) s)) as [(a & -> & ->)|[E ->]].
      * destruct G as [G1 G2]. exists (st_codec s).
        eapply (inv_put env c0 s cc i); try eassumption; try reflexivity; cbn [st_threads st_codec st_log st_writer st_readers set_thread set_lock add_log in_mode b2n].
        -- eapply replay_one; [apply (iv_log _ _ _ _ I)|exact G2|exact G1].
        -- eexists; reflexivity.
        -- right. apply (Alone eq_refl eq_refl).
        -- discriminate.
        -- intros (j & th0 & Hn & Hj & Hm). destruct (Alone eq_refl eq_refl _ _ Hn Hj). congruence.
        -- discriminate.
        -- left; lia.
        -- discriminate.
      * assert (G' : st_codec s = cc /\ good env x Out (st_codec s) (st_codec s) q) by (destruct q; try exact G; exfalso; eapply E; reflexivity). destruct G' as [G1 G2].
        exists cc. eapply (inv_put env c0 s cc i); try eassumption; try reflexivity; cbn [st_threads st_codec st_log st_writer st_readers set_thread set_lock add_log in_mode b2n].
        -- apply (iv_log _ _ _ _ I).
        -- apply nil_log.
        -- eapply good_out. exact G2.
        -- left; auto.
        -- intros; exact G1.
        -- discriminate.
        -- intros (j & th0 & Hn & Hj & Hm). destruct (Alone eq_refl eq_refl _ _ Hn Hj). congruence.
        -- discriminate.
        -- left; lia.
        -- discriminate.
    + (* RLock *)
      destruct (st_writer s) eqn:Hw; [discriminate|]. inversion H; subst s'; clear H.
      assert (Hm : m = Out). { destruct m; [reflexivity|pose proof (NoW eq_refl _ _ Hi); discriminate|contradiction G]. } subst m. cbn [good] in G.
      assert (Hcc : st_codec s = cc) by (apply (iv_same _ _ _ _ I); apply NoW; reflexivity). specialize (G cc).
      destruct (settle_cases i x R q k (set_lock false (S (st_readers s)) s)) as [(a & -> & ->)|[E ->]].
      * cbn [good] in G. destruct G as (G1 & G2 & G3 & G4).
        exists cc. eapply (inv_put env c0 s cc i); try eassumption; try reflexivity; cbn [st_threads st_codec st_log st_writer st_readers set_thread set_lock add_log in_mode b2n].
        -- eapply replay_one; [apply (iv_log _ _ _ _ I)|exact G2|exact G1].
        -- eexists; reflexivity.
        -- left; auto.
        -- intros; exact Hcc.
        -- discriminate.
        -- intros (j & th0 & Hn & Hj & Hm). pose proof (NoW eq_refl _ _ Hj). congruence.
        -- discriminate.
        -- right. split; [apply Exists_app; right; constructor; apply prefix_entry; exact G4|]. split; [lia|reflexivity].
        -- discriminate.
      * exists cc. eapply (inv_put env c0 s cc i); try eassumption; try reflexivity; cbn [st_threads st_codec st_log st_writer st_readers set_thread set_lock add_log in_mode b2n].
        -- apply (iv_log _ _ _ _ I).
        -- apply nil_log.
        -- rewrite Hcc. exact G.
        -- left; auto.
        -- intros; exact Hcc.
        -- discriminate.
        -- intros (j & th0 & Hn & Hj & Hm). pose proof (NoW eq_refl _ _ Hj). congruence.
        -- discriminate.
        -- left; lia.
        -- discriminate.
    + (* RUnlock *)
      assert (Hm : m = R) by (destruct m; [contradiction G|contradiction G|reflexivity]). subst m. cbn [good] in G.
      pose proof (iv_readers _ _ _ _ I) as Hrd. pose proof (count_pos (in_mode R) _ _ _ Hi eq_refl) as Hp. unfold reading in Hrd. destruct (st_readers s) as [|r] eqn:Hr; [lia|]. inversion H; subst s'; clear H.
      assert (Hw : st_writer s = false). { destruct (st_writer s) eqn:Hw; [|reflexivity]. pose proof (iv_excl _ _ _ _ I Hw). lia. }
      assert (Hcc : st_codec s = cc) by (apply (iv_same _ _ _ _ I); apply NoW; exact Hw).
      destruct (settle_cases i x Out q k (set_lock (st_writer s) r s)) as [(a & -> & ->)|[E ->]]; [|destruct q; try contradiction G; exfalso; eapply E; reflexivity].
      destruct G as (G1 & G2 & G3). exists cc.
      eapply (inv_put env c0 s cc i); try eassumption; try reflexivity; cbn [st_threads st_codec st_log st_writer st_readers set_thread set_lock add_log in_mode b2n].
      * rewrite Hcc in G1. eapply replay_one; [apply (iv_log _ _ _ _ I)|exact G2|exact G1].
      * eexists; reflexivity.
      * left; auto.
      * intros; exact Hcc.
      * discriminate.
      * intros (j & th0 & Hn & Hj & Hm). pose proof (NoW Hw _ _ Hj). congruence.
      * congruence.
      * left; lia.
      * congruence.
    + (* read *)
      inversion H; subst s'; clear H.
      destruct (settle_cases i x m (f (st_codec s)) k s) as [(a & E & ->)|[E ->]].
      * (* the last action *)
        destruct m; cbn [good] in G; rewrite ?E in G; cbn [good] in G.
        -- destruct G as [U _]. exists cc.
           eapply (inv_put env c0 s cc i); try eassumption; try reflexivity; cbn [st_threads st_codec st_log st_writer st_readers set_thread set_lock add_log in_mode b2n].
           ++ apply replay_unlocked; [apply (iv_log _ _ _ _ I)|exact U].
           ++ eexists; reflexivity.
           ++ left; auto.
           ++ intros _ Ho. apply (iv_same _ _ _ _ I). intros j th0 Hj. destruct (Nat.eq_dec j i) as [->|Hn]; [|eapply Ho; eassumption]. rewrite Hi in Hj. inversion Hj; subst. reflexivity.
           ++ discriminate.
           ++ intros (j & th0 & _ & Hj & Hm). eapply iv_writer; eassumption.
           ++ apply (iv_excl _ _ _ _ I).
           ++ left; lia.
           ++ intros Hw. left. split; [exact Hw|]. discriminate.
        -- destruct G as (G1 & G2 & G3 & G4). exists cc. pose proof (iv_writer _ _ _ _ I _ _ Hi eq_refl) as Hw.
           eapply (inv_put env c0 s cc i); try eassumption; try reflexivity; cbn [st_threads st_codec st_log st_writer st_readers set_thread set_lock add_log in_mode b2n].
           ++ rewrite G3 in G1. eapply replay_one; [apply (iv_log _ _ _ _ I)|exact G2|exact G1].
           ++ eexists; reflexivity.
           ++ left; auto.
           ++ intros; exact G3.
           ++ discriminate.
           ++ intros; exact Hw.
           ++ apply (iv_excl _ _ _ _ I).
           ++ left; lia.
           ++ intros _. right. right. apply Exists_app; right; constructor; apply get_entry; exact G4.
        -- destruct G as (G1 & G2 & G3 & G4). exists cc.
           eapply (inv_put env c0 s cc i); try eassumption; try reflexivity; cbn [st_threads st_codec st_log st_writer st_readers set_thread set_lock add_log in_mode b2n].
           ++ rewrite G3 in G1. eapply replay_one; [apply (iv_log _ _ _ _ I)|exact G2|exact G1].
           ++ eexists; reflexivity.
           ++ left; auto.
           ++ intros; exact G3.
           ++ discriminate.
           ++ intros (j & th0 & _ & Hj & Hm). eapply iv_writer; eassumption.
           ++ apply (iv_excl _ _ _ _ I).
           ++ right. split; [apply Exists_app; right; constructor; apply prefix_entry; exact G4|]. split; [lia|reflexivity].
           ++ intros Hw. left. split; [exact Hw|]. discriminate.
      * assert (G' : m <> Out /\ good env x m cc (st_codec s) (f (st_codec s))).
        { destruct m; cbn [good] in G; [|split; [discriminate|exact G]..]. destruct G as [_ G]. destruct (G (st_codec s)) as [a Ea]. exfalso. eapply E. exact Ea. }
        destruct G' as [Hm G']. exists cc.
        eapply (inv_put env c0 s cc i); try eassumption; try reflexivity; cbn [st_threads st_codec st_log st_writer st_readers set_thread set_lock add_log].
        -- apply (iv_log _ _ _ _ I).
        -- apply nil_log.
        -- exact G'.
        -- left; auto.
        -- intros M Ho. apply (iv_same _ _ _ _ I). intros j th0 Hj. destruct (Nat.eq_dec j i) as [->|Hn]; [|eapply Ho; eassumption]. rewrite Hi in Hj. inversion Hj; subst. exact M.
        -- intros M. split; [eapply iv_writer; [exact I|exact Hi|exact M]|]. intros j th0 Hn Hj. apply (Alone (iv_writer _ _ _ _ I _ _ Hi M) M _ _ Hn Hj).
        -- intros (j & th0 & _ & Hj & Hm'). eapply iv_writer; eassumption.
        -- apply (iv_excl _ _ _ _ I).
        -- left; reflexivity.
        -- intros Hw. left. split; [exact Hw|auto].
    + (* write *)
      inversion H; subst s'; clear H.
      assert (Hm : m = W) by (destruct m; [contradiction G|reflexivity|contradiction G]). subst m. cbn [good] in G. pose proof (iv_writer _ _ _ _ I _ _ Hi eq_refl) as Hw.
      destruct (settle_cases i x W q k (set_codec (f (st_codec s)) s)) as [(a & -> & ->)|[E ->]].
      * cbn [good] in G. destruct G as (G1 & G2 & G3 & G4). exists cc.
        eapply (inv_put env c0 s cc i); try eassumption; try reflexivity; cbn [st_threads st_codec st_log st_writer st_readers set_thread set_lock set_codec add_log in_mode b2n].
        -- rewrite G3 in G1. eapply replay_one; [apply (iv_log _ _ _ _ I)|exact G2|exact G1].
        -- eexists; reflexivity.
        -- right. apply (Alone Hw eq_refl).
        -- intros; exact G3.
        -- discriminate.
        -- intros; exact Hw.
        -- apply (iv_excl _ _ _ _ I).
        -- left; lia.
        -- intros _. right. right. apply Exists_app; right; constructor; apply get_entry; exact G4.
      * exists cc.
        eapply (inv_put env c0 s cc i); try eassumption; try reflexivity; cbn [st_threads st_codec st_log st_writer st_readers set_thread set_lock set_codec add_log in_mode b2n].
        -- apply (iv_log _ _ _ _ I).
        -- apply nil_log.
        -- exact G.
        -- right. apply (Alone Hw eq_refl).
        -- discriminate.
        -- intros _. split; [exact Hw|]. intros j th0 Hn Hj. apply (Alone Hw eq_refl _ _ Hn Hj).
        -- intros; exact Hw.
        -- apply (iv_excl _ _ _ _ I).
        -- left; lia.
        -- intros _. right. left. reflexivity.
Qed.

Lemma start_inv env c cls : inv_at env c (start c cls) c.
Proof.
  assert (N : forall i th m, nth_error (st_threads (start c cls)) i = Some th -> in_mode m th = false).
  { intros i th m H. cbn [start st_threads] in H. apply nth_error_In in H. apply in_map_iff in H. destruct H as (cl & <- & _). reflexivity. }
  assert (R0 : reading (start c cls) = 0%nat).
  { unfold reading. cbn [start st_threads]. clear N. induction cls; [reflexivity|exact IHcls]. }
  split.
  - constructor.
  - intros i x m p k H. cbn [start st_threads] in H. apply nth_error_In in H. apply in_map_iff in H. destruct H as (cl & H & _). discriminate.
  - reflexivity.
  - intros i th H Hm. rewrite (N _ _ _ H) in Hm. discriminate.
  - intros i j th th' H _ Hm _. rewrite (N _ _ _ H) in Hm. discriminate.
  - discriminate.
  - rewrite R0. cbn; lia.
  - discriminate.
  - left. rewrite R0. reflexivity.
Qed.

Theorem inv_steps env c cls s : steps env (start c cls) s -> exists cc, inv_at env c s cc.
Proof.
  intros H. remember (start c cls) as s0 eqn:E. induction H as [s|s s' s'' i H IH Hs]; subst.
  - exists c. apply start_inv.
  - destruct (IH eq_refl) as [cc I]. eapply inv_step; eassumption.
Qed.
