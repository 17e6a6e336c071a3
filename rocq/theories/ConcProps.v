(** Consequences for goroutines sharing one codec. *)
From Coq Require Import ZArith String List Bool Lia.
From Coq Require Import ZifyBool ZifyNat.
From Verif Require Import Base Prims Types Codec Registry RegistryFacts Conc SpecConc ConcFacts.
Import ListNotations.
Local Open Scope Z_scope.

(** ** Linearization *)

Lemma not_writing s : writing s = false -> forall i th, nth_error (st_threads s) i = Some th -> in_mode W th = false.
Proof.
  intros H i th Hi. destruct (in_mode W th) eqn:M; [|reflexivity]. apply nth_error_In in Hi.
  assert (writing s = true) by (apply existsb_exists; exists th; auto). congruence.
Qed.
Lemma is_writing s i th : nth_error (st_threads s) i = Some th -> in_mode W th = true -> writing s = true.
Proof. intros Hi Hm. apply nth_error_In in Hi. apply existsb_exists. exists th. auto. Qed.

Theorem replay_all env c cls s : steps env (start c cls) s -> writing s = false -> replay env c (st_log s) (st_codec s).
Proof.
  intros H Hw. destruct (inv_steps _ _ _ _ H) as [cc I]. rewrite (iv_same _ _ _ _ I (not_writing _ Hw)). apply (iv_log _ _ _ _ I).
Qed.
Theorem replay_some env c cls s : steps env (start c cls) s -> exists c', replay env c (st_log s) c'.
Proof. intros H. destruct (inv_steps _ _ _ _ H) as [cc I]. exists cc. apply (iv_log _ _ _ _ I). Qed.

(** Without Seal, the exception for late registrations does not arise. *)

Lemma unsealed_step env c x : cd_sealed c = false -> x <> OSeal -> cd_sealed (fst (step env c x)) = false.
Proof.
  intros Hs Hx. destruct x; cbn [step]; [| |congruence|].
  - unfold register_interface. rewrite Hs. destruct (new_iface_info env i o); try exact Hs. destruct (negb _); [exact Hs|]. destruct (find_iface _ _); exact Hs.
  - unfold register_concrete. rewrite Hs. assert (G : forall rt ptr, cd_sealed (fst (reg_seq env c rt ptr name)) = false).
    { intros rt ptr. unfold reg_seq. destruct (new_registered_info env rt ptr name) as [ci| | |]; try exact Hs.
      destruct (add_check_conflicts env ci (cd_ifaces c)) as [ifs ok]. cbv zeta. destruct (negb ok); [exact Hs|]. unfold set_registered.
      destruct (assoc _ _ _); [exact Hs|]. cbv zeta. destruct (assoc beqb _ _); [exact Hs|]. destruct (assoc beqb _ _); exact Hs. }
    unfold reg_seq in G. destruct t as [| | | |e| | | | |]; try apply G; try exact Hs. destruct e; try apply G; exact Hs.
  - cbn [fst]. destruct (get_type_info_st_cases env c t) as [-> | (rt & ci & _ & _ & _ & _ & ->)]; exact Hs.
Qed.

Lemma reply_run env c x : fst (reply env c x) = run env c (op_of x).
Proof. destruct x; reflexivity. Qed.
Lemma run_app env h : forall c h', run env c (h ++ h') = run env (run env c h) h'.
Proof. induction h as [|x h IH]; intros c h'; cbn [app run]; [reflexivity|apply IH]. Qed.

Theorem replay_run env c l c' : replay env c l c' -> no_seal l -> cd_sealed c = false -> c' = run env c (ops_of l).
Proof.
  intros H. induction H as [c|c i x a c' l c'' U E H IH|c i x a c' l c'' Hx Hs E H IH|c i x a l c'' U H IH]; intros Hn Hc.
  - reflexivity.
  - change (ops_of ((i, x, a) :: l)) with (op_of x ++ ops_of l). rewrite run_app, <- reply_run, E. cbn [fst].
    apply IH; [intros j b Hin; eapply Hn; right; exact Hin|].
    assert (c' = run env c (op_of x)) by (rewrite <- reply_run, E; reflexivity). subst c'.
    destruct x; try exact Hc; cbn [op_of run]; apply unsealed_step; try exact Hc; try discriminate. intros _. eapply Hn. left. reflexivity.
  - congruence.
  - change (ops_of ((i, x, a) :: l)) with (op_of x ++ ops_of l). destruct x; try discriminate. cbn [op_of app]. apply IH; [|exact Hc]. intros j b Hin. eapply Hn. right. exact Hin.
Qed.

Theorem replay_serial env c l c' : replay env c l c' -> no_seal l -> Forall (fun e => unlocked (snd (fst e)) = false) l -> cd_sealed c = false -> serial env c l c'.
Proof.
  intros H. induction H as [c|c i x a c' l c'' U E H IH|c i x a c' l c'' Hx Hs E H IH|c i x a l c'' U H IH]; intros Hn Hf Hc.
  - reflexivity.
  - cbn [serial]. rewrite E. cbn [fst snd]. split; [reflexivity|]. inversion Hf; subst. apply IH; [intros j b Hin; eapply Hn; right; exact Hin|assumption|].
    assert (c' = run env c (op_of x)) by (rewrite <- reply_run, E; reflexivity). subst c'.
    destruct x; try exact Hc; cbn [op_of run]; apply unsealed_step; try exact Hc; try discriminate. intros _. eapply Hn. left. reflexivity.
  - congruence.
  - inversion Hf; subst. cbn [fst snd] in *. congruence.
Qed.

(** ** Data races *)

Theorem races env c cls s i j thi thj : steps env (start c cls) s -> i <> j -> nth_error (st_threads s) i = Some thi -> nth_error (st_threads s) j = Some thj ->
  at_write thi = true -> at_access thj = true -> exists x m p k, thj = Busy x m p k /\ unlocked x = true /\ at_write thj = false.
Proof.
  intros H Hij Hi Hj Wi Aj. destruct (inv_steps _ _ _ _ H) as [cc I].
  destruct thi as [cl|x m p k]; [discriminate|]. destruct p; try discriminate. pose proof (iv_good _ _ _ _ I _ _ _ _ _ Hi) as Gi.
  assert (m = W) by (destruct m; [contradiction|reflexivity|contradiction]). subst m.
  pose proof (iv_writer _ _ _ _ I _ _ Hi eq_refl) as Hw. pose proof (iv_excl _ _ _ _ I Hw) as Hr0. pose proof (iv_readers _ _ _ _ I) as Hr. unfold reading in Hr.
  destruct thj as [cl|y m q k']; [discriminate|]. pose proof (iv_good _ _ _ _ I _ _ _ _ _ Hj) as Gj. exists y, m, q, k'. split; [reflexivity|].
  destruct m.
  - destruct q; try discriminate; try contradiction. split; [apply Gj|reflexivity].
  - exfalso. apply Hij. eapply iv_one; try eassumption; reflexivity.
  - exfalso. pose proof (count_pos (in_mode R) _ _ _ Hj eq_refl). lia.
Qed.

(** ** What a call in progress can do *)

Lemma steps_trans env a b c : steps env a b -> steps env b c -> steps env a c.
Proof. intros H1 H2. induction H2; [exact H1|]. eapply ss_step; [apply IHsteps; exact H1|eassumption]. Qed.

Lemma sched_steps env l : forall s s', sched env l s = Some s' -> steps env s s'.
Proof.
  induction l as [|i l IH]; intros s s' H; cbn [sched] in H; [inversion H; constructor|].
  destruct (tstep env i s) as [s1|] eqn:E; [|discriminate]. eapply steps_trans; [|apply IH; exact H]. eapply ss_step; [constructor|exact E].
Qed.

(** Every write of [p] keeps the seal. *)
Fixpoint keeps (p : prog) : Prop :=
  match p with
  | PRet _ => True
  | PLock k | PUnlock k | PRLock k | PRUnlock k => keeps k
  | PRead f => forall c, keeps (f c)
  | PWrite f k => (forall c, cd_sealed c = true -> cd_sealed (f c) = true) /\ keeps k
  end.
(** [p] leaves what is registered alone. *)
Fixpoint mild (p : prog) : Prop :=
  match p with
  | PRet _ => True
  | PLock k | PUnlock k | PRLock k | PRUnlock k => mild k
  | PRead f => forall c, mild (f c)
  | PWrite f k => (forall c, tables (f c) = tables c) /\ mild k
  end.
(** As long as the codec is sealed, [p] ends in the panic and writes nothing. *)
Fixpoint doomed (p : prog) : Prop :=
  match p with
  | PRet a => a = APanic sealed_msg
  | PLock k | PUnlock k | PRLock k | PRUnlock k => doomed k
  | PRead f => forall c, cd_sealed c = true -> doomed (f c)
  | PWrite _ _ => False
  end.

Lemma loop_keeps env ci k : keeps k -> forall n i, keeps (impl_loop env ci i n k).
Proof.
  intros Hk. induction n as [|n IH]; intros i; cbn [impl_loop keeps]; [exact Hk|]. intros c. destruct (nth_error _ _) as [ii|]; [|exact I].
  destruct (negb _); [apply IH|]. cbn [keeps]. split; [auto|]. intros c'. destruct (nth_error _ _) as [ii'|]; [|exact I]. destruct (check_conflicts _); [apply IH|]. cbn [keeps fail]. auto.
Qed.
Lemma reg_keeps env rt ptr name : keeps (conc_reg env rt ptr name).
Proof.
  unfold conc_reg. destruct (new_registered_info _ _ _ _); try exact I. cbn [keeps]. intros c. apply loop_keeps.
  unfold set_prog. cbn [keeps]. intros c1. destruct (assoc _ _ _); [exact I|]. cbn [keeps]. split; [auto|]. split; [auto|]. intros c2. destruct (assoc _ _ _); [exact I|].
  cbn [keeps]. intros c3. destruct (assoc _ _ _); [exact I|]. cbn [keeps]. auto.
Qed.
Lemma code_keeps env x : keeps (prog_of env x).
Proof.
  destruct x; cbn [prog_of assert_not_sealed keeps].
  - intros c. destruct (cd_sealed c); [exact I|]. cbn [keeps]. unfold iface_main. destruct (new_iface_info _ _ _); try exact I. cbn [keeps]. intros c1.
    destruct (negb _); [exact I|]. cbn [keeps]. intros c2. destruct (find_iface _ _); [exact I|]. cbn [keeps]. auto.
  - intros c. destruct (cd_sealed c); [exact I|]. cbn [keeps]. pose proof (reg_keeps env) as G. unfold conc_reg in G.
    destruct t as [| | | |e| | | | |]; try apply G; try exact I. destruct e; try apply G; exact I.
  - split; [reflexivity|exact I].
  - exact (fun _ => I).
  - unfold get_prog. cbn [keeps]. intros c. destruct (deref_type t); try (destruct (assoc _ _ _); [exact I|]; destruct (new_type_info _ _); cbn [keeps]; auto).
    destruct (find_iface _ _); exact I.
  - unfold prefix_prog. cbn [keeps]. intros c. destruct (find_iface _ _) as [ii|]; [|exact I]. destruct (type_info_from_prefix ii pb); exact I.
  - exact (fun _ => I).
  - exact (fun _ => I).
  - exact (fun _ => I).
Qed.
Lemma code_mild env x : registers x = false -> mild (prog_of env x).
Proof.
  intros Hx. destruct x; try discriminate; cbn [prog_of mild].
  - split; [reflexivity|exact I].
  - exact (fun _ => I).
  - unfold get_prog. cbn [mild]. intros c. destruct (deref_type t); try (destruct (assoc _ _ _); [exact I|]; destruct (new_type_info _ _); cbn [mild]; auto).
    destruct (find_iface _ _); exact I.
  - unfold prefix_prog. cbn [mild]. intros c. destruct (find_iface _ _) as [ii|]; [|exact I]. destruct (type_info_from_prefix ii pb); exact I.
  - exact (fun _ => I).
  - exact (fun _ => I).
  - exact (fun _ => I).
Qed.
Lemma code_doomed env x : registers x = true -> doomed (prog_of env x).
Proof. intros Hx. destruct x; try discriminate; cbn [prog_of assert_not_sealed doomed]; intros c Hc; rewrite Hc; reflexivity. Qed.

(** One step: thread [i] calls, or goes on. *)
Inductive moved (env : tenv) (i : nat) (s s' : state) : Prop :=
| mv_call x k : nth_error (st_threads s) i = Some (Idle (Call x k)) -> s' = settle i x Out (prog_of env x) k s -> moved env i s s'
| mv_on x m p k m' p' : nth_error (st_threads s) i = Some (Busy x m p k) ->
    (match p with
     | PLock q | PUnlock q | PRLock q | PRUnlock q => p' = q
     | PRead f => p' = f (st_codec s) | PWrite _ q => p' = q | PRet _ => False end) ->
    st_threads s' = st_threads (settle i x m' p' k s) -> st_log s' = st_log (settle i x m' p' k s) ->
    st_codec s' = match p with PWrite f _ => f (st_codec s) | _ => st_codec s end -> moved env i s s'.

Lemma settle_same i x m p k s s1 : st_threads s1 = st_threads s -> st_log s1 = st_log s ->
  st_threads (settle i x m p k s1) = st_threads (settle i x m p k s) /\ st_log (settle i x m p k s1) = st_log (settle i x m p k s) /\ st_codec (settle i x m p k s1) = st_codec s1.
Proof. intros E1 E2. unfold settle. destruct p; cbn [add_log set_thread st_threads st_log st_codec]; rewrite ?E1, ?E2; auto. Qed.

Lemma tstep_moved env i s s' : tstep env i s = Some s' -> moved env i s s'.
Proof.
  intros H. unfold tstep in H. destruct (nth_error (st_threads s) i) as [th|] eqn:Hi; [|discriminate].
  destruct th as [[|x k]|x m p k]; [discriminate| |].
  - inversion H. eapply mv_call; [exact Hi|reflexivity].
  - destruct p as [a|q|q|q|q|f|f q]; [discriminate|..].
    + destruct (st_writer s || _); [discriminate|]. inversion H; subst s'. destruct (settle_same i x W q k s (set_lock true 0 s)) as (A & B & C); try reflexivity. eapply mv_on; [exact Hi|reflexivity|exact A|exact B|exact C].
    + destruct (st_writer s); [|discriminate]. inversion H; subst s'. destruct (settle_same i x Out q k s (set_lock false (st_readers s) s)) as (A & B & C); try reflexivity. eapply mv_on; [exact Hi|reflexivity|exact A|exact B|exact C].
    + destruct (st_writer s); [discriminate|]. inversion H; subst s'. destruct (settle_same i x R q k s (set_lock false (S (st_readers s)) s)) as (A & B & C); try reflexivity. eapply mv_on; [exact Hi|reflexivity|exact A|exact B|exact C].
    + destruct (st_readers s) as [|r]; [discriminate|]. inversion H; subst s'. destruct (settle_same i x Out q k s (set_lock (st_writer s) r s)) as (A & B & C); try reflexivity. eapply mv_on; [exact Hi|reflexivity|exact A|exact B|exact C].
    + inversion H; subst s'. destruct (settle_same i x m (f (st_codec s)) k s s) as (A & B & C); try reflexivity. eapply mv_on; [exact Hi|reflexivity|exact A|exact B|exact C].
    + inversion H; subst s'. destruct (settle_same i x m q k s (set_codec (f (st_codec s)) s)) as (A & B & C); try reflexivity. eapply mv_on; [exact Hi|reflexivity|exact A|exact B|exact C].
Qed.

(** After a step, thread [j] is in a call with [p] left only if it was before, or it is
    the one that moved. *)
Lemma settle_busy i x m p k s j y m' q k' : nth_error (st_threads (settle i x m p k s)) j = Some (Busy y m' q k') ->
  (j = i /\ y = x /\ q = p /\ k' = k /\ forall a, p <> PRet a) \/ (j <> i /\ nth_error (st_threads s) j = Some (Busy y m' q k')).
Proof.
  intros H.
  destruct (settle_cases i x m p k s) as [(a & -> & E)|[Hp E]]; rewrite E in H; cbn [add_log set_thread st_threads] in H; destruct (Nat.eq_dec j i) as [->|Hn].
  - destruct (nth_error (st_threads s) i) as [th|] eqn:Ei.
    + rewrite (nth_upd_same _ _ _ _ Ei) in H. discriminate.
    + exfalso. clear E. revert i Ei H. induction (st_threads s) as [|t l IH]; intros [|i] Ei H; cbn in *; try discriminate. eapply IH; eassumption.
  - right. split; [exact Hn|]. rewrite nth_upd_other in H by congruence. exact H.
  - left. destruct (nth_error (st_threads s) i) as [th|] eqn:Ei.
    + rewrite (nth_upd_same _ _ _ _ Ei) in H. inversion H; subst. auto.
    + exfalso. clear E. revert i Ei H. induction (st_threads s) as [|t l IH]; intros [|i] Ei H; cbn in *; try discriminate. eapply IH; eassumption.
  - right. split; [exact Hn|]. rewrite nth_upd_other in H by congruence. exact H.
Qed.

Lemma settle_log i x m p k s : st_log (settle i x m p k s) = st_log s ++ match p with PRet a => [(i, x, a)] | _ => [] end.
Proof. destruct p; cbn; rewrite ?app_nil_r; reflexivity. Qed.
Lemma settle_codec i x m p k s : st_codec (settle i x m p k s) = st_codec s.
Proof. destruct p; reflexivity. Qed.

(** A predicate on the code of calls that holds when they start and is kept. *)
Section Codes.
  Variable env : tenv.
  Variable S : call -> bool.                     (* the calls it is about *)
  Variable Q : prog -> Prop.
  Variable C : codec -> Prop.                    (* while the codec is so *)
  Hypothesis Hcode : forall x, S x = true -> Q (prog_of env x).
  Hypothesis Hnext : forall p c, C c -> Q p ->
    match p with
    | PLock q | PUnlock q | PRLock q | PRUnlock q => Q q
    | PRead f => Q (f c) | PWrite f q => Q q | PRet _ => True end.
  Definition holds (s : state) : Prop := forall i x m p k, nth_error (st_threads s) i = Some (Busy x m p k) -> S x = true -> Q p.
  Lemma holds_step i s s' : C (st_codec s) -> holds s -> tstep env i s = Some s' -> holds s'.
  Proof.
    intros Hc H Hs j y m q k Hj Hy. destruct (tstep_moved _ _ _ _ Hs) as [x k0 Hi ->|x m0 p k0 m' p' Hi Hp Ht Hl Hcc].
    - apply settle_busy in Hj. destruct Hj as [(-> & -> & -> & _)|[_ Hj]]; [apply Hcode; exact Hy|eapply H; eassumption].
    - rewrite Ht in Hj. apply settle_busy in Hj. destruct Hj as [(-> & -> & -> & _)|[_ Hj]]; [|eapply H; eassumption].
      pose proof (Hnext p (st_codec s) Hc (H _ _ _ _ _ Hi Hy)) as N. destruct p; subst; try exact N. contradiction.
  Qed.
End Codes.

Definition always : call -> bool := fun _ => true.
Lemma start_holds S Q c cls : holds S Q (start c cls).
Proof. intros i x m p k H. cbn [start st_threads] in H. apply nth_error_In in H. apply in_map_iff in H. destruct H as (cl & H & _). discriminate. Qed.

Lemma keeps_step env i s s' : holds always keeps s -> tstep env i s = Some s' -> holds always keeps s'.
Proof.
  intros H Hs. eapply (holds_step env always keeps (fun _ => True)); try eassumption; try exact I.
  - intros x _. apply code_keeps.
  - intros p c _ Hp. destruct p; cbn [keeps] in Hp; auto. apply Hp.
Qed.
Lemma mild_step env i s s' : holds (fun x => negb (registers x)) mild s -> tstep env i s = Some s' -> holds (fun x => negb (registers x)) mild s'.
Proof.
  intros H Hs. eapply (holds_step env _ mild (fun _ => True)); try eassumption; try exact I.
  - intros x Hx. apply code_mild. destruct (registers x); [discriminate|reflexivity].
  - intros p c _ Hp. destruct p; cbn [mild] in Hp; auto. apply Hp.
Qed.
Lemma doomed_step env i s s' : cd_sealed (st_codec s) = true -> holds registers doomed s -> tstep env i s = Some s' -> holds registers doomed s'.
Proof.
  intros Hc H Hs. eapply (holds_step env registers doomed (fun c => cd_sealed c = true)); try eassumption.
  - intros x Hx. apply code_doomed. exact Hx.
  - intros p c Hc' Hp. destruct p; cbn [doomed] in Hp; auto. contradiction.
Qed.
Lemma sealed_kept env i s s' : holds always keeps s -> tstep env i s = Some s' -> cd_sealed (st_codec s) = true -> cd_sealed (st_codec s') = true.
Proof.
  intros H Hs Hc. destruct (tstep_moved _ _ _ _ Hs) as [x k0 Hi ->|x m0 p k0 m' p' Hi Hp Ht Hl Hcc].
  - rewrite settle_codec. exact Hc.
  - rewrite Hcc. destruct p; try exact Hc. pose proof (H _ _ _ _ _ Hi eq_refl) as K. apply K. exact Hc.
Qed.

(** When Seal has returned, the codec is sealed. *)
Definition seal_rest : prog := PWrite seal (PUnlock (PRet ADone)).
Definition sealing (s : state) : Prop :=
  (forall i a, In (i, CSeal, a) (st_log s) -> cd_sealed (st_codec s) = true) /\
  (forall i m p k, nth_error (st_threads s) i = Some (Busy CSeal m p k) ->
    p = PLock seal_rest \/ p = seal_rest \/ (p = PUnlock (PRet ADone) /\ cd_sealed (st_codec s) = true)).

Lemma sealing_step env i s s' : holds always keeps s -> sealing s -> tstep env i s = Some s' -> sealing s'.
Proof.
  intros K [S1 S2] Hs. pose proof (sealed_kept _ _ _ _ K Hs) as Hk. destruct (tstep_moved _ _ _ _ Hs) as [x k0 Hi ->|x m0 p k0 m' p' Hi Hp Ht Hl Hcc].
  - split.
    + intros j a Hin. rewrite settle_log in Hin. apply in_app_or in Hin. destruct Hin as [Hin|Hin]; [rewrite settle_codec; eapply S1; exact Hin|].
      destruct x; cbn in Hin; try contradiction.
    + intros j m p k Hj. rewrite settle_codec. apply settle_busy in Hj. destruct Hj as [(-> & <- & -> & _)|[_ Hj]]; [left; reflexivity|eapply S2; exact Hj].
  - split.
    + intros j a Hin. rewrite Hl, settle_log in Hin. apply in_app_or in Hin. destruct Hin as [Hin|Hin]; [apply Hk; eapply S1; exact Hin|].
      destruct p'; try contradiction. destruct Hin as [E|[]]. inversion E; subst. destruct (S2 _ _ _ _ Hi) as [->|[->|[-> E2]]]; [discriminate Hp|discriminate Hp|]. apply Hk. exact E2.
    + intros j m q k Hj. rewrite Ht in Hj. apply settle_busy in Hj. destruct Hj as [(-> & <- & -> & _ & Hr)|[_ Hj]].
      * destruct (S2 _ _ _ _ Hi) as [->|[->|[-> E2]]]; unfold seal_rest in Hp; cbn in Hp; subst p'.
        -- right. left. reflexivity.
        -- right. right. split; [reflexivity|]. rewrite Hcc. reflexivity.
        -- exfalso. eapply Hr. reflexivity.
      * destruct (S2 _ _ _ _ Hj) as [->|[->|[-> E2]]]; auto.
Qed.

Lemma codes_reach env c cls s : steps env (start c cls) s -> holds always keeps s /\ holds (fun x => negb (registers x)) mild s /\ sealing s.
Proof.
  intros H. remember (start c cls) as s0 eqn:E. induction H as [s|s s' s'' i H IH Hs]; subst.
  - split; [apply start_holds|]. split; [apply start_holds|]. split; [intros i a []|].
    intros i m p k H. cbn [start st_threads] in H. apply nth_error_In in H. apply in_map_iff in H. destruct H as (cl & H & _). discriminate.
  - destruct (IH eq_refl) as (A & B & C). split; [eapply keeps_step; eassumption|]. split; [eapply mild_step; eassumption|]. eapply sealing_step; eassumption.
Qed.

(** ** After Seal *)

Lemma tables_kept env i s s' : holds (fun x => negb (registers x)) mild s -> holds registers doomed s -> tstep env i s = Some s' -> tables (st_codec s') = tables (st_codec s).
Proof.
  intros M D Hs. destruct (tstep_moved _ _ _ _ Hs) as [x k0 Hi ->|x m0 p k0 m' p' Hi Hp Ht Hl Hcc].
  - rewrite settle_codec. reflexivity.
  - rewrite Hcc. destruct p; try reflexivity. destruct (registers x) eqn:Hx; [destruct (D _ _ _ _ _ Hi Hx)|].
    assert (K : negb (registers x) = true) by (rewrite Hx; reflexivity). destruct (M _ _ _ _ _ Hi K) as [E _]. apply E.
Qed.

Theorem quiet_after_seal env c cls s1 s2 i a : steps env (start c cls) s1 -> In (i, CSeal, a) (st_log s1) -> existsb registering (st_threads s1) = false ->
  steps env s1 s2 -> tables (st_codec s2) = tables (st_codec s1).
Proof.
  intros H1 Hin Hq H2. destruct (codes_reach _ _ _ _ H1) as (K & M & [S1 _]). specialize (S1 _ _ Hin).
  assert (D : holds registers doomed s1).
  { intros j x m p k Hj Hx. exfalso. apply nth_error_In in Hj. assert (existsb registering (st_threads s1) = true) by (apply existsb_exists; eexists; split; [exact Hj|exact Hx]). congruence. }
  cut (holds always keeps s2 /\ holds (fun x => negb (registers x)) mild s2 /\ cd_sealed (st_codec s2) = true /\ holds registers doomed s2 /\ tables (st_codec s2) = tables (st_codec s1)); [tauto|].
  clear Hin Hq H1. induction H2 as [s|s s' s'' j H2 IH Hs]; [auto|]. destruct (IH K M S1 D) as (K' & M' & S' & D' & E).
  split; [eapply keeps_step; eassumption|]. split; [eapply mild_step; eassumption|]. split; [eapply sealed_kept; eassumption|]. split; [eapply doomed_step; eassumption|].
  rewrite <- E. eapply tables_kept; eassumption.
Qed.

Theorem late_after_seal env c cls s1 s2 i a : steps env (start c cls) s1 -> In (i, CSeal, a) (st_log s1) -> steps env s1 s2 ->
  exists l, st_log s2 = st_log s1 ++ l /\
  forall l1 j x b l2, l = l1 ++ (j, x, b) :: l2 -> registers x = true ->
    b = APanic sealed_msg \/ ((exists m p k, nth_error (st_threads s1) j = Some (Busy x m p k)) /\ forall y d, ~ In (j, y, d) l1).
Proof.
  intros H1 Hin H2. destruct (codes_reach _ _ _ _ H1) as (K & M & [S1 _]). specialize (S1 _ _ Hin).
  cut (holds always keeps s2 /\ cd_sealed (st_codec s2) = true /\ exists l, st_log s2 = st_log s1 ++ l /\
    (forall j x m p k, nth_error (st_threads s2) j = Some (Busy x m p k) -> registers x = true -> doomed p \/ ((exists m0 p0 k0, nth_error (st_threads s1) j = Some (Busy x m0 p0 k0)) /\ forall y d, ~ In (j, y, d) l)) /\
    forall l1 j x b l2, l = l1 ++ (j, x, b) :: l2 -> registers x = true ->
    b = APanic sealed_msg \/ ((exists m p k, nth_error (st_threads s1) j = Some (Busy x m p k)) /\ forall y d, ~ In (j, y, d) l1)).
  { intros (_ & _ & l & E & _ & F). exists l. auto. }
  clear Hin H1 M. induction H2 as [s|s s' s'' j H2 IH Hs].
  - split; [exact K|]. split; [exact S1|]. exists []. split; [rewrite app_nil_r; reflexivity|]. split.
    + intros j x m p k Hj _. right. split; [eauto|]. intros y d [].
    + intros l1 j x b l2 E. destruct l1; discriminate.
  - destruct (IH K S1) as (K' & S' & l & El & T & F). split; [eapply keeps_step; eassumption|]. split; [eapply sealed_kept; eassumption|].
    (* the next entry, if any *)
    assert (Add : forall x p k0 m0 p0 s1', (registers x = true -> doomed p \/ ((exists m p1 k, nth_error (st_threads s) j = Some (Busy x m p1 k)) /\ forall y d, ~ In (j, y, d) l)) ->
      st_threads s1' = st_threads (settle j x m0 p0 k0 s') -> st_log s1' = st_log (settle j x m0 p0 k0 s') -> p0 = p ->
      exists l0, st_log s1' = st_log s ++ l0 /\
       (forall j0 x m p k, nth_error (st_threads s1') j0 = Some (Busy x m p k) -> registers x = true -> doomed p \/ ((exists m0 p0 k0, nth_error (st_threads s) j0 = Some (Busy x m0 p0 k0)) /\ forall y d, ~ In (j0, y, d) l0)) /\
       forall l1 j x b l2, l0 = l1 ++ (j, x, b) :: l2 -> registers x = true ->
         b = APanic sealed_msg \/ ((exists m p k, nth_error (st_threads s) j = Some (Busy x m p k)) /\ forall y d, ~ In (j, y, d) l1)).
    { intros x p k0 m0 p0 s1' Hx Et Elog ->. rewrite settle_log, El, <- app_assoc in Elog. exists (l ++ match p with PRet a0 => [(j, x, a0)] | _ => [] end). split; [exact Elog|]. split.
      - intros j0 y m q k Hj0 Hy. rewrite Et in Hj0. apply settle_busy in Hj0. destruct Hj0 as [(-> & -> & -> & _ & Hr)|[Hn Hj0]].
        + destruct (Hx Hy) as [D|[A B]]; [left; exact D|right]. split; [exact A|]. destruct p; try (rewrite app_nil_r; exact B). exfalso; eapply Hr; reflexivity.
        + destruct (T _ _ _ _ _ Hj0 Hy) as [D|[A B]]; [left; exact D|right]. split; [exact A|]. intros z d Hz. apply in_app_or in Hz. destruct Hz as [Hz|Hz]; [eapply B; exact Hz|].
          destruct p; try contradiction. destruct Hz as [Hz|[]]. inversion Hz; subst. congruence.
      - intros l1 j1 y b l2 E Hy. destruct p as [a0| | | | | |]; try (rewrite app_nil_r in E; eapply F; eassumption).
        destruct l2 as [|e l2 _] using rev_ind.
        + apply app_inj_tail in E. destruct E as [<- E]. inversion E; subst. destruct (Hx Hy) as [D|[A B]]; [left; exact D|right; split; [exact A|exact B]].
        + assert (E2 : l ++ [(j, x, a0)] = (l1 ++ (j1, y, b) :: l2) ++ [e]) by (rewrite E, <- app_assoc; reflexivity). apply app_inj_tail in E2. destruct E2 as [E2 _]. eapply F; eassumption. }
    destruct (tstep_moved _ _ _ _ Hs) as [x k0 Hi ->|x m0 p k0 m' p' Hi Hp Ht Hl Hcc].
    + eapply Add; try reflexivity. intros Hx. left. apply code_doomed. exact Hx.
    + eapply (Add x p'); try eassumption; try reflexivity. intros Hx. destruct (T _ _ _ _ _ Hi Hx) as [D|A]; [left|right; exact A].
      destruct p; subst; try exact D; try contradiction. apply D. exact S'.
Qed.

(** ** Locks *)

Lemma Forall_not_Exists {A} (P : A -> Prop) l : Forall (fun e => ~ P e) l -> ~ Exists P l.
Proof. intros Hf X. apply Exists_exists in X. destruct X as (e & Hin & He). rewrite Forall_forall in Hf. exact (Hf e Hin He). Qed.

(** No list of implementers is ever empty, so no lookup by prefix panics. *)
Definition calm_i (ii : iinfo) : Prop := Forall (fun e => snd e <> []) (ii_impls ii) /\ check_conflicts ii = true.
Definition calm (c : codec) : Prop := Forall calm_i (cd_ifaces c).

Lemma add_impl_absent pb ci m : assoc beqb pb m = None -> add_impl pb ci m = m ++ [(pb, [ci])].
Proof. induction m as [|[k l] m IH]; cbn; [reflexivity|]. destruct (beqb pb k); [discriminate|]. intros H. rewrite (IH H). reflexivity. Qed.

Lemma calm_loop env ci : forall l r ok, add_check_conflicts env ci l = (r, ok) -> Forall calm_i l -> Forall calm_i r.
Proof.
  induction l as [|ii l IH]; intros r ok H Hf; cbn [add_check_conflicts] in H; [inversion H; constructor|]. inversion Hf as [|? ? [N C] F2]; subst.
  destruct (implements env ci ii); cbn [negb] in H.
  - cbv zeta in H. destruct (check_conflicts (with_impls (add_impl (ci_prefix ci) ci (ii_impls ii)) ii)) eqn:E.
    + destruct (add_check_conflicts env ci l) as [r' ok'] eqn:Er. inversion H; subst. constructor; [|eapply IH; [reflexivity|exact F2]]. split; [|exact E]. cbn [ii_impls with_impls]. apply add_impl_nonempty. exact N.
    + inversion H; subst. constructor; [|exact F2]. unfold restore_impl. destruct (assoc beqb (ci_prefix ci) (ii_impls ii)) eqn:Ea; [split; [exact N|exact C]|]. exfalso.
      rewrite add_impl_absent in E by exact Ea. unfold check_conflicts in E, C. cbn [ii_impls with_impls ii_prio] in E. rewrite forallb_app, C in E. discriminate E.
  - destruct (add_check_conflicts env ci l) as [r' ok'] eqn:Er. inversion H; subst. constructor; [split; [exact N|exact C]|eapply IH; [reflexivity|exact F2]].
Qed.
Lemma calm_reg env c rt ptr name : calm c -> calm (fst (reg_seq env c rt ptr name)).
Proof.
  intros Hc. unfold reg_seq. destruct (new_registered_info env rt ptr name) as [ci| | |]; try exact Hc.
  destruct (add_check_conflicts env ci (cd_ifaces c)) as [ifs ok] eqn:E. cbv zeta. pose proof (calm_loop _ _ _ _ _ E Hc) as Hc'.
  destruct (negb ok); [exact Hc'|]. unfold set_registered.
  destruct (assoc _ _ _); [exact Hc'|]. cbv zeta. destruct (assoc beqb _ _); [exact Hc'|]. destruct (assoc beqb _ _); exact Hc'.
Qed.
Lemma calm_step env c x : calm c -> calm (fst (step env c x)).
Proof.
  intros Hc. destruct x; cbn [step fst].
  - unfold register_interface. destruct (cd_sealed c); [exact Hc|]. destruct (new_iface_info env i o) as [info| | |] eqn:Ei; try exact Hc. cbv zeta. destruct (check_conflicts _) eqn:Ec; cbn [negb]; [|exact Hc].
    destruct (find_iface _ _); [exact Hc|]. cbn [fst set_ifaces cd_ifaces]. apply Forall_app. split; [exact Hc|]. constructor; [|constructor]. split; [|exact Ec].
    apply collect_spec. destruct (new_iface_spec _ _ _ _ Ei) as [_ ->]. constructor.
  - unfold register_concrete. destruct (cd_sealed c); [exact Hc|]. pose proof (fun rt ptr => calm_reg env c rt ptr name Hc) as G. unfold reg_seq in G.
    destruct t as [| | | |e| | | | |]; try apply G; try exact Hc. destruct e; try apply G; exact Hc.
  - exact Hc.
  - destruct (get_type_info_st_cases env c t) as [-> | (rt & ci & _ & _ & _ & _ & ->)]; exact Hc.
Qed.
Lemma calm_reply env c x : calm c -> calm (fst (reply env c x)).
Proof. intros Hc. destruct x; try exact Hc; apply (calm_step env c); exact Hc. Qed.
Lemma calm_prefix env c i pb p : calm c -> snd (reply env c (CPrefix i pb)) <> APanic p.
Proof.
  intros Hc E. cbn [reply snd] in E. destruct (find_iface i (cd_ifaces c)) as [ii|] eqn:Ef; [|discriminate]. apply find_iface_some in Ef. destruct Ef as [Ef _]. unfold calm in Hc. rewrite Forall_forall in Hc. destruct (Hc _ Ef) as [N _].
  unfold type_info_from_prefix in E. destruct (assoc beqb pb (ii_impls ii)) as [[|ci [|]]|] eqn:Ea; try discriminate.
  apply assoc_map_in in Ea. rewrite Forall_forall in N. apply (N _ Ea). reflexivity.
Qed.
Lemma replay_calm env c l c' : replay env c l c' -> calm c -> calm c' /\ Forall (fun e => ~ prefix_panic e) l.
Proof.
  intros H. induction H as [c|c i x a c' l c'' U E H IH|c i x a c' l c'' Hx Hs E H IH|c i x a l c'' U H IH]; intros Hc.
  - split; [exact Hc|constructor].
  - pose proof (calm_reply env c x Hc) as Hc'. rewrite E in Hc'. destruct (IH Hc') as [A B]. split; [exact A|]. constructor; [|exact B].
    intros P. destruct x; try contradiction. destruct a; try contradiction. apply (calm_prefix env c i0 pb p Hc). rewrite E. reflexivity.
  - pose proof (calm_reply env (with_sealed false c) x Hc) as Hc'. rewrite E in Hc'. destruct (IH Hc') as [A B]. split; [exact A|]. constructor; [|exact B]. destruct x; try discriminate; intros [].
  - destruct (IH Hc) as [A B]. split; [exact A|]. constructor; [|exact B]. destruct x; try discriminate; intros [].
Qed.

Theorem read_locks env cls s : steps env (start new_codec cls) s -> st_readers s = reading s.
Proof.
  intros H. destruct (inv_steps _ _ _ _ H) as [cc I]. destruct (iv_rleak _ _ _ _ I) as [E|X]; [exact E|]. exfalso.
  apply (Forall_not_Exists prefix_panic (st_log s)); [|exact X]. eapply replay_calm; [apply (iv_log _ _ _ _ I)|constructor].
Qed.
Theorem leaks env cls s : steps env (start new_codec cls) s -> Forall (fun e => ~ get_panic e) (st_log s) -> no_leak s.
Proof.
  intros H Hf. split; [|exact (read_locks _ _ _ H)]. destruct (inv_steps _ _ _ _ H) as [cc I].
  intros Hw. destruct (iv_wleak _ _ _ _ I Hw) as [(i & th & Hi & Hm)|X]; [|destruct (Forall_not_Exists _ _ Hf X)]. eapply is_writing; eassumption.
Qed.

Definition not_ret (s : state) : Prop := forall i x m a k, nth_error (st_threads s) i <> Some (Busy x m (PRet a) k).
Lemma not_ret_step env i s s' : not_ret s -> tstep env i s = Some s' -> not_ret s'.
Proof.
  intros N Hs j x m a k Hj. destruct (tstep_moved _ _ _ _ Hs) as [y k0 Hi ->|y m0 p k0 m' p' Hi Hp Ht Hl Hcc]; [|rewrite Ht in Hj];
    apply settle_busy in Hj; (destruct Hj as [(-> & -> & E & _ & Hr)|[_ Hj]]; [eapply Hr; symmetry; exact E|eapply N; exact Hj]).
Qed.
Lemma not_ret_reach env c cls s : steps env (start c cls) s -> not_ret s.
Proof.
  intros H. remember (start c cls) as s0 eqn:E. induction H as [s|s s' s'' i H IH Hs]; subst.
  - intros i x m a k H. cbn [start st_threads] in H. apply nth_error_In in H. apply in_map_iff in H. destruct H as (cl & H & _). discriminate.
  - eapply not_ret_step; eauto.
Qed.

Theorem no_deadlock env c cls s : steps env (start c cls) s -> no_leak s -> existsb (fun th => negb (finished th)) (st_threads s) = true -> can_go env s.
Proof.
  intros H [L1 L2] Hu. destruct (inv_steps _ _ _ _ H) as [cc I]. pose proof (not_ret_reach _ _ _ _ H) as N.
  destruct (st_writer s) eqn:Hw.
  { (* the writer goes on *)
    specialize (L1 eq_refl). apply existsb_exists in L1. destruct L1 as (th & Hin & Hm). apply In_nth_error in Hin. destruct Hin as [i Hi].
    destruct th as [cl|x m p k]; [discriminate|]. assert (m = W) by (destruct m; try discriminate; reflexivity). subst m.
    pose proof (iv_good _ _ _ _ I _ _ _ _ _ Hi) as G. exists i, (Busy x W p k). unfold tstep. rewrite Hi, Hw.
    destruct p; try contradiction G; [exfalso; eapply N; exact Hi|eexists; split; [reflexivity|]; split; [reflexivity|discriminate]..]. }
  destruct (reading s) as [|r] eqn:Hr.
  2:{ (* a reader goes on *)
    assert (X : exists th, In th (filter (in_mode R) (st_threads s))) by (unfold reading in Hr; destruct (filter (in_mode R) (st_threads s)) as [|th l]; [discriminate|exists th; left; reflexivity]).
    destruct X as (th & Hin). apply filter_In in Hin. destruct Hin as [Hin Hm]. apply In_nth_error in Hin. destruct Hin as [i Hi].
    destruct th as [cl|x m p k]; [discriminate|]. assert (m = R) by (destruct m; try discriminate; reflexivity). subst m.
    pose proof (iv_good _ _ _ _ I _ _ _ _ _ Hi) as G. exists i, (Busy x R p k). unfold tstep. rewrite Hi, ?Hw, ?L2.
    destruct p; try contradiction G; [exfalso; eapply N; exact Hi|eexists; split; [reflexivity|]; split; [reflexivity|discriminate]..]. }
  (* nobody holds the lock *)
  destruct (existsb wants_lock (st_threads s)) eqn:Hl.
  - apply existsb_exists in Hl. destruct Hl as (th & Hin & Hl). apply In_nth_error in Hin. destruct Hin as [i Hi].
    destruct th as [cl|x m p k]; [discriminate|]. destruct p as [|q| | | | |]; try discriminate. exists i, (Busy x m (PLock q) k). unfold tstep. rewrite Hi, Hw, L2. cbn [orb Nat.ltb Nat.leb].
    eexists. split; [reflexivity|]. split; [reflexivity|discriminate].
  - apply existsb_exists in Hu. destruct Hu as (th & Hin & Hu). apply In_nth_error in Hin. destruct Hin as [i Hi]. exists i, th.
    destruct th as [[|x k]|x m p k]; [discriminate| |].
    + unfold tstep. rewrite Hi. eexists. split; [reflexivity|]. split; [reflexivity|discriminate].
    + pose proof (iv_good _ _ _ _ I _ _ _ _ _ Hi) as G.
      assert (m = Out). { destruct m; [reflexivity| |]; exfalso.
        - pose proof (iv_writer _ _ _ _ I _ _ Hi eq_refl). congruence.
        - pose proof (count_pos (in_mode R) _ _ _ Hi eq_refl). unfold reading in Hr. lia. }
      subst m. unfold tstep. rewrite Hi, Hw, L2.
      destruct p as [|q|q|q|q|f|f q]; try contradiction G; [|eexists; split; [reflexivity|]; split; [reflexivity|auto]..].
      eexists; split; [reflexivity|]; split; [reflexivity|discriminate].
Qed.

(** A call left to itself returns; unless it is a lookup that panics, it leaves the lock as it found it. *)
Definition lock_for (m : mode) (s : state) : Prop :=
  match m with
  | Out => st_writer s = false /\ st_readers s = 0%nat
  | W => st_writer s = true /\ st_readers s = 0%nat
  | R => st_writer s = false /\ st_readers s = 1%nat
  end.

Lemma run_alone env i x k : forall p m cc s, good env x m cc (st_codec s) p -> lock_for m s -> nth_error (st_threads s) i = Some (Busy x m p k) -> (forall a, p <> PRet a) ->
  exists n s' a, sched env (repeat i n) s = Some s' /\ st_log s' = st_log s ++ [(i, x, a)] /\ nth_error (st_threads s') i = Some (Idle (k a)) /\
  ((get_panic (i, x, a) \/ prefix_panic (i, x, a)) \/ lock_for Out s').
Proof.
  assert (Go : forall p m cc m' p' s s1, nth_error (st_threads s) i = Some (Busy x m p k) -> tstep env i s = Some (settle i x m' p' k s1) -> st_threads s1 = st_threads s -> st_log s1 = st_log s ->
    good env x m' cc (st_codec s1) p' \/ (exists a, p' = PRet a /\ ((get_panic (i, x, a) \/ prefix_panic (i, x, a)) \/ m' = Out)) -> lock_for m' s1 ->
    (forall s2, good env x m' cc (st_codec s2) p' -> lock_for m' s2 -> nth_error (st_threads s2) i = Some (Busy x m' p' k) -> (forall a, p' <> PRet a) ->
      exists n s' a, sched env (repeat i n) s2 = Some s' /\ st_log s' = st_log s2 ++ [(i, x, a)] /\ nth_error (st_threads s') i = Some (Idle (k a)) /\ ((get_panic (i, x, a) \/ prefix_panic (i, x, a)) \/ lock_for Out s')) ->
    exists n s' a, sched env (repeat i n) s = Some s' /\ st_log s' = st_log s ++ [(i, x, a)] /\ nth_error (st_threads s') i = Some (Idle (k a)) /\ ((get_panic (i, x, a) \/ prefix_panic (i, x, a)) \/ lock_for Out s')).
  { intros p m cc m' p' s s1 Hi Hs Et El G Hl IH.
    destruct (settle_cases i x m' p' k s1) as [(a & E & Hset)|[E Hset]].
    - exists 1%nat, (settle i x m' p' k s1), a. cbn [repeat sched]. rewrite Hs. split; [reflexivity|]. rewrite Hset. cbn [add_log set_thread st_log st_threads]. rewrite El, Et. split; [reflexivity|].
      split; [eapply nth_upd_same; exact Hi|]. subst p'. destruct G as [G|(a0 & E2 & [G|G])].
      + left. destruct m'; cbn [good] in G; [contradiction|left; apply get_entry; apply G|right; apply prefix_entry; apply G].
      + inversion E2; subst a0. left. exact G.
      + right. subst m'. exact Hl.
    - destruct G as [G|(a & E2 & _)]; [|exfalso; eapply E; exact E2].
      destruct (IH (settle i x m' p' k s1)) as (n & s' & a & Hn & Hlog & Hth & Hpan).
      + rewrite settle_codec. exact G.
      + rewrite Hset. destruct m'; exact Hl.
      + rewrite Hset. cbn [set_thread st_threads]. rewrite Et. eapply nth_upd_same. exact Hi.
      + exact E.
      + exists (S n), s', a. cbn [repeat sched]. rewrite Hs. split; [exact Hn|]. rewrite Hlog, settle_log, El. split; [|auto]. destruct p'; rewrite ?app_nil_r; try reflexivity. exfalso; eapply E; reflexivity. }
  induction p as [a|q IH|q IH|q IH|q IH|f IH|f q IH]; intros m cc s G Hl Hi Hr; [exfalso; eapply Hr; reflexivity|..].
  - (* Lock *) destruct m; try contradiction G. destruct Hl as [L1 L2]. cbn [good] in G. eapply (Go _ _ (st_codec s) W q s (set_lock true 0 s)); try reflexivity; try exact Hi.
    + unfold tstep. rewrite Hi, L1, L2. reflexivity.
    + left. apply G.
    + split; reflexivity.
    + intros s2 G2 Hl2 Hi2 Hr2. eapply IH; eassumption.
  - (* Unlock *) destruct m; try contradiction G. destruct Hl as [L1 L2]. cbn [good] in G. eapply (Go _ _ (st_codec s) Out q s (set_lock false (st_readers s) s)); try reflexivity; try exact Hi.
    + unfold tstep. rewrite Hi, L1. reflexivity.
    + destruct q; try (left; apply G). right. eexists. split; [reflexivity|right; reflexivity].
    + split; [reflexivity|exact L2].
    + intros s2 G2 Hl2 Hi2 Hr2. eapply IH; eassumption.
  - (* RLock *) destruct m; try contradiction G. destruct Hl as [L1 L2]. cbn [good] in G. eapply (Go _ _ (st_codec s) R q s (set_lock false (S (st_readers s)) s)); try reflexivity; try exact Hi.
    + unfold tstep. rewrite Hi, L1. reflexivity.
    + left. apply G.
    + split; [reflexivity|cbn; rewrite L2; reflexivity].
    + intros s2 G2 Hl2 Hi2 Hr2. eapply IH; eassumption.
  - (* RUnlock *) destruct m; try contradiction G. destruct Hl as [L1 L2]. cbn [good] in G. eapply (Go _ _ (st_codec s) Out q s (set_lock (st_writer s) 0 s)); try reflexivity; try exact Hi.
    + unfold tstep. rewrite Hi, L2. reflexivity.
    + destruct q; try contradiction G. right. eexists. split; [reflexivity|right; reflexivity].
    + split; [exact L1|reflexivity].
    + intros s2 G2 Hl2 Hi2 Hr2. eapply IH; eassumption.
  - (* read *) eapply (Go _ _ cc m (f (st_codec s)) s s); try reflexivity; try exact Hi.
    + unfold tstep. rewrite Hi. reflexivity.
    + destruct m; cbn [good] in G; [|left; exact G..]. right. destruct G as [_ G]. destruct (G (st_codec s)) as [a Ea]. exists a. auto.
    + exact Hl.
    + intros s2 G2 Hl2 Hi2 Hr2. eapply IH; eassumption.
  - (* write *) destruct m; try contradiction G. cbn [good] in G. eapply (Go _ _ cc W q s (set_codec (f (st_codec s)) s)); try reflexivity; try exact Hi.
    + unfold tstep. rewrite Hi. reflexivity.
    + left. exact G.
    + exact Hl.
    + intros s2 G2 Hl2 Hi2 Hr2. eapply IH; eassumption.
Qed.

Theorem returns_alone env i s x k : nth_error (st_threads s) i = Some (Idle (Call x k)) -> st_writer s = false -> st_readers s = 0%nat ->
  exists n s' a, sched env (repeat i n) s = Some s' /\ st_log s' = st_log s ++ [(i, x, a)] /\ nth_error (st_threads s') i = Some (Idle (k a)) /\
  ((get_panic (i, x, a) \/ prefix_panic (i, x, a)) \/ (st_writer s' = false /\ st_readers s' = 0%nat)).
Proof.
  intros Hi L1 L2. pose proof (code_good env x) as G.
  destruct (settle_cases i x Out (prog_of env x) k s) as [(a & E & Hset)|[E Hset]]; [rewrite E in G; contradiction|].
  destruct (run_alone env i x k (prog_of env x) Out new_codec (settle i x Out (prog_of env x) k s)) as (n & s' & a & Hn & Hlog & Hth & Hpan).
  - eapply good_out. exact G.
  - rewrite Hset. split; [exact L1|exact L2].
  - rewrite Hset. eapply nth_upd_same. exact Hi.
  - exact E.
  - exists (S n), s', a. cbn [repeat sched]. unfold tstep at 1. rewrite Hi. split; [exact Hn|]. rewrite Hlog, settle_log. split; [|auto]. destruct (prog_of env x); rewrite ?app_nil_r; try reflexivity. exfalso; eapply E; reflexivity.
Qed.

(** A write lock nobody holds blocks everybody. *)
Theorem stuck env c cls s s' : steps env (start c cls) s -> st_writer s = true -> writing s = false -> steps env s s' ->
  exists l, st_log s' = st_log s ++ l /\ Forall (fun e => unlocked (snd (fst e)) = true) l.
Proof.
  intros H1 Hw Hn H2.
  cut (st_writer s' = true /\ writing s' = false /\ exists l, st_log s' = st_log s ++ l /\ Forall (fun e => unlocked (snd (fst e)) = true) l); [tauto|].
  induction H2 as [s|s s' s'' i H2 IH Hs].
  - split; [exact Hw|]. split; [exact Hn|]. exists []. split; [rewrite app_nil_r; reflexivity|constructor].
  - destruct (IH H1 Hw Hn) as (W' & N' & l & El & Fl). pose proof (steps_trans _ _ _ _ H1 H2) as H'. destruct (inv_steps _ _ _ _ H') as [cc I].
    pose proof (iv_excl _ _ _ _ I W') as Hr0. pose proof (iv_readers _ _ _ _ I) as Hr. pose proof (not_writing _ N') as NW.
    unfold tstep in Hs. destruct (nth_error (st_threads s') i) as [th|] eqn:Hi; [|discriminate].
    assert (Keep : forall th', in_mode W th' = false -> existsb (in_mode W) (upd i th' (st_threads s')) = false).
    { intros th' Ht. destruct (existsb (in_mode W) (upd i th' (st_threads s'))) eqn:E; [|reflexivity]. apply existsb_exists in E. destruct E as (th0 & Hin & Hm).
      apply In_nth_error in Hin. destruct Hin as [j Hj]. apply (upd_cases _ _ _ _ _ _ Hi) in Hj. destruct Hj as [[_ ->]|[_ Hj]]; [congruence|]. rewrite (NW _ _ Hj) in Hm. discriminate. }
    destruct th as [[|x k]|x m p k]; [discriminate| |].
    + inversion Hs; subst s''. destruct (settle_cases i x Out (prog_of env x) k s') as [(a & E & _)|[E ->]]; [pose proof (code_good env x) as G; rewrite E in G; contradiction|].
      split; [exact W'|]. split; [apply Keep; reflexivity|]. exists l. split; [exact El|exact Fl].
    + pose proof (iv_good _ _ _ _ I _ _ _ _ _ Hi) as G. assert (m = Out). { destruct m; [reflexivity| |]; exfalso.
        - pose proof (NW _ _ Hi). discriminate.
        - pose proof (count_pos (in_mode R) _ _ _ Hi eq_refl). unfold reading in Hr. lia. }
      subst m. destruct p as [|q|q|q|q|f|f q]; try contradiction G; try (rewrite W' in Hs; discriminate).
      * destruct G as [U G]. destruct (G (st_codec s')) as [a Ea]. rewrite Ea in Hs. cbn [settle] in Hs. inversion Hs; subst s''. split; [exact W'|]. split; [apply Keep; reflexivity|].
        exists (l ++ [(i, x, a)]). cbn [add_log set_thread st_log]. rewrite El, <- app_assoc. split; [reflexivity|]. apply Forall_app. split; [exact Fl|]. constructor; [exact U|constructor].
Qed.

(** ** Lookups *)

Definition same (env : tenv) (c c' : codec) : Prop := (forall t, get_type_info env c' t = get_type_info env c t) /\ tables c' = tables c.
Lemma same_refl env c : same env c c.
Proof. split; reflexivity. Qed.
Lemma same_trans env a b c : same env a b -> same env b c -> same env a c.
Proof. intros [A1 A2] [B1 B2]. split; [intros t; rewrite B1; apply A1|congruence]. Qed.
Lemma same_reply env c c' x : same env c c' -> lookup x = true -> snd (reply env c' x) = snd (reply env c x).
Proof.
  intros [H1 H2] Hx. unfold tables in H2. injection H2 as E1 E2 E3 E4.
  destruct x; try discriminate; cbn [reply snd]; unfold type_info_from_disfix, type_info_from_name, ambiguous; rewrite ?E1, ?E2, ?E3, ?E4, ?H1; reflexivity.
Qed.
Lemma same_use env c t : same env c (fst (get_type_info_st env c t)).
Proof.
  destruct (get_type_info_st_cases env c t) as [-> | (rt & ci & Hrt & Hconc & Ha & Hn & ->)]; [apply same_refl|].
  split; [|reflexivity]. intros t'. rewrite <- (get_type_info_deref env c t'), <- (get_type_info_deref env (add_type rt ci c) t').
  pose proof (deref_type_not_ptr t') as Hnp'. generalize dependent (deref_type t'). intros t1 Hnp'.
  destruct (conc_type t1) eqn:E1.
  - rewrite !get_type_info_conc by assumption. cbn [cd_types add_type assoc].
    destruct (gotype_eqb t1 rt) eqn:Eq; [|reflexivity]. apply gotype_eqb_eq in Eq. subst t1. rewrite Ha, Hn. reflexivity.
  - destruct t1; try discriminate; [exfalso; eapply Hnp'; reflexivity | reflexivity].
Qed.
Lemma same_step env c x : lookup x = true -> same env c (fst (reply env c x)).
Proof. intros Hx. destruct x; try discriminate; try apply same_refl. cbn [reply step fst]. apply same_use. Qed.

Lemma replay_lookups env c l c' : replay env c l c' -> Forall (fun e => lookup (snd (fst e)) = true) l ->
  same env c c' /\ forall i x a, In (i, x, a) l -> unlocked x = false -> a = snd (reply env c x).
Proof.
  intros H. induction H as [c|c i x a c' l c'' U E H IH|c i x a c' l c'' Hx Hs E H IH|c i x a l c'' U H IH]; intros Hf.
  - split; [apply same_refl|intros ? ? ? []].
  - inversion Hf as [|e l0 F1 F2]; subst. cbn [fst snd] in F1. destruct (IH F2) as [S A]. pose proof (same_step env c x F1) as S1. rewrite E in S1. cbn [fst] in S1.
    split; [eapply same_trans; eassumption|]. intros j y b [X|Hin] Uy.
    + inversion X; subst. rewrite E. reflexivity.
    + rewrite (A _ _ _ Hin Uy). apply same_reply; [exact S1|]. rewrite Forall_forall in F2. apply (F2 _ Hin).
  - exfalso. inversion Hf as [|e l0 F1 F2]; subst. destruct x; discriminate.
  - inversion Hf as [|e l0 F1 F2]; subst. destruct (IH F2) as [S A]. split; [exact S|]. intros j y b [X|Hin] Uy; [inversion X; subst; congruence|]. apply (A _ _ _ Hin Uy).
Qed.

Definition looking (env : tenv) (c : codec) (s : state) : Prop :=
  tables (st_codec s) = tables c /\
  (forall i th, nth_error (st_threads s) i = Some th ->
    match th with Idle cl => lookups cl | Busy x m p k => lookup x = true /\ (forall a, lookups (k a)) /\ mild p /\ (unlocked x = true -> p = prog_of env x) end) /\
  (forall i x a, In (i, x, a) (st_log s) -> lookup x = true /\ (unlocked x = true -> a = snd (reply env c x))).

Lemma looking_step env c i s s' : looking env c s -> tstep env i s = Some s' -> looking env c s'.
Proof.
  intros (T & Th & L) Hs.
  assert (Put : forall th x m p k, nth_error (st_threads s) i = Some th -> lookup x = true -> (forall a, lookups (k a)) -> mild p ->
    (unlocked x = true -> p = prog_of env x \/ p = PRet (snd (reply env c x))) ->
    (forall j th, nth_error (st_threads (settle i x m p k s)) j = Some th ->
    match th with Idle cl => lookups cl | Busy x m p k => lookup x = true /\ (forall a, lookups (k a)) /\ mild p /\ (unlocked x = true -> p = prog_of env x) end) /\
    (forall j y a, In (j, y, a) (st_log (settle i x m p k s)) -> lookup y = true /\ (unlocked y = true -> a = snd (reply env c y)))).
  { intros th x m p k Hi Hx Hk Hp Hu. destruct (settle_cases i x m p k s) as [(a & Ea & ->)|[E ->]]; cbn [add_log set_thread st_threads st_log]; (split; [|]).
    - intros j th0 Hj. apply (upd_cases _ _ _ _ _ _ Hi) in Hj. destruct Hj as [[_ ->]|[_ Hj]]; [apply Hk|exact (Th _ _ Hj)].
    - intros j y b Hin. apply in_app_or in Hin. destruct Hin as [Hin|[Hin|[]]]; [eapply L; exact Hin|]. inversion Hin; subst. split; [exact Hx|]. intros U. destruct (Hu U) as [X|X].
      + destruct y; discriminate.
      + inversion X. reflexivity.
    - intros j th0 Hj. apply (upd_cases _ _ _ _ _ _ Hi) in Hj. destruct Hj as [[_ ->]|[_ Hj]]; [|exact (Th _ _ Hj)]. split; [exact Hx|]. split; [exact Hk|]. split; [exact Hp|].
      intros U. destruct (Hu U) as [X|X]; [exact X|]. exfalso. eapply E. exact X.
    - exact L. }
  destruct (tstep_moved _ _ _ _ Hs) as [x k0 Hi ->|x m0 p k0 m' p' Hi Hp Ht Hl Hcc].
  - destruct (Th _ _ Hi) as [Hx Hk]. split; [rewrite settle_codec; exact T|]. eapply Put; try eassumption; [|auto]. apply code_mild. destruct x; try discriminate; reflexivity.
  - destruct (Th _ _ Hi) as (Hx & Hk & Hm & Hu). split.
    + rewrite Hcc. destruct p; try exact T. destruct Hm as [Hm _]. rewrite Hm. exact T.
    + destruct (Put _ x m' p' k0 Hi Hx Hk) as [A B].
      * destruct p; cbn [mild] in Hm; subst; try apply Hm. contradiction.
      * intros U. right. specialize (Hu U). destruct x; try discriminate. subst p. cbn in Hp. subst p'. cbn [reply snd]. unfold tables in T. injection T as E1 E2 E3 E4. unfold ambiguous. rewrite E1. reflexivity.
      * split; [intros j th Hj; apply (A j); rewrite <- Ht; exact Hj|]. intros j y a Hin. apply (B j). rewrite <- Hl. exact Hin.
Qed.

Theorem lookups_agree env c cls s i x a : Forall lookups cls -> steps env (start c cls) s -> In (i, x, a) (st_log s) -> a = snd (reply env c x).
Proof.
  intros Hc H Hin.
  assert (K : looking env c s).
  { clear Hin. remember (start c cls) as s0 eqn:E. induction H as [s|s s' s'' j H IH Hs]; subst.
    - split; [reflexivity|]. split; [|intros ? ? ? []]. intros j th Hj. cbn [start st_threads] in Hj. apply nth_error_In in Hj. apply in_map_iff in Hj. destruct Hj as (cl & <- & Hcl). rewrite Forall_forall in Hc. apply Hc. exact Hcl.
    - eapply looking_step; eauto. }
  destruct K as (_ & _ & L). destruct (L _ _ _ Hin) as [Hx Hu]. destruct (unlocked x) eqn:U; [apply Hu; reflexivity|].
  destruct (replay_some _ _ _ _ H) as [c' Hr]. eapply (replay_lookups _ _ _ _ Hr); [|exact Hin|exact U].
  apply Forall_forall. intros [[j y] b] Hj. apply (L _ _ _ Hj).
Qed.
