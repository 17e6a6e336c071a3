(** Property theorems about goroutines sharing one codec (C31, C34, C58, C59, C60). *)
From Coq Require Import ZArith String List Bool Lia.
From Coq Require Import ZifyBool ZifyNat.
From Verif Require Import Base Prims Types Codec Registry RegistryFacts Demo Conc SpecConc ConcFacts ConcProps.
Import ListNotations.
Local Open Scope Z_scope.

(** Types for the examples: type A struct { X int }, type F struct { X float64 }, and
    an interface that everything implements. *)
Definition race_env : tenv :=
  {| te_def := fun id => match id with 0%nat => UStruct [fld "X" TInt "" ""] | _ => UStruct [fld "X" (TPrim PFloat64) "" ""] end;
     te_zero := fun id => match id with 0%nat => VStruct [VInt 0] | _ => VStruct [VFloat 0] end;
     te_impl := fun _ _ => true; te_marshal := fun _ => None; te_unmarshal := fun _ => None; te_hash := te_hash demo |}.
Definition t_A : gotype := TNamed 0%nat.
Definition t_F : gotype := TNamed 1%nat.
Definition name_A : bytes := [65].
Definition once (x : call) : client := Call x (fun _ => Stop).
Definition twice (x y : call) : client := Call x (fun _ => once y).

(** The state a schedule leads to. *)
Definition after (env : tenv) (l : list nat) (s : state) : state := match sched env l s with Some s' => s' | None => s end.
Lemma after_steps env l s : steps env s (after env l s).
Proof. unfold after. destruct (sched env l s) as [s'|] eqn:E; [eapply sched_steps; exact E|constructor]. Qed.

(** ** C31 *)

(** The statement is false: RegisterConcrete asks whether the codec is sealed, lets the
    mutex go, and takes it again to register (codec.go:211, 226).  Here the first
    goroutine has passed the question; Seal returns; the name is not known; the
    registration succeeds. *)
Definition late : state := start new_codec [once (CConc t_A name_A); once CSeal; once (CName name_A)].
Definition late_s1 : state := after race_env [0;0;0;0; 1;1;1;1]%nat late.
Definition late_s2 : state := after race_env [2;2;2;2; 0;0;0;0;0;0;0;0;0;0]%nat late_s1.
Theorem C31_refuted : exists env cls s1 s2 n x, steps env (start new_codec cls) s1 /\ steps env s1 s2 /\
  In (1%nat, CSeal, ADone) (st_log s1) /\ registers x = true /\ In (n, x, ADone) (st_log s2) /\ ~ In (n, x, ADone) (st_log s1) /\
  tables (st_codec s2) <> tables (st_codec s1).
Proof.
  exists race_env, [once (CConc t_A name_A); once CSeal; once (CName name_A)], late_s1, late_s2, 0%nat, (CConc t_A name_A).
  split; [apply after_steps|]. split; [apply after_steps|]. vm_compute. split; [auto|]. split; [reflexivity|]. split; [auto|]. split; [|discriminate]. intros [H|[]]; discriminate.
Qed.
Print Assumptions C31_refuted.

(** After Seal has returned, every registration panics, except those that were already
    in progress when it did, one for each goroutine. *)
Theorem C31_later_partial : forall env cls s1 s2 i a, steps env (start new_codec cls) s1 -> In (i, CSeal, a) (st_log s1) -> steps env s1 s2 ->
  exists l, st_log s2 = st_log s1 ++ l /\
  forall l1 j x b l2, l = l1 ++ (j, x, b) :: l2 -> registers x = true ->
    b = APanic sealed_msg \/ ((exists m p k, nth_error (st_threads s1) j = Some (Busy x m p k)) /\ forall y d, ~ In (j, y, d) l1).
Proof. intros env cls s1 s2 i a. apply late_after_seal. Qed.
(** If none is in progress, nothing registered changes ever after, not even for a moment. *)
Theorem C31_quiet_partial : forall env cls s1 s2 i a, steps env (start new_codec cls) s1 -> In (i, CSeal, a) (st_log s1) ->
  existsb registering (st_threads s1) = false -> steps env s1 s2 -> tables (st_codec s2) = tables (st_codec s1).
Proof. intros env cls s1 s2 i a. apply quiet_after_seal. Qed.

(** Two goroutines register and one seals; the second one comes too late. *)
Definition shut : state := start new_codec [once (CConc t_A name_A); once CSeal; twice (CConc t_A [66]) (CName name_A)].
Definition shut_s1 : state := after race_env ([0;0;0;0;0;0;0;0;0;0;0;0;0;0] ++ [1;1;1;1])%nat shut.
Definition shut_s2 : state := after race_env [2;2;2;2; 2;2;2;2]%nat shut_s1.
Example C31_example : steps race_env shut shut_s1 /\ In (1%nat, CSeal, ADone) (st_log shut_s1) /\ existsb registering (st_threads shut_s1) = false /\ steps race_env shut_s1 shut_s2 /\
  map fst (st_log shut_s2) = [(0%nat, CConc t_A name_A); (1%nat, CSeal); (2%nat, CConc t_A [66]); (2%nat, CName name_A)] /\
  nth_error (st_log shut_s2) 2 = Some (2%nat, CConc t_A [66], APanic sealed_msg) /\ length (cd_names (st_codec shut_s2)) = 1%nat.
Proof. split; [apply after_steps|]. split; [vm_compute; auto|]. split; [vm_compute; reflexivity|]. split; [apply after_steps|]. vm_compute. auto. Qed.
Print Assumptions C31_later_partial.
Print Assumptions C31_quiet_partial.

(** ** C34 *)

(** The statement is false: getTypeInfoWlock does not defer its Unlock, and the panic
    for a float field without the "unsafe" tag leaves the mutex locked
    (codec.go:366-390, 569).  No other call returns ever after: the second goroutine
    only wants to marshal an int. *)
Definition hang_cls : list client := [once (CGet t_F); once (CGet TInt)].
Definition hang_s : state := after race_env [0;0;0; 1]%nat (start new_codec hang_cls).
Theorem C34_refuted : exists env cls s t p j x m q k, steps env (start new_codec cls) s /\ st_log s = [(0%nat, CGet t, APanic p)] /\
  nth_error (st_threads s) j = Some (Busy x m q k) /\
  forall s', steps env s s' -> nth_error (st_threads s') j = Some (Busy x m q k) /\ st_log s' = st_log s.
Proof.
  destruct (nth_error (st_threads hang_s) 1) as [[cl|x m q k]|] eqn:E; try (vm_compute in E; discriminate).
  exists race_env, hang_cls, hang_s, t_F, "floating point types are unsafe for go-amino"%string, 1%nat, x, m, q, k.
  assert (H0 : steps race_env (start new_codec hang_cls) hang_s) by apply after_steps.
  split; [exact H0|]. split; [vm_compute; reflexivity|]. split; [exact E|].
  assert (Q : exists q', q = PLock q' /\ nth_error (st_threads hang_s) 0 = Some (Idle Stop) /\ length (st_threads hang_s) = 2%nat).
  { vm_compute in E. inversion E; subst. eexists. split; [reflexivity|]. split; [vm_compute; reflexivity|vm_compute; reflexivity]. }
  destruct Q as (q' & -> & E0 & El).
  assert (Hw : st_writer hang_s = true) by (vm_compute; reflexivity).
  intros s' H. cut (s' = hang_s); [intros ->; auto|].
  remember hang_s as s eqn:Es. clear Es H0. induction H as [s|s s' s'' i H IH Hs]; [reflexivity|]. exfalso. specialize (IH E E0 El Hw). subst s'. unfold tstep in Hs.
  destruct i as [|[|i]]; [rewrite E0 in Hs; discriminate|rewrite E, Hw in Hs; discriminate|].
  rewrite (proj2 (nth_error_None (st_threads s) (S (S i)))) in Hs by lia. discriminate.
Qed.
Print Assumptions C34_refuted.

(** A panic inside a type lookup is the only way to leave the mutex locked: if there
    was none, each lock is held by a call in progress.  Read locks are never left. *)
Theorem C34_no_leak_partial : forall env cls s, steps env (start new_codec cls) s ->
  st_readers s = reading s /\ (Forall (fun e => ~ get_panic e) (st_log s) -> no_leak s).
Proof. intros env cls s H. split; [exact (read_locks _ _ _ H)|exact (leaks _ _ _ H)]. Qed.
(** Without such a panic somebody can always go on, even though readers wait for
    writers that wait. *)
Theorem C34_progress_partial : forall env cls s, steps env (start new_codec cls) s -> Forall (fun e => ~ get_panic e) (st_log s) ->
  existsb (fun th => negb (finished th)) (st_threads s) = true -> can_go env s.
Proof. intros env cls s H Hf Hu. exact (no_deadlock env new_codec cls s H (leaks _ _ _ H Hf) Hu). Qed.
(** A call that finds the mutex free and runs undisturbed returns or panics, and,
    unless it is a type lookup that panics, leaves the mutex free. *)
Theorem C34_alone_partial : forall env cls s i x k, steps env (start new_codec cls) s ->
  nth_error (st_threads s) i = Some (Idle (Call x k)) -> st_writer s = false -> st_readers s = 0%nat ->
  exists n s' a, sched env (repeat i n) s = Some s' /\ st_log s' = st_log s ++ [(i, x, a)] /\ nth_error (st_threads s') i = Some (Idle (k a)) /\
  (get_panic (i, x, a) \/ (st_writer s' = false /\ st_readers s' = 0%nat)).
Proof.
  intros env cls s i x k H Hi Hw Hr. destruct (returns_alone env i s x k Hi Hw Hr) as (n & s' & a & A & B & C & [[D|D]|D]); exists n, s', a; (split; [exact A|]); (split; [exact B|]); (split; [exact C|]); auto.
  exfalso. pose proof (steps_trans _ _ _ _ H (sched_steps _ _ _ _ A)) as H'. destruct (replay_some _ _ _ _ H') as [c' Hrp].
  destruct (replay_calm _ _ _ _ Hrp) as [_ F]; [constructor|]. rewrite Forall_forall in F. apply (F (i, x, a)); [|exact D]. rewrite B. apply in_or_app. right. left. reflexivity.
Qed.
(** The first goroutine's registration panics (the type is registered already), and the
    second finds the mutex free. *)
Definition kept_s : state := after race_env ([0;0;0;0;0;0;0;0;0;0;0;0;0;0] ++ [0;0;0;0;0;0;0;0])%nat (start new_codec [twice (CConc t_A name_A) (CConc t_A [66]); once (CGet t_A)]).
Example C34_example : steps race_env (start new_codec [twice (CConc t_A name_A) (CConc t_A [66]); once (CGet t_A)]) kept_s /\
  st_log kept_s = [(0%nat, CConc t_A name_A, ADone); (0%nat, CConc t_A [66], APanic "TypeInfo already exists"%string)] /\
  nth_error (st_threads kept_s) 1 = Some (Idle (once (CGet t_A))) /\ st_writer kept_s = false /\ st_readers kept_s = 0%nat /\
  existsb (fun th => negb (finished th)) (st_threads kept_s) = true.
Proof. split; [apply after_steps|]. vm_compute. auto 6. Qed.
Print Assumptions C34_no_leak_partial.
Print Assumptions C34_progress_partial.
Print Assumptions C34_alone_partial.

(** ** C58 *)

Lemma serial_third env c e1 e2 i x a l c' : serial env c (e1 :: e2 :: (i, x, a) :: l) c' -> exists c2, c2 = fst (reply env (fst (reply env c (snd (fst e1)))) (snd (fst e2))) /\ snd (reply env c2 x) = a.
Proof. destruct e1 as [[i1 x1] a1], e2 as [[i2 x2] a2]. cbn [serial fst snd]. intros (_ & _ & H & _). eexists. split; [reflexivity|exact H]. Qed.

(** The statement is false because of C31: Seal returns, the lookup says that the name
    is not registered, and then RegisterConcrete succeeds. *)
Theorem C58_refuted : exists env cls s, steps env (start new_codec cls) s /\ (forall th, In th (st_threads s) -> finished th = true) /\
  forall c', ~ serial env new_codec (st_log s) c'.
Proof.
  exists race_env, [once (CConc t_A name_A); once CSeal; once (CName name_A)], late_s2.
  assert (H1 : steps race_env late late_s1) by apply after_steps. assert (H2 : steps race_env late_s1 late_s2) by apply after_steps.
  split; [exact (steps_trans _ _ _ _ H1 H2)|]. split.
  - intros th H. assert (E : forallb finished (st_threads late_s2) = true) by (vm_compute; reflexivity). rewrite forallb_forall in E. apply E. exact H.
  - intros c' H.
    assert (E : st_log late_s2 = [(1%nat, CSeal, ADone); (2%nat, CName name_A, AErr "unrecognized concrete type name"%string); (0%nat, CConc t_A name_A, ADone)]) by (vm_compute; reflexivity).
    rewrite E in H. apply serial_third in H. cbn [fst snd] in H. destruct H as (c2 & Hc2 & H).
    assert (S : cd_sealed c2 = true) by (subst c2; vm_compute; reflexivity).
    clear Hc2. cbn [reply step outcome snd] in H. unfold register_concrete in H. rewrite S in H. discriminate H.
Qed.
Print Assumptions C58_refuted.

(** As long as nobody seals the codec, what has been answered and what the codec
    contains when nobody is writing are the results of the calls made one at a time
    in the order of their return; the contents are those of the history of C26-C33.
    Missing: the calls that read without lock (C59). *)
Theorem C58_serial_partial : forall env cls s, steps env (start new_codec cls) s -> writing s = false -> no_seal (st_log s) ->
  Forall (fun e => unlocked (snd (fst e)) = false) (st_log s) ->
  serial env new_codec (st_log s) (st_codec s) /\ st_codec s = run env new_codec (ops_of (st_log s)).
Proof.
  intros env cls s H Hw Hn Hf. pose proof (replay_all _ _ _ _ H Hw) as R.
  split; [apply replay_serial; try assumption; reflexivity|apply replay_run; try assumption; reflexivity].
Qed.
(** With Seal, the only exception are registrations that were in progress (C31). *)
Theorem C58_replay_partial : forall env cls s, steps env (start new_codec cls) s -> writing s = false -> replay env new_codec (st_log s) (st_codec s).
Proof. intros env cls s H Hw. exact (replay_all env new_codec cls s H Hw). Qed.
(** Two goroutines want the same name, a third looks it up, all mixed. *)
Definition mixed_cls : list client := [once (CConc t_A name_A); once (CConc t_F name_A); twice (CIface 0%nat None) (CName name_A)].
Definition mixed_s : state := after race_env ([0;1;2; 0;0;0; 2;2;2; 1;1;1] ++ [2;2;2;2;2] ++ [0;0;0;0;0;0;0;0;0;0;0;0;0] ++ [2;2;2;2])%nat (start new_codec mixed_cls).
Example C58_example : steps race_env (start new_codec mixed_cls) mixed_s /\ writing mixed_s = false /\ no_seal (st_log mixed_s) /\
  Forall (fun e => unlocked (snd (fst e)) = false) (st_log mixed_s) /\ length (st_log mixed_s) = 4%nat.
Proof.
  split; [apply after_steps|]. split; [vm_compute; reflexivity|].
  split.
  { intros i a H. assert (E : forallb (fun e => match snd (fst e) with CSeal => false | _ => true end) (st_log mixed_s) = true) by (vm_compute; reflexivity).
    rewrite forallb_forall in E. specialize (E _ H). discriminate E. } split; [vm_compute; repeat constructor|vm_compute; reflexivity].
Qed.
Print Assumptions C58_serial_partial.
Print Assumptions C58_replay_partial.

(** ** C59 *)

(** The statement is false: encodeReflectBinaryInterface reads iinfo.Implementers without
    lock (binary-encode.go:248), which RegisterConcrete writes to (codec.go:672). *)
Definition race_cls : list client := [twice (CIface 0%nat None) (CConc t_A name_A); once (CAmbig 0%nat [208; 130; 100; 213])].
Definition race_s : state := after race_env ([0;0;0;0;0;0;0;0;0] ++ [0;0;0;0;0;0;0] ++ [1])%nat (start new_codec race_cls).
Theorem C59_refuted : exists env cls s i j thi thj, steps env (start new_codec cls) s /\ i <> j /\
  nth_error (st_threads s) i = Some thi /\ nth_error (st_threads s) j = Some thj /\ at_write thi = true /\ at_access thj = true.
Proof.
  exists race_env, race_cls, race_s, 0%nat, 1%nat.
  assert (E : match nth_error (st_threads race_s) 0, nth_error (st_threads race_s) 1 with Some a, Some b => at_write a && at_access b | _, _ => false end = true) by (vm_compute; reflexivity).
  destruct (nth_error (st_threads race_s) 0) as [a|] eqn:E0; [|discriminate]. destruct (nth_error (st_threads race_s) 1) as [b|] eqn:E1; [|discriminate].
  apply andb_prop in E. exists a, b. split; [apply after_steps|]. split; [discriminate|]. split; [reflexivity|]. split; [reflexivity|exact E].
Qed.
Print Assumptions C59_refuted.

(** That read is the only one: when somebody is about to write, nobody else is about
    to write, and whoever is about to read is about to make that read. *)
Theorem C59_lock_partial : forall env cls s i j thi thj, steps env (start new_codec cls) s -> i <> j ->
  nth_error (st_threads s) i = Some thi -> nth_error (st_threads s) j = Some thj -> at_write thi = true -> at_access thj = true ->
  exists x m p k, thj = Busy x m p k /\ unlocked x = true /\ at_write thj = false.
Proof. intros env cls s i j thi thj. apply races. Qed.
(** [race_s] meets the hypotheses; here is a state in which a writer is about to write
    and two others wait. *)
Definition wait_s : state := after race_env ([0;0;0;0;0;0;0;0;0] ++ [0;0;0;0;0;0;0] ++ [1; 2])%nat
  (start new_codec [twice (CIface 0%nat None) (CConc t_A name_A); once (CName name_A); once (CConc t_A [66])]).
Example C59_example : match nth_error (st_threads wait_s) 0, nth_error (st_threads wait_s) 1, nth_error (st_threads wait_s) 2 with
  Some a, Some b, Some c => at_write a && wants_rlock b && wants_lock c && negb (at_access b) && negb (at_access c) | _, _, _ => false end = true.
Proof. vm_compute. reflexivity. Qed.
Print Assumptions C59_lock_partial.

(** ** C60 *)

(** Goroutines that only look up types, as Marshal and Unmarshal do, get the answers
    they would get from the codec as it was when they started, all by themselves,
    whatever the interleaving. *)
Theorem C60_lookups : forall env c cls s i x a, Forall lookups cls -> steps env (start c cls) s -> In (i, x, a) (st_log s) -> a = snd (reply env c x).
Proof. intros env c cls s i x a. apply lookups_agree. Qed.
(** In particular a type gets the type information it has in [c]. *)
Theorem C60_types : forall env c cls s i t a, Forall lookups cls -> steps env (start c cls) s -> In (i, CGet t, a) (st_log s) -> a = of_info (get_type_info env c t).
Proof. intros env c cls s i t a Hl Hs Hin. exact (lookups_agree env c cls s i (CGet t) a Hl Hs Hin). Qed.
Definition look_c : codec := run race_env new_codec [OIface 0%nat None; OConc t_A name_A].
Definition look_cls : list client := [twice (CGet t_A) (CName name_A); twice (CGet (TIface 0%nat)) (CAmbig 0%nat [208; 130; 100; 213]); twice (CPrefix 0%nat [208; 130; 100; 213]) (CGet (TSlice TInt))].
Definition look_s : state := after race_env [0;1;2; 2;2;2; 0;0;0; 1;1;1; 2; 0;0;0;0; 2;2;2;2; 1;1]%nat (start look_c look_cls).
Example C60_example : Forall lookups look_cls /\ steps race_env (start look_c look_cls) look_s /\
  map fst (st_log look_s) = [(2%nat, CPrefix 0%nat [208; 130; 100; 213]); (0%nat, CGet t_A); (1%nat, CGet (TIface 0%nat)); (0%nat, CName name_A); (2%nat, CGet (TSlice TInt));
    (1%nat, CAmbig 0%nat [208; 130; 100; 213])] /\ length (cd_types (st_codec look_s)) = 2%nat.
Proof. split; [repeat constructor|]. split; [apply after_steps|]. vm_compute. auto. Qed.
Print Assumptions C60_lookups.
Print Assumptions C60_types.
