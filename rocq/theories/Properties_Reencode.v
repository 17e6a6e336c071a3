(** Property theorems about writing again what was read. *)
From Coq Require Import ZArith String List Bool Lia.
From Coq Require Import ZifyBool ZifyNat.
From Verif Require Import Base Prims PrimFacts Types Codec BinEnc BinDec Amino FuelFacts Registry SpecRegistry RegistryFacts Sane Typing DecSafe Sha256 Demo DemoFacts
  SpecNorm EncFacts RoundTrip TopFacts SpecSupported SupportedFacts TopProps DecProps SpecReencode ReencodeFacts Properties_Decode Properties_RoundTrip.
Import ListNotations.
Local Open Scope Z_scope.

(** ** C73 *)

(** Reading the bytes of a value that lasts and writing what was read gives the
    same bytes. *)
Theorem C73_lasting_partial : forall env h, wf_env env -> marshal_typed env -> clean env new_codec h = true ->
  forall k fd t v w v' v2 bz bz2, let c := run env new_codec h in
  struct_like env (deref_type t) = true -> has_type env t v = true ->
  under v = Some w -> norm k env c (deref_type t) (set_num 1 no_opts) w = Some v' ->
  lasting k env c (deref_type t) (set_num 1 no_opts) w ->
  marshal_bare k env c t v = EOk bz -> zlen bz < 2 ^ 63 -> (2 * k <= fd)%nat ->
  unmarshal_bare fd env c bz t (zero env t) = URet v2 None ->
  marshal_bare k env c t v2 = EOk bz2 -> zlen bz2 < 2 ^ 63 -> bz2 = bz.
Proof.
  intros env h We Hm Hc k fd t v w v' v2 bz bz2 c Hsl Ht Hu Hn HL H Hz Hfd HU H2 Hz2.
  assert (R : unmarshal_bare fd env c bz t (zero env t) = URet (ptrs t v') None) by (eapply C11_normal_form_partial; eassumption).
  rewrite HU in R. inversion R; subst v2.
  eapply (marshal_re env c k t v w v' bz bz2); try eassumption; apply sane_run.
Qed.

(** Types without times that can be left out, other than as fields of their own,
    and whose methods give back what they were given: whatever Marshal accepts is
    written again with the same bytes, with and without length prefix.
    Missing for the full statement: the types left out by [supported] and
    [steady] (see the refuted statements below). *)
Theorem C73_steady_partial : forall env h mem calm, wf_env env -> marshal_typed env -> clean env new_codec h = true ->
  supported env (run env new_codec h) mem -> steady env (run env new_codec h) mem calm ->
  forall k fd k2 t v v2 bz bz2, let c := run env new_codec h in
  mem (deref_type t) = true -> struct_like env (deref_type t) = true -> has_type env t v = true ->
  marshal_bare k env c t v = EOk bz -> zlen bz < 2 ^ 63 ->
  unmarshal_bare fd env c bz t (zero env t) = URet v2 None ->
  marshal_bare k2 env c t v2 = EOk bz2 -> zlen bz2 < 2 ^ 63 -> bz2 = bz.
Proof.
  intros env h mem calm We Hm Hc Hsup Hst k fd k2 t v v2 bz bz2 c Hmem Hsl Ht H Hz HU H2 Hz2.
  set (K := Nat.max k k2). set (F := Nat.max fd (2 * K)).
  apply (marshal_fuel env c k K) in H; [|lia]. apply (marshal_fuel env c k2 K) in H2; [|lia].
  assert (HU' : unmarshal_bare F env c bz t (zero env t) = URet v2 None) by (rewrite (unmarshal_fuel env c fd F) by (congruence || lia); exact HU).
  pose proof (wf_history env h Hc) as W. pose proof (sane_run env h) as Sa. fold c in W, Sa.
  destruct (supported_top env c mem K t v bz We W Sa Hm Hsup Hmem Hsl Ht H) as (w & v' & Hu & Hn).
  assert (HL : lasting K env c (deref_type t) (set_num 1 no_opts) w).
  { eapply (steady_lasts env We c Sa mem calm Hsup Hst); try eassumption; [apply deref_idem|eapply under_typed; eassumption]. }
  eapply (C73_lasting_partial env h We Hm Hc K F); try eassumption. lia.
Qed.

(** All types of the demo program are steady. *)
Definition demo_calm (t : gotype) : bool := negb (gotype_eqb t TTime || gotype_eqb t t_all).
Lemma demo_steady : steady demo (run demo new_codec demo_history) demo_mem demo_calm.
Proof.
  split.
  - intros t H. unfold demo_mem in H. apply existsb_exists in H. destruct H as (t' & H & Et). apply gotype_eqb_eq in Et. subst t'.
    assert (T : steady_ok demo (run demo new_codec demo_history) demo_calm t_temp).
    { unfold steady_ok. cbn [has_method te_marshal te_unmarshal demo t_temp Nat.eqb]. intros k o v v' Ht Hn. destruct k as [|[|k]]; [discriminate| |];
        cbn [norm t_temp te_marshal te_unmarshal demo Nat.eqb] in Hn; (destruct (temp_marshal v) eqn:E; try discriminate);
        destruct v; try discriminate; unfold temp_marshal in E; (destruct (z <? 0) eqn:Ez; [discriminate|]); inversion E; subst a; cbn [norm resolve TStr] in Hn; try discriminate.
      unfold temp_unmarshal in Hn. inversion Hn. f_equal. clear Hn E.
      rewrite (has_type_prim demo t_temp PInt32 (VInt z) eq_refl) in Ht. unfold zlen. rewrite repeat_length. unfold i32, iwrap. cbn in Ht. unfold in_int in Ht.
      rewrite Z2Nat.id by lia. rewrite Z.mod_small by lia. destruct (z <? _) eqn:E2; [reflexivity|]. lia. }
    unfold demo_supported in H. cbn [map app In] in H.
    repeat (destruct H as [<-|H]; [first [exact T|vm_compute; tauto|vm_compute; repeat constructor; auto]|]). destruct H.
  - intros t H. unfold calm_ok. split; [intros ->; discriminate H|]. destruct (has_method demo t) eqn:Em.
    + destruct t; try discriminate Em. cbn [has_method te_marshal te_unmarshal demo] in Em. destruct (id =? 12)%nat eqn:Ei; [|discriminate]. apply Nat.eqb_eq in Ei. subst id.
      intros k o v _ _. exists 3%nat. reflexivity.
    + destruct t; try exact I. do 14 (destruct id as [|id]; [try discriminate H; try exact I; cbn; repeat constructor; try discriminate; reflexivity|]). constructor.
Qed.

(** A program whose types are not steady. *)
Definition t_alarm := TNamed 0%nat.    (* struct { At *time.Time } *)
Definition t_stamp := TNamed 1%nat.    (* struct { At time.Time } *)
Definition t_event := TNamed 2%nat.    (* struct { Id int; When Stamp } *)
Definition clock : tenv :=
  {| te_def := fun id => match id with
                         | 0%nat => UStruct [fld "At" (TPtr TTime) "" ""]
                         | 1%nat => UStruct [fld "At" TTime "" ""]
                         | 2%nat => UStruct [fld "Id" TInt "" ""; fld "When" t_stamp "" ""]
                         | _ => UStruct []
                         end;
     te_zero := fun id => match id with
                          | 0%nat => VStruct [VPtr None]
                          | 1%nat => VStruct [zero_time]
                          | 2%nat => VStruct [VInt 0; VStruct [zero_time]]
                          | _ => VStruct []
                          end;
     te_impl := fun _ _ => false; te_marshal := fun _ => None; te_unmarshal := fun _ => None; te_hash := sha256 |}.
Lemma clock_wf : wf_env clock.
Proof.
  split; cbn [clock te_impl te_hash]; try discriminate.
  - intros [|[|[|id]]]; discriminate.
  - intros [|[|[|id]]]; reflexivity.
  - exact sha256_length.
  - exact sha256_ok.
Qed.
Lemma clock_marshal_typed : marshal_typed clock.
Proof. intros id r f v w. discriminate. Qed.
Definition clock_mem (t : gotype) : bool := existsb (gotype_eqb t) [t_alarm; t_stamp; t_event; TTime; TInt].
Lemma clock_supported : supported clock new_codec clock_mem.
Proof.
  intros t H. unfold clock_mem in H. apply existsb_exists in H. destruct H as (t' & H & Et). apply gotype_eqb_eq in Et. subst t'.
  cbn [In] in H. repeat (destruct H as [<-|H]; [split; [vm_compute; reflexivity|exact I]|]). destruct H.
Qed.

(** A nil pointer to a time is left out, read as a pointer to the Unix epoch
    (reflect.go:130-158, binary-decode.go:835-838), and that is written. *)
Theorem C73_nil_time_refuted : exists env mem k t v v2 bz bz2, wf_env env /\ marshal_typed env /\
  supported env new_codec mem /\ mem t = true /\ struct_like env t = true /\ has_type env t v = true /\
  marshal_bare k env new_codec t v = EOk bz /\ unmarshal_bare (2 * k) env new_codec bz t (zero env t) = URet v2 None /\
  marshal_bare k env new_codec t v2 = EOk bz2 /\ bz2 <> bz.
Proof.
  exists clock, clock_mem, 5%nat, t_alarm, (VStruct [VPtr None]), (VStruct [VPtr (Some (VTime 0 0))]), [], [10; 0].
  split; [exact clock_wf|]. split; [exact clock_marshal_typed|]. split; [exact clock_supported|].
  do 6 (split; [vm_compute; reflexivity|]). discriminate.
Qed.
(** A struct holding only the Unix epoch is left out and read as the zero time, the
    year 1, which is written: the time itself has changed (binary-encode.go:499-530,
    binary-decode.go:815-838). *)
Theorem C73_epoch_refuted : exists env mem k t v v2 bz bz2, wf_env env /\ marshal_typed env /\
  supported env new_codec mem /\ mem t = true /\ struct_like env t = true /\ has_type env t v = true /\
  marshal_bare k env new_codec t v = EOk bz /\ unmarshal_bare (2 * k) env new_codec bz t (zero env t) = URet v2 None /\
  v = VStruct [VInt 7; VStruct [VTime 0 0]] /\ v2 = VStruct [VInt 7; VStruct [VTime (-62135596800) 0]] /\
  marshal_bare k env new_codec t v2 = EOk bz2 /\ bz2 <> bz.
Proof.
  exists clock, clock_mem, 5%nat, t_event, (VStruct [VInt 7; VStruct [VTime 0 0]]). do 3 eexists.
  split; [exact clock_wf|]. split; [exact clock_marshal_typed|]. split; [exact clock_supported|].
  do 4 (split; [vm_compute; reflexivity|]). split; [vm_compute; reflexivity|]. do 2 (split; [vm_compute; reflexivity|]).
  split; [vm_compute; reflexivity|]. discriminate.
Qed.

(** The hypotheses hold of a value with nested structs, lists, pointers, times and
    interfaces that changes when read; and of a value of a type that is not steady. *)
Example C73_example : let c := run demo new_codec demo_history in
  supported demo c demo_mem /\ steady demo c demo_mem demo_calm /\ demo_mem t_all = true /\ has_type demo t_all all_value = true /\
  lasting 10 demo c t_all (set_num 1 no_opts) all_value /\ all_norm <> all_value /\
  match marshal_bare 10 demo c t_all all_value with
  | EOk bz => unmarshal_bare 20 demo c bz t_all (zero demo t_all) = URet all_norm None /\
              marshal_bare 10 demo c t_all all_norm = EOk bz /\ length bz = 85%nat
  | _ => False
  end /\
  let v := VStruct [VPtr (Some (VTime 5 6))] in
  norm 5 clock new_codec t_alarm (set_num 1 no_opts) v = Some v /\ lasting 5 clock new_codec t_alarm (set_num 1 no_opts) v /\
  marshal_bare 5 clock new_codec t_alarm v = EOk [10; 4; 8; 5; 16; 6].
Proof.
  intros c. split; [exact demo_is_supported|]. split; [exact demo_steady|]. do 2 (split; [vm_compute; reflexivity|]). split.
  { eapply (steady_lasts demo demo_wf c (sane_run _ _) demo_mem demo_calm demo_is_supported demo_steady 10 t_all (set_num 1 no_opts) all_value all_norm); vm_compute; reflexivity. }
  split; [discriminate|]. split; [vm_compute; repeat split|]. split; [vm_compute; reflexivity|]. split; [vm_compute; tauto|vm_compute; reflexivity].
Qed.
Print Assumptions C73_lasting_partial.
Print Assumptions C73_steady_partial.
Print Assumptions C73_nil_time_refuted.
Print Assumptions C73_epoch_refuted.
