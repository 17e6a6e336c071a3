(** Property theorems about registering more types (C78). *)
From Coq Require Import ZArith String List Bool Lia.
From Verif Require Import Base Types Codec BinEnc BinDec Amino Registry SpecRegistry SpecAdmit SpecMore JsonText Json JsonIndent FuelFacts MoreFacts
  Demo Properties_Json Properties_Registry Properties_Admit.
Import ListNotations.
Local Open Scope Z_scope.

(** ** C78 *)

(** What a codec writes and reads in binary it still writes and reads alike, with the same result, if
    more is registered: types whose prefixes do not collide with old ones in old interfaces, and not
    the type that is written or read itself. *)
Theorem C78_binary_partial : forall env h h' t, clean env new_codec h = true -> clean env new_codec h' = true ->
  more h h' -> fresh_prefixes env h h' -> not_added t h h' ->
  let c := run env new_codec h in let c' := run env new_codec h' in
  forall fuel v bz w,
    (marshal_bare fuel env c t v = EOk bz -> marshal_bare fuel env c' t v = EOk bz) /\
    (marshal_length_prefixed fuel env c t v = EOk bz -> marshal_length_prefixed fuel env c' t v = EOk bz) /\
    (unmarshal_bare fuel env c bz t v = URet w None -> unmarshal_bare fuel env c' bz t v = URet w None) /\
    (unmarshal_length_prefixed fuel env c bz t v = URet w None -> unmarshal_length_prefixed fuel env c' bz t v = URet w None).
Proof.
  intros env h h' t C C' M F N c c' fuel v bz w.
  pose proof (history_bmore env h h' C C' M F) as B. pose proof (history_top env h h' t C C' M N) as T.
  repeat apply conj; intros H.
  - exact (marshal_more _ _ _ _ _ _ _ B T _ H).
  - exact (marshal_length_more _ _ _ _ _ _ _ B T _ H).
  - exact (unmarshal_more _ _ _ _ _ _ _ _ B T _ H).
  - exact (unmarshal_length_more _ _ _ _ _ _ _ _ B T _ H).
Qed.

(** For JSON prefixes do not matter. *)
Theorem C78_json_partial : forall env h h' t, clean env new_codec h = true -> clean env new_codec h' = true ->
  more h h' -> not_added t h h' ->
  let c := run env new_codec h in let c' := run env new_codec h' in
  forall fuel je v bz w p q,
    (marshal_json fuel env je c t v = EOk bz -> marshal_json fuel env je c' t v = EOk bz) /\
    (marshal_json_indent fuel env je c t v p q = EOk bz -> marshal_json_indent fuel env je c' t v p q = EOk bz) /\
    (unmarshal_json fuel env je c bz t v = EOk w -> unmarshal_json fuel env je c' bz t v = EOk w).
Proof.
  intros env h h' t C C' M N c c' fuel je v bz w p q.
  pose proof (history_jmore env h h' C C' M) as J. pose proof (history_top env h h' t C C' M N) as T.
  repeat apply conj; intros H.
  - exact (marshal_json_more _ _ _ _ _ _ _ J T _ H).
  - exact (marshal_json_indent_more _ _ _ _ _ _ _ _ _ J T _ H).
  - exact (unmarshal_json_more _ _ _ _ _ _ _ _ J T _ H).
Qed.

(** A prefix that collides with an old one changes how the old type is written, and the old
    bytes are no longer read (binary-encode.go:245-257, codec.go:394-414). *)
Definition conf_1 : list op :=
  [OIface i_1 (Some {| io_prio := [bs "A"; bs "B"]; io_always := false |}); OConc t_conc1 (bs "A")].
Definition conf_2 : list op := conf_1 ++ [OConc t_conc2 (bs "B")].
Definition conf_v : value := VStruct [VIface (Some (t_conc1, VStruct []))].
Theorem C78_conflict_refuted : exists env h h' t fuel v bz bz' w,
  clean env new_codec h = true /\ clean env new_codec h' = true /\ more h h' /\ not_added t h h' /\
  marshal_bare fuel env (run env new_codec h) t v = EOk bz /\ marshal_bare fuel env (run env new_codec h') t v = EOk bz' /\ bz <> bz' /\
  unmarshal_bare fuel env (run env new_codec h) bz t (zero env t) = URet w None /\
  (forall x, unmarshal_bare fuel env (run env new_codec h') bz t (zero env t) <> URet x None).
Proof.
  exists demo_conf, conf_1, conf_2, t_hasif, 10%nat, conf_v. do 3 eexists.
  split; [vm_compute; reflexivity|]. split; [vm_compute; reflexivity|].
  split; [apply more_app|].
  split. { intros x [<-|[<-|[]]]; cbn; discriminate. }
  split; [vm_compute; reflexivity|]. split; [vm_compute; reflexivity|]. split; [discriminate|]. split; [vm_compute; reflexivity|].
  intros x. vm_compute. discriminate.
Qed.

(** Registering a type that has been written itself changes what is written, and what was written
    before is no longer read. *)
Theorem C78_registered_refuted : exists env h h' t fuel v bz bz' w,
  clean env new_codec h = true /\ clean env new_codec h' = true /\ more h h' /\ fresh_prefixes env h h' /\
  marshal_bare fuel env (run env new_codec h) t v = EOk bz /\ marshal_bare fuel env (run env new_codec h') t v = EOk bz' /\ bz <> bz' /\
  unmarshal_bare fuel env (run env new_codec h) bz t (zero env t) = URet w None /\
  (forall x, unmarshal_bare fuel env (run env new_codec h') bz t (zero env t) <> URet x None).
Proof.
  exists demo, [], [OConc t_bcmsg (bs "bcMessage")], t_bcmsg, 10%nat, bc_abc. do 3 eexists.
  split; [vm_compute; reflexivity|]. split; [vm_compute; reflexivity|].
  split; [apply (more_app [])|].
  split. { intros i o x y d d' p []. }
  split; [vm_compute; reflexivity|]. split; [vm_compute; reflexivity|]. split; [discriminate|]. split; [vm_compute; reflexivity|].
  intros x. vm_compute. discriminate.
Qed.

(** A codec with one interface and one type, and one with more of both, in another order: the
    type [bcMessage] inside a list is written without prefix even when it is registered. *)
Definition more_1 : list op := [OIface i_1 None; OConc t_conc1 (bs "Concrete1")].
Definition more_2 : list op :=
  [OConc t_conc1 (bs "Concrete1"); OConc (TPtr t_conc2) (bs "Concrete2"); OIface i_msg None; OConc t_bcmsg (bs "bcMessage");
   OIface i_1 (Some {| io_prio := [bs "Concrete1"]; io_always := false |}); OSeal].
Lemma more_1_2 : more more_1 more_2 /\ fresh_prefixes demo more_1 more_2.
Proof.
  split.
  - split.
    + intros x [<-|[]]. left. reflexivity.
    + intros i o [H|[]]. injection H as <- <-. exists (Some {| io_prio := [bs "Concrete1"]; io_always := false |}). split; [right; left; reflexivity|reflexivity].
  - intros i o x y d d' p _ [<-|[]] Hy _ Hx Hd. apply AdmitFacts.named_iff in Hx, Hd. cbn [snd] in Hx.
    vm_compute in Hx. injection Hx as <- <-. destruct Hy as [<-|[<-|[<-|[]]]]; [left; reflexivity| |]; vm_compute in Hd; discriminate Hd.
Qed.
Example C78_example :
  clean demo new_codec more_1 = true /\ clean demo new_codec more_2 = true /\
  not_added t_hasif more_1 more_2 /\ not_added (TSlice t_bcmsg) more_1 more_2 /\
  let c' := run demo new_codec more_2 in
  marshal_bare 10 demo c' t_hasif (VStruct [VIface (Some (t_conc1, VStruct []))]) = EOk [10; 4; 0xe3; 0xda; 0xb8; 0x33] /\
  marshal_bare 10 demo c' (TSlice t_bcmsg) (VSlice (Some [bc_abc])) = EOk [10; 7; 10; 3; 65; 66; 67; 16; 100] /\
  marshal_json 10 demo jdemo_je c' t_hasif (VStruct [VIface (Some (t_conc1, VStruct []))])
    = EOk (bs "{""Interface1"":{""type"":""Concrete1"",""value"":{}}}").
Proof.
  split; [vm_compute; reflexivity|]. split; [vm_compute; reflexivity|].
  split. { intros x [<-|[<-|[<-|[]]]]; cbn; try discriminate; auto. }
  split. { intros x [<-|[<-|[<-|[]]]]; cbn; try discriminate; auto. }
  vm_compute. auto.
Qed.
Print Assumptions C78_binary_partial.
Print Assumptions C78_json_partial.
Print Assumptions C78_conflict_refuted.
Print Assumptions C78_registered_refuted.
