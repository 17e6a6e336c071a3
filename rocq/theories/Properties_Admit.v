(** Property theorems about which registrations a codec accepts (C77). *)
From Coq Require Import ZArith String List Bool Lia Permutation.
From Verif Require Import Base Types Codec BinEnc BinDec Amino Registry SpecRegistry SpecWritable SpecAdmit FuelFacts RegistryFacts
  JsonText Json JsonIndent JsonEquiv AdmitFacts Properties_Registry Demo.
Import ListNotations.
Local Open Scope Z_scope.

(** ** C77 *)

(** No call of a history panics exactly if the history is admissible. *)
Theorem C77_admits : forall env h, clean env new_codec h = true <-> admissible env h.
Proof. exact admits. Qed.

(** The order of registrations changes neither whether they are accepted nor what the codec
    then writes and reads. *)
Theorem C77_order : forall env h h', Permutation h h' -> forallb registers h = true ->
  clean env new_codec h = clean env new_codec h' /\
  (clean env new_codec h = true ->
   let c := run env new_codec h in let c' := run env new_codec h' in
   forall fuel je t v bz p q,
     marshal_bare fuel env c t v = marshal_bare fuel env c' t v /\
     marshal_length_prefixed fuel env c t v = marshal_length_prefixed fuel env c' t v /\
     marshal_json fuel env je c t v = marshal_json fuel env je c' t v /\
     marshal_json_indent fuel env je c t v p q = marshal_json_indent fuel env je c' t v p q /\
     unmarshal_bare fuel env c bz t v = unmarshal_bare fuel env c' bz t v /\
     unmarshal_length_prefixed fuel env c bz t v = unmarshal_length_prefixed fuel env c' bz t v /\
     unmarshal_json fuel env je c bz t v = unmarshal_json fuel env je c' bz t v).
Proof.
  intros env h h' P R. pose proof (order_free env h h' P R) as E. split; [exact E|]. intros C c c' fuel je t v bz p q.
  assert (C' : clean env new_codec h' = true) by congruence.
  assert (Q : codec_equiv env c c').
  { apply order_equiv; try assumption; apply Permutation_flat_map; assumption. }
  repeat apply conj.
  - apply marshal_codec_equiv; assumption.
  - apply marshal_length_codec_equiv; assumption.
  - apply marshal_json_equiv; assumption.
  - apply marshal_json_indent_equiv; assumption.
  - apply unmarshal_codec_equiv; assumption.
  - apply unmarshal_length_codec_equiv; assumption.
  - apply unmarshal_json_equiv; assumption.
Qed.

(** Calls that use the codec do matter: a type that was written once can no longer be
    registered (codec.go:340-347). *)
Theorem C77_used_first_refuted : exists env h h', Permutation h h' /\
  clean env new_codec h = true /\ clean env new_codec h' = false.
Proof.
  exists demo, [OConc t_conc1 (bs "Concrete1"); OUse t_conc1], [OUse t_conc1; OConc t_conc1 (bs "Concrete1")].
  split; [apply perm_swap|]. vm_compute. auto.
Qed.

(** Two orders of the registrations of the demo types, a list that is refused because of a
    conflict of prefixes, in both orders, and the conflict with the priority list that allows it. *)
Definition adm_1 : list op :=
  [OIface i_1 None; OConc t_conc1 (bs "Concrete1"); OConc (TPtr t_conc2) (bs "Concrete2"); OIface i_msg None].
Definition adm_2 : list op :=
  [OConc t_conc1 (bs "Concrete1"); OIface i_1 None; OIface i_msg None; OConc (TPtr t_conc2) (bs "Concrete2")].
Example C77_example :
  Permutation adm_1 adm_2 /\ forallb registers adm_1 = true /\ admissible demo adm_1 /\ admissible demo adm_2 /\
  admissible demo hist_1 /\
  ~ admissible demo_conf [OConc t_foo (bs "A"); OIface i_msg None; OConc (TPtr t_bcmsg) (bs "B")] /\
  ~ admissible demo_conf [OConc t_foo (bs "A"); OConc (TPtr t_bcmsg) (bs "B"); OIface i_msg None] /\
  admissible demo_conf hist_conf /\
  let c := run demo new_codec adm_1 in
  marshal_length_prefixed 10 demo c t_hasif (VStruct [VIface (Some (t_conc1, VStruct []))]) = EOk [6; 10; 4; 0xe3; 0xda; 0xb8; 0x33].
Proof.
  split. { apply perm_trans with [OConc t_conc1 (bs "Concrete1"); OIface i_1 None; OConc (TPtr t_conc2) (bs "Concrete2"); OIface i_msg None].
    - apply perm_swap. - do 2 apply perm_skip. apply perm_swap. }
  split; [reflexivity|]. rewrite <- !C77_admits. vm_compute. repeat split; discriminate.
Qed.
Print Assumptions C77_admits.
Print Assumptions C77_order.
Print Assumptions C77_used_first_refuted.
