(** Property theorems about the arguments of the exported functions (C69) and about the
    package-level functions (C70); and C30, C33 for JSON. *)
From Coq Require Import ZArith String List Bool Lia.
From Coq Require Import ZifyBool ZifyNat.
From Verif Require Import Base Prims Types Codec BinEnc BinDec Amino Registry Stream JsonText Json JsonIndent Entry
  FuelFacts RegistryFacts RegistryProps Sane Typing DecSafe EncFacts RoundTrip SpecNorm SpecSupported SpecTags Demo DemoFacts
  JsonEquiv Properties_RoundTrip.
Import ListNotations.
Local Open Scope Z_scope.

(** ** C33, C30: JSON *)

Lemma uses_equiv env : forall uses c, codec_equiv env c (run env c (map OUse uses)).
Proof.
  induction uses as [|t l IH]; intros c; cbn [map run step fst]; [apply codec_equiv_refl|].
  eapply codec_equiv_trans; [apply get_type_info_st_equiv|apply IH].
Qed.

(** Type lookups never change what JSON is written or read. *)
Theorem C33_json : forall env je c uses, let c' := run env c (map OUse uses) in
  forall k t v bz prefix indent,
    marshal_json k env je c' t v = marshal_json k env je c t v /\
    marshal_json_indent k env je c' t v prefix indent = marshal_json_indent k env je c t v prefix indent /\
    unmarshal_json k env je c' bz t v = unmarshal_json k env je c bz t v.
Proof.
  intros env je c uses c' k t v bz prefix indent. pose proof (uses_equiv env uses c) as E. fold c' in E.
  split; [|split]; symmetry; [apply marshal_json_equiv|apply marshal_json_indent_equiv|apply unmarshal_json_equiv]; exact E.
Qed.
(** From a sealed codec on, no call changes it either. *)
Theorem C30_json : forall env je c h, cd_sealed c = true -> let c' := run env c h in
  forall k t v bz,
    marshal_json k env je c' t v = marshal_json k env je c t v /\
    unmarshal_json k env je c' bz t v = unmarshal_json k env je c bz t v.
Proof.
  intros env je c h Hs c' k t v bz. destruct (sealed_forever env h c Hs) as (_ & _ & _ & _ & _ & E). fold c' in E.
  split; symmetry; [apply marshal_json_equiv|apply unmarshal_json_equiv]; exact E.
Qed.

(** ** C69 *)

(** What an Unmarshal function can store into. *)
Definition variable_of (ptr : arg) (t : gotype) (v : value) : Prop := ptr = Some (TPtr t, VPtr (Some v)).

(** Whatever the bytes are: an argument that does not point to a variable is left alone
    and the call does not succeed; it panics only for a nil pointer. *)
Theorem C69_no_variable : forall ptr, (forall t v, ~ variable_of ptr t v) ->
  (forall k env c bz, (exists e, call_unmarshal_bare k env c bz ptr = CRet ptr (Some e)) \/
                      (exists p t x, call_unmarshal_bare k env c bz ptr = CPanic p /\ ptr = Some (TPtr t, x))) /\
  (forall k env c bz, (exists e, call_unmarshal_length_prefixed k env c bz ptr = CRet ptr (Some e)) \/
                      (exists p t x, call_unmarshal_length_prefixed k env c bz ptr = CPanic p /\ ptr = Some (TPtr t, x))) /\
  (forall k env je c bz, (exists e, call_unmarshal_json k env je c bz ptr = EErr e) \/
                         (exists p t x, call_unmarshal_json k env je c bz ptr = EPanic p /\ ptr = Some (TPtr t, x))) /\
  (forall S (read : S -> nat -> bytes * option error * S) k can env c s max,
     match call_unmarshal_reader read k can env c s ptr max with CRRet _ p e _ => p = ptr /\ e <> None | _ => True end).
Proof.
  intros ptr H.
  assert (A : forall k env c bz, (exists e, call_unmarshal_bare k env c bz ptr = CRet ptr (Some e)) \/
                      (exists p t x, call_unmarshal_bare k env c bz ptr = CPanic p /\ ptr = Some (TPtr t, x))).
  { intros. unfold call_unmarshal_bare, with_target. destruct ptr as [[t v]|]; [|left; eauto].
    destruct t; try (left; eauto; fail). destruct v as [| | | | | | | | [v|] | | | | | |]; try (right; eauto; fail).
    exfalso. apply (H t v). reflexivity. }
  split; [exact A|]. split; [|split].
  - intros k env c bz. unfold call_unmarshal_length_prefixed. destruct bz as [|b r]; [left; eauto|].
    destruct (uvarint (b :: r)) as [u n]. destruct (n <? 0); [left; eauto|]. destruct (_ <? u); [left; eauto|].
    destruct (u <? _); [left; eauto|]. apply A.
  - intros k env je c bz. unfold call_unmarshal_json. destruct bz as [|b r]; [left; eauto|].
    destruct ptr as [[t v]|]; [|left; eauto]. destruct t; try (left; eauto; fail).
    destruct v as [| | | | | | | | [v|] | | | | | |]; try (right; eauto; fail). exfalso. apply (H t v). reflexivity.
  - intros S read k can env c s max. unfold call_unmarshal_reader. destruct (max <? 0); [exact I|].
    destruct (read_length S read s max) as [n e s'|n l s']; [split; [reflexivity|discriminate]|].
    destruct (_ || _); [exact I|]. destruct (read_full S read k s' (Z.to_nat l) []) as [[[bz [e|]] s'']|]; try exact I;
      [split; [reflexivity|discriminate]|].
    destruct (A k env c bz) as [[e ->]|(p & t & x & -> & _)]; [split; [reflexivity|discriminate]|exact I].
Qed.

(** With a variable, all three ways of calling it are Unmarshal into that variable. *)
Theorem C69_variable : forall ptr t v, variable_of ptr t v -> forall k env c bz,
  call_unmarshal_bare k env c bz ptr = into t (unmarshal_bare k env c bz t v) /\
  call_unmarshal_length_prefixed k env c bz ptr = into t (unmarshal_length_prefixed k env c bz t v) /\
  (forall S (read : S -> nat -> bytes * option error * S) can s max,
     call_unmarshal_reader read k can env c s ptr max =
     match unmarshal_reader S read k can (fun b => unmarshal_bare k env c b t v) v s max with
     | RRet n w e s' => CRRet n (Some (TPtr t, VPtr (Some w))) e s'
     | RPanic p => CRPanic p
     | RFuel => CRFuel
     end) /\
  (forall je w, call_unmarshal_json k env je c bz ptr = EOk (Some (TPtr t, VPtr (Some w))) <-> unmarshal_json k env je c bz t v = EOk w).
Proof.
  intros ptr t v -> k env c bz. split; [reflexivity|]. split; [|split].
  - unfold call_unmarshal_length_prefixed, unmarshal_length_prefixed. destruct bz as [|b r]; [reflexivity|].
    destruct (uvarint (b :: r)) as [u n]. destruct (n <? 0); [reflexivity|]. destruct (_ <? u); [reflexivity|].
    destruct (u <? _); reflexivity.
  - intros S read can s max. unfold call_unmarshal_reader, unmarshal_reader. destruct (max <? 0); [reflexivity|].
    destruct (read_length S read s max) as [n e s'|n l s']; [reflexivity|]. destruct (_ || _); [reflexivity|].
    destruct (read_full S read k s' (Z.to_nat l) []) as [[[b [e|]] s'']|]; try reflexivity.
    cbn. destruct (unmarshal_bare k env c b t v); reflexivity.
  - intros je w. unfold call_unmarshal_json. destruct bz as [|b r].
    + split; [discriminate|]. cbn. discriminate.
    + destruct (unmarshal_json k env je c (b :: r) t v); cbn; split; intros X; inversion X; subst; reflexivity.
Qed.

(** Marshal of nil: no bytes for binary, the text null for JSON. *)
Theorem C69_marshal_nil : forall k env je c,
  (exists p, call_marshal_bare k env c None = EPanic p) /\
  (exists p, call_marshal_length_prefixed k env c None = EPanic p) /\
  (forall W (write : W -> bytes -> nat * option error * W) w, exists p, call_marshal_writer write k env c w None = MPanic p) /\
  call_marshal_json k env je c None = EOk [110; 117; 108; 108] /\
  (forall prefix indent, call_marshal_json_indent k env je c None prefix indent = EOk [110; 117; 108; 108]).
Proof. intros. split; [eexists; reflexivity|]. split; [eexists; reflexivity|]. split; [eexists; reflexivity|]. split; reflexivity. Qed.

(** The writer form, given something, is the one that C56 and C61 speak of. *)
Theorem C69_writer : forall W (write : W -> bytes -> nat * option error * W) k env c w t v,
  call_marshal_writer write k env c w (Some (t, v)) = marshal_writer W write k env c w t v.
Proof. reflexivity. Qed.

(** What can be registered: a pointer to an interface type; a value or pointer to a
    value, of a type that is not a pointer or interface. *)
Definition interface_arg (ptr : arg) (i : ifid) : Prop := exists x, ptr = Some (TPtr (TIface i), x).
Definition concrete_arg (o : arg) (t : gotype) : Prop :=
  (exists x, o = Some (t, x) \/ o = Some (TPtr t, x)) /\ deref_type t = t /\ (forall i, t <> TIface i).

(** Anything else is refused by a panic, and the codec stays as it is. *)
Theorem C69_register : forall env c o,
  ((forall i, ~ interface_arg o i) -> forall opts, exists p, call_register_interface env c o opts = (c, Some p)) /\
  ((forall t, ~ concrete_arg o t) -> forall name, exists p, call_register_concrete env c o name = (c, Some p)) /\
  (forall i, interface_arg o i -> forall opts, call_register_interface env c o opts = register_interface env c i opts).
Proof.
  intros env c o. split; [|split].
  - intros H opts. unfold call_register_interface. destruct (cd_sealed c); [eauto|]. destruct o as [[t x]|]; [|eauto].
    destruct t as [| | | |t| | | | |]; eauto. destruct t; eauto. exfalso. apply (H i). exists x. reflexivity.
  - intros H name. unfold call_register_concrete, register_concrete. destruct (cd_sealed c); [eauto|]. destruct o as [[t x]|]; [|eauto].
    assert (K : deref_type t = t -> (forall i, t <> TIface i) -> False).
    { intros D I. apply (H t). split; [exists x; left; reflexivity|]. split; assumption. }
    assert (L : forall e, t = TPtr e -> deref_type e = e -> (forall i, e <> TIface i) -> False).
    { intros e -> D I. apply (H e). split; [exists x; right; reflexivity|]. split; assumption. }
    destruct t as [| | | |e| | | | |]; try (exfalso; apply K; [reflexivity|discriminate]); [|eauto].
    destruct e; try (exfalso; eapply L; [reflexivity|reflexivity|discriminate]); eauto.
  - intros i (x & ->) opts. unfold call_register_interface, register_interface. destruct (cd_sealed c); reflexivity.
Qed.
Example C69_example :
  let c := run demo new_codec [OIface i_1 None; OConc t_conc1 (bs "Concrete1")] in
  call_unmarshal_bare 10 demo c [8; 2] (Some (t_foo, zero demo t_foo)) = CRet (Some (t_foo, zero demo t_foo)) (Some err_no_pointer) /\
  call_unmarshal_bare 10 demo c [8; 2] (Some (TPtr t_foo, VPtr (Some (zero demo t_foo)))) =
    CRet (Some (TPtr t_foo, VPtr (Some (VStruct [VInt 2; VInt 0])))) None /\
  (forall t v, ~ variable_of (Some (t_foo, zero demo t_foo)) t v) /\
  snd (call_register_interface demo c (Some (t_foo, zero demo t_foo)) None) = Some "expected pointer"%string /\
  (forall i, ~ interface_arg (Some (t_foo, zero demo t_foo)) i) /\
  (forall t, ~ concrete_arg (Some (TPtr (TPtr t_foo), VPtr None)) t) /\
  snd (call_register_concrete demo c (Some (TPtr (TPtr t_foo), VPtr None)) (bs "x")) <> None /\
  snd (call_register_concrete demo c (Some (TPtr t_foo, VPtr None)) (bs "x")) = None.
Proof.
  cbv zeta. split; [vm_compute; reflexivity|]. split; [vm_compute; reflexivity|]. split; [intros t v H; discriminate H|].
  split; [vm_compute; reflexivity|]. split; [intros i (x & H); discriminate H|].
  split.
  - intros t ((x & [H|H]) & D & I); inversion H; subst; discriminate D.
  - split; [vm_compute; discriminate|vm_compute; reflexivity].
Qed.

(** ** C70 *)

(** Whatever has been done with the package's codec before, its functions are those of a
    codec nothing was registered with. *)
Theorem C70_stateless : forall env uses k o bz ptr,
  pkg_marshal_bare k env uses o = call_marshal_bare k env new_codec o /\
  pkg_marshal_length_prefixed k env uses o = call_marshal_length_prefixed k env new_codec o /\
  pkg_must_marshal_bare k env uses o = must (call_marshal_bare k env new_codec o) /\
  pkg_must_marshal_length_prefixed k env uses o = must (call_marshal_length_prefixed k env new_codec o) /\
  (forall W (write : W -> bytes -> nat * option error * W) w,
     pkg_marshal_writer write k env uses w o = call_marshal_writer write k env new_codec w o) /\
  pkg_unmarshal_bare k env uses bz ptr = call_unmarshal_bare k env new_codec bz ptr /\
  pkg_unmarshal_length_prefixed k env uses bz ptr = call_unmarshal_length_prefixed k env new_codec bz ptr /\
  pkg_must_unmarshal_bare k env uses bz ptr = must_c (call_unmarshal_bare k env new_codec bz ptr) /\
  pkg_must_unmarshal_length_prefixed k env uses bz ptr = must_c (call_unmarshal_length_prefixed k env new_codec bz ptr) /\
  (forall S (read : S -> nat -> bytes * option error * S) can s max,
     pkg_unmarshal_reader read k can env uses s ptr max = call_unmarshal_reader read k can env new_codec s ptr max) /\
  (forall je prefix indent,
     pkg_marshal_json k env je uses o = call_marshal_json k env je new_codec o /\
     pkg_marshal_json_indent k env je uses o prefix indent = call_marshal_json_indent k env je new_codec o prefix indent /\
     pkg_unmarshal_json k env je uses bz ptr = call_unmarshal_json k env je new_codec bz ptr).
Proof.
  intros env uses k o bz ptr.
  assert (E : codec_equiv env new_codec (gcdc env uses)).
  { unfold gcdc. eapply codec_equiv_trans; [|apply uses_equiv]. split; intros; try reflexivity. apply rsim_refl. }
  assert (M : call_marshal_bare k env (gcdc env uses) o = call_marshal_bare k env new_codec o).
  { destruct o as [[t v]|]; [|reflexivity]. symmetry. apply marshal_codec_equiv, E. }
  assert (L : call_marshal_length_prefixed k env (gcdc env uses) o = call_marshal_length_prefixed k env new_codec o).
  { unfold call_marshal_length_prefixed. rewrite M. reflexivity. }
  assert (U : forall bz, call_unmarshal_bare k env (gcdc env uses) bz ptr = call_unmarshal_bare k env new_codec bz ptr).
  { intros b. unfold call_unmarshal_bare, with_target. destruct ptr as [[[] [| | | | | | | | [v|] | | | | | |]]|]; try reflexivity.
    rewrite (unmarshal_codec_equiv env _ _ _ _ _ _ E). reflexivity. }
  assert (V : call_unmarshal_length_prefixed k env (gcdc env uses) bz ptr = call_unmarshal_length_prefixed k env new_codec bz ptr).
  { unfold call_unmarshal_length_prefixed. destruct bz as [|b r]; [reflexivity|]. destruct (uvarint (b :: r)) as [u n].
    rewrite U. reflexivity. }
  unfold pkg_marshal_bare, pkg_marshal_length_prefixed, pkg_must_marshal_bare, pkg_must_marshal_length_prefixed, pkg_marshal_writer,
    pkg_unmarshal_bare, pkg_unmarshal_length_prefixed, pkg_must_unmarshal_bare, pkg_must_unmarshal_length_prefixed, pkg_unmarshal_reader,
    pkg_marshal_json, pkg_marshal_json_indent, pkg_unmarshal_json.
  rewrite M, L, U, V. do 4 (split; [reflexivity|]). split; [intros; unfold call_marshal_writer; rewrite L; reflexivity|].
  do 4 (split; [reflexivity|]). split.
  - intros S read can s max. unfold call_unmarshal_reader. destruct (max <? 0); [reflexivity|].
    destruct (read_length S read s max); [reflexivity|]. destruct (_ || _); [reflexivity|].
    destruct (read_full S read k s0 (Z.to_nat l) []) as [[[b [e|]] s'']|]; try reflexivity. rewrite U. reflexivity.
  - intros je prefix indent.
    assert (J : call_marshal_json k env je (gcdc env uses) o = call_marshal_json k env je new_codec o).
    { destruct o as [[t v]|]; [|reflexivity]. symmetry. apply marshal_json_equiv, E. }
    split; [exact J|]. split; [unfold call_marshal_json_indent; rewrite J; reflexivity|].
    unfold call_unmarshal_json. destruct bz; [reflexivity|]. destruct ptr as [[[] [| | | | | | | | [v|] | | | | | |]]|]; try reflexivity.
    rewrite (unmarshal_json_equiv env je _ _ _ _ _ _ E). reflexivity.
Qed.

(** The Must forms return, with the same result, exactly when the others return without an
    error, and panic with the error otherwise. *)
Theorem C70_must : forall env uses k o bz ptr,
  (forall b, (pkg_must_marshal_bare k env uses o = EOk b <-> pkg_marshal_bare k env uses o = EOk b) /\
             (pkg_must_marshal_length_prefixed k env uses o = EOk b <-> pkg_marshal_length_prefixed k env uses o = EOk b)) /\
  (forall e, (pkg_marshal_bare k env uses o = EErr e -> pkg_must_marshal_bare k env uses o = EPanic e) /\
             (pkg_marshal_length_prefixed k env uses o = EErr e -> pkg_must_marshal_length_prefixed k env uses o = EPanic e)) /\
  (forall p e, (pkg_must_unmarshal_bare k env uses bz ptr = CRet p e <-> e = None /\ pkg_unmarshal_bare k env uses bz ptr = CRet p None) /\
               (pkg_must_unmarshal_length_prefixed k env uses bz ptr = CRet p e <->
                e = None /\ pkg_unmarshal_length_prefixed k env uses bz ptr = CRet p None)) /\
  (forall p e, (pkg_unmarshal_bare k env uses bz ptr = CRet p (Some e) -> pkg_must_unmarshal_bare k env uses bz ptr = CPanic e) /\
               (pkg_unmarshal_length_prefixed k env uses bz ptr = CRet p (Some e) ->
                pkg_must_unmarshal_length_prefixed k env uses bz ptr = CPanic e)).
Proof.
  intros env uses k o bz ptr.
  assert (M : forall (r : eres bytes) b, must r = EOk b <-> r = EOk b) by (intros [] b; cbn; split; congruence).
  assert (C : forall r p e, must_c r = CRet p e <-> e = None /\ r = CRet p None).
  { intros [q [x|]|q|] p e; cbn; split; try congruence; try (intros [_ X]; congruence);
      [intros X; inversion X; split; reflexivity|intros [-> X]; exact X]. }
  split; [intros b; split; apply M|]. split; [intros e; split; intros H|split; [intros p e; split; apply C|intros p e; split; intros H]];
    unfold pkg_must_marshal_bare, pkg_must_marshal_length_prefixed, pkg_must_unmarshal_bare, pkg_must_unmarshal_length_prefixed,
      pkg_marshal_bare, pkg_marshal_length_prefixed, pkg_unmarshal_bare, pkg_unmarshal_length_prefixed in *; rewrite H; reflexivity.
Qed.

(** Round trip without registrations, whatever was called before and in between. *)
Theorem C70_round_trip : forall env mem, wf_env env -> marshal_typed env -> supported env new_codec mem ->
  forall uses uses' k fd t v bz,
  mem (deref_type t) = true -> struct_like env (deref_type t) = true -> has_type env t v = true ->
  pkg_marshal_bare k env uses (Some (t, v)) = EOk bz -> zlen bz < 2 ^ 63 -> (2 * k <= fd)%nat ->
  exists w v', under v = Some w /\ norm k env new_codec (deref_type t) (set_num 1 no_opts) w = Some v' /\
    pkg_unmarshal_bare fd env uses' bz (Some (TPtr t, VPtr (Some (zero env t)))) = CRet (Some (TPtr t, VPtr (Some (ptrs t v')))) None.
Proof.
  intros env mem We Hm Hs uses uses' k fd t v bz Hmem Hsl Ht H Hz Hf.
  destruct (C70_stateless env uses k (Some (t, v)) [] None) as (M & _). rewrite M in H. cbn [call_marshal_bare] in H.
  destruct (C11_supported_partial env [] mem We Hm eq_refl Hs k fd t v bz Hmem Hsl Ht H Hz Hf) as (w & v' & Hu & Hn & HU).
  exists w, v'. split; [exact Hu|]. split; [exact Hn|].
  destruct (C70_stateless env uses' fd None bz (Some (TPtr t, VPtr (Some (zero env t))))) as (_ & _ & _ & _ & _ & U & _). rewrite U.
  unfold call_unmarshal_bare, with_target. cbn [run] in HU. rewrite HU. reflexivity.
Qed.

Lemma parse_has env f : written f -> forall fs i num infos, In f fs -> parse_fields env fs i num = EOk infos ->
  exists fi, In fi infos /\ fi_type fi = sf_type f.
Proof.
  intros [He Hj]. induction fs as [|g fs IH]; intros i num infos Hin H; [contradiction|]. cbn [parse_fields] in H.
  destruct Hin as [->|Hin].
  - rewrite He in H. cbn [negb] in H. unfold parse_field_options in H.
    destruct (beqb (sf_json f) (bs "-")) eqn:B; [apply beqb_eq in B; contradiction|]. cbv zeta in H.
    destruct (unpacked_list _ _ _) as [up| | |]; cbn [ebind] in H; try discriminate.
    destruct (check_unsafe _ _ _) as [[]| | |]; cbn [ebind] in H; try discriminate.
    destruct (parse_fields env fs _ _); cbn [ebind] in H; try discriminate. inversion H; subst. eexists. split; [left; reflexivity|reflexivity].
  - destruct (negb (sf_exported g)); [exact (IH _ _ _ Hin H)|]. destruct (parse_field_options g); [|exact (IH _ _ _ Hin H)].
    destruct (unpacked_list _ _ _) as [up| | |]; cbn [ebind] in H; try discriminate.
    destruct (check_unsafe _ _ _) as [[]| | |]; cbn [ebind] in H; try discriminate.
    destruct (parse_fields env fs _ _) as [rest| | |] eqn:R; cbn [ebind] in H; try discriminate. inversion H; subst.
    destruct (IH _ _ _ Hin R) as (fi & F & T). exists fi. split; [right; exact F|exact T].
Qed.

(** A struct with a field of interface type that is written, even a nil one, cannot be
    marshalled with the package's functions. *)
Theorem C70_no_interfaces : forall env t fs f i, resolve env (deref_type t) = RStruct fs -> In f fs -> written f ->
  deref_type (sf_type f) = TIface i ->
  (match deref_type t with TNamed id => te_marshal env id = None | _ => True end) ->
  forall uses k v bz, pkg_marshal_bare k env uses (Some (t, v)) <> EOk bz.
Proof.
  intros env t fs f i Hr Hin Hw Hi Hmeth uses k v bz H.
  destruct (C70_stateless env uses k (Some (t, v)) [] None) as (M & _). rewrite M in H. clear M. cbn [call_marshal_bare] in H.
  unfold marshal_bare in H. destruct (deref_pointers v) as [rv [|]]; [discriminate|].
  destruct (get_type_info env new_codec (deref_type t)) as [info| | |] eqn:Hg; cbn [ebind] in H; try discriminate.
  pose proof (gti_minfo env new_codec _ _ (sane_run env []) Hg) as Hm.
  destruct info as [ci|ii]; [|pose proof (minfo_type _ _ _ _ Hm) as Hj; rewrite deref_idem in Hj; cbn [ti_type] in Hj; rewrite <- Hj in Hr; discriminate].
  destruct Hm as [Ht Hok]. rewrite deref_idem in Ht. destruct (info_ok_parts _ _ Hok) as (_ & Hp & Hmm & _).
  unfold parse_struct_info in Hp. rewrite Ht, Hr in Hp. destruct (parse_has env f Hw _ _ _ _ Hin Hp) as (fi & Hfi & Tfi).
  assert (Es : is_struct_or_repeated_struct env (ti_type (TIConc ci)) = true).
  { cbn [ti_type]. rewrite Ht. unfold is_struct_or_repeated_struct, is_struct. rewrite Hr. reflexivity. }
  rewrite Es in H. cbn [negb] in H.
  assert (Nm : ci_marshal ci = None).
  { rewrite Ht in Hmm. destruct (deref_type t) eqn:Dt; cbn in Hmm; try (inversion Hmm; reflexivity).
    rewrite Hmeth in Hmm. inversion Hmm. reflexivity. }
  assert (F : forall rec l b, encode_fields env new_codec rec (ci_fields ci) l <> EOk b).
  { intros rec l. revert Hfi. generalize (ci_fields ci). induction l0 as [|g gs IH]; intros Hin' b; [contradiction|]. cbn [encode_fields].
    destruct Hin' as [->|Hin'].
    - unfold encode_field, get_type_info. rewrite Tfi, Hi. cbn. discriminate.
    - destruct (encode_field _ _ _ g _); cbn [ebind]; try discriminate. specialize (IH Hin').
      destruct (encode_fields env new_codec rec gs l) as [b'| | |]; cbn [ebind]; try discriminate. exfalso. exact (IH b' eq_refl). }
  destruct k as [|k]; [discriminate|].
  assert (X : forall b, encode_reflect (S k) env new_codec (TIConc ci) rv (set_num 1 no_opts) true <> EOk b).
  { intros b. cbn [encode_reflect]. destruct ci as [ct cfs cm cu cr]. cbn [ci_marshal ci_type ci_fields] in *. subst cm ct.
    assert (Y : forall w b, encode_switch env new_codec (encode_reflect k env new_codec) (S k)
       (TIConc {| ci_type := deref_type t; ci_fields := cfs; ci_marshal := None; ci_unmarshal := cu; ci_reg := cr |}) w (set_num 1 no_opts) true <> EOk b).
    { intros w b'. unfold encode_switch. cbn [ti_type ci_type]. rewrite Hr. unfold encode_struct. cbn [ci_type ci_fields]. rewrite Hr.
      destruct w; try discriminate. destruct (encode_fields _ _ _ cfs l) as [z| | |] eqn:Z; cbn [ebind]; try discriminate.
      exfalso. exact (F _ _ _ Z). }
    destruct rv; try apply Y; discriminate. }
  destruct (encode_reflect (S k) env new_codec (TIConc ci) rv (set_num 1 no_opts) true) as [b| | |]; cbn [ebind] in H; try discriminate.
  exact (X b eq_refl).
Qed.

Definition plain_supported : list gotype := [t_foo; TPrim PInt; TPrim PInt32; TPrim PString; TSlice TByte; TTime].
Definition plain_mem (t : gotype) : bool := existsb (gotype_eqb t) plain_supported.
Example C70_example : supported demo new_codec plain_mem /\ wf_env demo /\ marshal_typed demo /\ plain_mem t_foo = true /\
  pkg_marshal_bare 10 demo [t_hasif; TIface i_1] (Some (t_foo, VStruct [VInt 3; VInt (-1)])) =
    EOk [8; 3; 16; 255; 255; 255; 255; 255; 255; 255; 255; 255; 1] /\
  pkg_unmarshal_bare 10 demo [t_all] [8; 3; 16; 255; 255; 255; 255; 255; 255; 255; 255; 255; 1]
    (Some (TPtr t_foo, VPtr (Some (zero demo t_foo)))) = CRet (Some (TPtr t_foo, VPtr (Some (VStruct [VInt 3; VInt (-1)])))) None /\
  pkg_marshal_bare 10 demo [] (Some (t_hasif, VStruct [VIface None])) = EErr "unregistered interface"%string /\
  pkg_must_marshal_bare 10 demo [] (Some (t_hasif, VStruct [VIface None])) = EPanic "unregistered interface"%string.
Proof.
  split.
  - intros t H. unfold plain_mem in H. apply existsb_exists in H. destruct H as (t' & H & Et). apply gotype_eqb_eq in Et. subst t'.
    assert (F : forallb (type_ok demo new_codec plain_mem) plain_supported = true) by (vm_compute; reflexivity).
    rewrite forallb_forall in F. split; [exact (F t H)|].
    destruct H as [<-|[<-|[<-|[<-|[<-|[<-|[]]]]]]]; exact I.
  - split; [exact demo_wf|]. split; [exact demo_marshal_typed|]. split; [reflexivity|]. split; [|split; [|split]]; vm_compute; reflexivity.
Qed.
Print Assumptions C33_json.
Print Assumptions C30_json.
Print Assumptions C69_no_variable.
Print Assumptions C69_variable.
Print Assumptions C69_writer.
Print Assumptions C69_marshal_nil.
Print Assumptions C69_register.
Print Assumptions C70_must.
Print Assumptions C70_stateless.
Print Assumptions C70_round_trip.
Print Assumptions C70_no_interfaces.
