(** Property theorems about the decoder on arbitrary input. *)
From Coq Require Import ZArith String List Bool Lia.
From Verif Require Import Base Prims PrimFacts Types Codec BinEnc BinDec Amino DecFacts FuelFacts DecProps Registry SpecRegistry RegistryFacts Sane Typing DecTerm DecSize DecSafe Demo DemoFacts.
Import ListNotations.
Local Open Scope Z_scope.

(** ** C18 *)

(** User-supplied UnmarshalAmino methods must not themselves panic with amino's
    message ([env_msgs]); everything else is arbitrary, including the target. *)
Theorem C18_count_within_input : forall env c, env_msgs env ->
  forall fuel bz info t v0 o bare, bytes_ok bz ->
  (forall v n e, decode_reflect fuel env c bz info t v0 o bare = DRet v n e -> (n <= length bz)%nat) /\
  decode_reflect fuel env c bz info t v0 o bare <> DPanic "impossible slide"%string.
Proof.
  intros env c He fuel bz info t v0 o bare Hok. pose proof (decode_good env c He fuel bz info t v0 o bare Hok) as G.
  destruct (decode_reflect fuel env c bz info t v0 o bare) as [v n e|p|]; cbn in G; split; try discriminate.
  - intros ? ? ? H. inversion H. subst. apply G.
  - intros H. inversion H. subst. apply G. reflexivity.
Qed.
Theorem C18_no_impossible_slide : forall env c, env_msgs env -> forall fuel bz t v0, bytes_ok bz ->
  unmarshal_bare fuel env c bz t v0 <> UPanic "impossible slide"%string /\
  unmarshal_length_prefixed fuel env c bz t v0 <> UPanic "impossible slide"%string.
Proof.
  intros env c He fuel bz t v0 Hok.
  exact (conj (unmarshal_no_slide env c fuel bz t v0 He Hok) (unmarshal_length_no_slide env c fuel bz t v0 He Hok)).
Qed.
Lemma demo_msgs : env_msgs demo.
Proof.
  split; intros id; cbn [te_marshal te_unmarshal demo]; destruct (id =? 12)%nat; try discriminate.
  intros r g v w p H. inversion H; subst. destruct w; cbn; intros X; inversion X; discriminate.
Qed.
(** A failing decode reports what it consumed: here the inner frame
    ends after a field key. *)
Example C18_example :
  env_msgs demo /\ bytes_ok [0x0A; 0x03; 8; 1; 0x12] /\
  match get_type_info demo new_codec t_foos with
  | EOk info => decode_reflect 10 demo new_codec [0x0A; 0x03; 8; 1; 0x12] info t_foos (zero demo t_foos) no_opts true
                = DRet (VStruct [VSlice None]) 5 (Some "error reading array contents"%string)
  | _ => False
  end.
Proof. split; [exact demo_msgs|]. split; [repeat constructor; lia|]. vm_compute. reflexivity. Qed.
Print Assumptions C18_count_within_input.
Print Assumptions C18_no_impossible_slide.

(** ** C16 *)

(** On every byte string, for every type and target and after every history of
    calls, both Unmarshal functions come back, and the nesting of recursive calls
    (the model's fuel) is at most [depth_bound R (length bz)], which is linear in the
    input.  [R] bounds how often the declared types let the decoder go down
    without consuming a byte (UnmarshalAmino representation types, list fields);
    user-written UnmarshalAmino methods must return ([env_returns]).  Missing for
    the full statement: types for which there is no such [R], see below. *)
Theorem C16_terminates_partial : forall env R,
  env_msgs env -> env_returns env -> (forall t, chain env R t) ->
  forall h bz t v0, bytes_ok bz ->
  exists r, r <> UFuel /\
    forall fuel, (depth_bound R (length bz) <= fuel)%nat ->
                 unmarshal_bare fuel env (run env new_codec h) bz t v0 = r.
Proof.
  intros env R He Hr HR h bz t v0 Hok.
  pose proof (unmarshal_live env _ R (sane_run env h) He Hr HR _ bz t v0 Hok (Nat.le_refl _)) as L.
  eexists. split; [exact L|]. intros fuel Hf. apply unmarshal_fuel; assumption.
Qed.
Theorem C16_terminates_length_prefixed_partial : forall env R,
  env_msgs env -> env_returns env -> (forall t, chain env R t) ->
  forall h bz t v0, bytes_ok bz ->
  exists r, r <> UFuel /\
    forall fuel, (depth_bound R (length bz) <= fuel)%nat ->
                 unmarshal_length_prefixed fuel env (run env new_codec h) bz t v0 = r.
Proof.
  intros env R He Hr HR h bz t v0 Hok.
  pose proof (unmarshal_length_live env _ R (sane_run env h) He Hr HR _ bz t v0 Hok (Nat.le_refl _)) as L.
  eexists. split; [exact L|]. intros fuel Hf. apply unmarshal_length_fuel; assumption.
Qed.

(** The demo program meets the hypotheses with R = 2, recursive types included. *)
Example C16_example : env_msgs demo /\ env_returns demo /\ (forall t, chain demo 2 t) /\
  depth_bound 2 10 = 75%nat.
Proof.
  split; [exact demo_msgs|]. split.
  { intros id r g v w. cbn [te_unmarshal demo]. destruct (id =? 12)%nat; [|discriminate].
    intros H. inversion H; subst. destruct w; discriminate. }
  split; [|reflexivity]. intros t. apply chainb_ok. destruct t as [p| |n e|e|e|ke e| | |i|id]; try reflexivity.
  do 14 (destruct id as [|id]; [vm_compute; reflexivity|]). reflexivity.
Qed.

(** A program for which the decoder never comes back:
      type S struct { F L }
      type L []S
      func (l *L) UnmarshalAmino(s S) error
    Decoding S decodes its list field F without consuming anything, which decodes
    L's representation S from the same bytes, and so on (a stack overflow in Go). *)
Definition loop_env : tenv :=
  {| te_def := fun id => match id with
                         | 0%nat => UStruct [fld "F" (TNamed 1%nat) "" ""]
                         | _ => UType (TSlice (TNamed 0%nat))
                         end;
     te_zero := fun id => match id with 0%nat => VStruct [VSlice None] | _ => VSlice None end;
     te_impl := fun _ _ => false;
     te_marshal := fun _ => None;
     te_unmarshal := fun id => match id with
                               | 1%nat => Some (UOk (TNamed 0%nat) (fun v _ => EOk (v, None)))
                               | _ => None
                               end;
     te_hash := te_hash demo |}.
Theorem C16_repr_cycle_refuted : exists env bz t, wf_env env /\ env_msgs env /\ env_returns env /\ bytes_ok bz /\
  has_type env t (zero env t) = true /\
  forall fuel, unmarshal_bare fuel env new_codec bz t (zero env t) = UFuel.
Proof.
  exists loop_env, [10; 0], (TNamed 0%nat). split.
  { split.
    - intros [|id]; cbn; discriminate.
    - intros [|id]; reflexivity.
    - discriminate.
    - discriminate.
    - exact (we_hash_len _ demo_wf).
    - exact (we_hash_ok _ demo_wf). }
  split. { split; intros [|[|id]]; cbn; try discriminate. intros r g v w p H. inversion H; subst. discriminate. }
  split. { intros [|[|id]] r g v w; cbn; try discriminate. intros H. inversion H; subst. discriminate. }
  split; [repeat constructor; lia|]. split; [reflexivity|].
  assert (L : forall fuel o n info, get_type_info loop_env new_codec (TNamed n) = EOk info -> (n < 2)%nat ->
     decode_reflect fuel loop_env new_codec [10; 0] info (TNamed n) (zero loop_env (TNamed n)) o true = DFuel).
  { induction fuel as [|fuel IH]; intros o n info Hi Hn; [reflexivity|]. cbn [decode_reflect].
    generalize dependent (decode_reflect fuel loop_env new_codec). intros rec IH.
    destruct n as [|[|n]]; [| |lia].
    - vm_compute in Hi. inversion Hi; subst info. cbn. rewrite (IH _ 1%nat); [reflexivity|reflexivity|lia].
    - vm_compute in Hi. inversion Hi; subst info. cbn. rewrite (IH _ 0%nat); [reflexivity|reflexivity|lia]. }
  intros fuel. rewrite unmarshal_bare_eq. cbn [get_type_info].
  destruct (get_type_info loop_env new_codec (TNamed 0%nat)) as [i| | |] eqn:E; try (vm_compute in E; discriminate).
  cbv zeta. specialize (L fuel (set_num 1 no_opts) 0%nat i E ltac:(lia)).
  vm_compute in E. inversion E; subst i. clear E. unfold um_body. cbn [is_struct_or_repeated_struct].
  cbn [ti_type ci_type]. change (is_struct_or_repeated_struct loop_env (TNamed 0%nat)) with true. cbv iota.
  cbn [negb andb]. unfold um_finish. rewrite L. reflexivity.
Qed.
Print Assumptions C16_terminates_partial.
Print Assumptions C16_terminates_length_prefixed_partial.
Print Assumptions C16_repr_cycle_refuted.

(** ** C17 *)

(** Whether it succeeds or fails, Unmarshal leaves in the target at most one slice
    element or string byte per input byte more than was there.  [dsize] counts
    slice elements, string bytes and map entries; UnmarshalAmino methods are only
    assumed not to make more out of their argument than it holds. *)
Theorem C17_size_bounded : forall env c, wf_env env -> env_msgs env -> env_nogrow env ->
  forall fuel bz t v0 v e, bytes_ok bz ->
  unmarshal_bare fuel env c bz t v0 = URet v e \/ unmarshal_length_prefixed fuel env c bz t v0 = URet v e ->
  (dsize v <= dsize v0 + length bz)%nat.
Proof.
  intros env c We Hm Hg fuel bz t v0 v e Hok [H|H];
    [exact (unmarshal_sized env c We Hm Hg _ _ _ _ _ _ Hok H)|exact (unmarshal_length_sized env c We Hm Hg _ _ _ _ _ _ Hok H)].
Qed.
(** Into a fresh variable: at most the input length. *)
Theorem C17_fresh_size : forall env c, wf_env env -> env_msgs env -> env_nogrow env ->
  forall fuel bz t v e, bytes_ok bz ->
  unmarshal_bare fuel env c bz t (zero env t) = URet v e \/ unmarshal_length_prefixed fuel env c bz t (zero env t) = URet v e ->
  (dsize v <= length bz)%nat.
Proof.
  intros env c We Hm Hg fuel bz t v e Hok H. pose proof (C17_size_bounded env c We Hm Hg fuel bz t _ v e Hok H) as L.
  rewrite (dsize_zero env t We) in L. exact L.
Qed.
Lemma demo_nogrow : env_nogrow demo.
Proof.
  intros id r g v w v' e. cbn [te_unmarshal demo]. destruct (id =? 12)%nat; [|discriminate].
  intros H. inversion H; subst. destruct w; try discriminate. intros X. inversion X; subst. cbn. lia.
Qed.
(** Two messages and their counts. *)
Example C17_example : wf_env demo /\ env_msgs demo /\ env_nogrow demo /\
  match unmarshal_bare 10 demo new_codec [10; 4; 8; 1; 16; 2; 10; 0; 10; 2; 16; 5] t_foos (zero demo t_foos) with
  | URet v None => v = VStruct [VSlice (Some [foo 1 2; foo 0 0; foo 0 5])] /\ dsize v = 3%nat
  | _ => False
  end /\
  match unmarshal_bare 10 demo new_codec [10; 4; 120; 121; 122; 33; 16; 7] t_bcmsg (zero demo t_bcmsg) with
  | URet v None => v = VStruct [VStr [120; 121; 122; 33]; VInt 7] /\ dsize v = 4%nat
  | _ => False
  end.
Proof.
  split; [exact demo_wf|]. split; [exact demo_msgs|]. split; [exact demo_nogrow|].
  split; vm_compute; split; reflexivity.
Qed.
Print Assumptions C17_size_bounded.
Print Assumptions C17_fresh_size.

(** ** C15 *)

(** What "supported" means: [sup] is a set of types closed under the parts the
    decoder visits, without maps, functions, channels, pointers to interfaces or
    lists of a named byte type, whose type information amino accepts ([sup_set]);
    UnmarshalAmino methods do not panic.  The target is a well typed variable; if it
    is a pointer variable it does not already point to a list (amino panics then
    whatever the bytes, see [C15_list_pointer_refuted]).
    On every byte string the only possible panic is the assignment of a
    registered value to an interface that its type does not implement. *)
Theorem C15_only_assign_panic_partial : forall env sup h, wf_env env -> env_msgs env -> sup_set env sup ->
  clean env new_codec h = true -> (forall t n, In (t, n) (conc_calls h) -> sup (conc_of t)) ->
  forall fuel bz t v0 p, bytes_ok bz -> use sup t -> has_type env t v0 = true -> target_ok env t v0 ->
  let c := run env new_codec h in
  unmarshal_bare fuel env c bz t v0 = UPanic p \/ unmarshal_length_prefixed fuel env c bz t v0 = UPanic p ->
  p = "reflect.Set: value of type is not assignable to type"%string /\
  exists t' n i o, In (t', n) (conc_calls h) /\ In (i, o) (iface_calls h) /\ te_impl env t' i = false.
Proof. exact unmarshal_history_safe. Qed.

(** So there is no panic if every registered type implements every registered
    interface, in particular if no interface is registered; and what is left in the
    target has its type. *)
Theorem C15_no_panic_partial : forall env sup R h, wf_env env -> env_msgs env -> env_returns env -> (forall t, chain env R t) ->
  sup_set env sup -> clean env new_codec h = true ->
  (forall t n, In (t, n) (conc_calls h) -> sup (conc_of t)) ->
  (forall t n i o, In (t, n) (conc_calls h) -> In (i, o) (iface_calls h) -> te_impl env t i = true) ->
  forall fuel bz t v0, bytes_ok bz -> use sup t -> has_type env t v0 = true -> target_ok env t v0 ->
  (depth_bound R (length bz) <= fuel)%nat ->
  let c := run env new_codec h in
  (exists v e, unmarshal_bare fuel env c bz t v0 = URet v e /\ has_type env t v = true) /\
  (exists v e, unmarshal_length_prefixed fuel env c bz t v0 = URet v e /\ has_type env t v = true).
Proof.
  intros env sup R h We Hm Hr HR Hs Hc Hreg Himp fuel bz t v0 Hok Hu Hv Ht Hf c.
  pose proof (wf_history env h Hc) as W. pose proof (sane_run env h) as Sa.
  pose proof (conc_calls_sup env sup h Hc Hreg) as Hreg'.
  pose proof (C15_only_assign_panic_partial env sup h We Hm Hs Hc Hreg fuel bz t v0) as NP.
  assert (NP' : forall p, unmarshal_bare fuel env c bz t v0 = UPanic p \/ unmarshal_length_prefixed fuel env c bz t v0 = UPanic p -> False).
  { intros p Hp. destruct (NP p Hok Hu Hv Ht Hp) as (_ & t' & n & i & o & H1 & H2 & H3). rewrite (Himp _ _ _ _ H1 H2) in H3. discriminate. }
  split.
  - pose proof (unmarshal_safe env sup c We Hm Hs W Sa Hreg' fuel bz t v0 Hok Hu Hv Ht) as U.
    pose proof (unmarshal_live env c R Sa Hm Hr HR fuel bz t v0 Hok Hf) as L.
    destruct (unmarshal_bare fuel env c bz t v0) as [v e|p|]; cbn in U; [exists v, e; auto| |congruence].
    exfalso. apply (NP' p). left. reflexivity.
  - pose proof (unmarshal_length_safe env sup c We Hm Hs W Sa Hreg' fuel bz t v0 Hok Hu Hv Ht) as U.
    pose proof (unmarshal_length_live env c R Sa Hm Hr HR fuel bz t v0 Hok Hf) as L.
    destruct (unmarshal_length_prefixed fuel env c bz t v0) as [v e|p|]; cbn in U; [exists v, e; auto| |congruence].
    exfalso. apply (NP' p). right. reflexivity.
Qed.

(** All the demo program's types are supported. *)
Definition demo_types : list gotype :=
  map TNamed (seq 0 15) ++ map TPrim [PBool; PInt; PInt8; PInt32; PInt64; PUint; PFloat32; PString] ++
  [TTime; TSlice TByte; TArray 3 TInt; TSlice (TPtr TInt); TSlice TStr; TSlice (TPtr t_foo); TSlice t_foo; TSlice t_node;
   TIface i_msg; TIface i_1; TSlice (TIface i_msg); TSlice (TSlice TByte)].
Lemma demo_sup : sup_set demo (fun t => In t demo_types).
Proof.
  apply supb_set; [|vm_compute; reflexivity].
  intros t r H v w Hv Hw. destruct t; try discriminate. cbn [unmarshal_repr te_unmarshal demo] in H.
  destruct (id =? 12)%nat eqn:E; [|discriminate]. injection H as <-. cbn [from_repr te_unmarshal demo]. rewrite E.
  apply Nat.eqb_eq in E. subst id. destruct w; try discriminate Hw. cbn [temp_unmarshal].
  cbn [has_type]. unfold in_int, i32, iwrap. change (resolve demo (TNamed 12%nat)) with (RPrim PInt32). cbn [prim_has]. unfold in_int.
  pose proof (Z.mod_pos_bound (zlen s) (2 ^ 32) eq_refl) as B. change (32 - 1) with 31.
  destruct (Z.ltb_spec (zlen s mod 2 ^ 32) (2 ^ 31)); lia.
Qed.
Definition demo_history : list op := [OIface i_msg None; OConc (TPtr t_bcmsg) (bs "bcMessage"); OSeal].
Example C15_example : wf_env demo /\ env_msgs demo /\ sup_set demo (fun t => In t demo_types) /\
  clean demo new_codec demo_history = true /\
  (forall t n, In (t, n) (conc_calls demo_history) -> In (conc_of t) demo_types) /\
  (forall t n i o, In (t, n) (conc_calls demo_history) -> In (i, o) (iface_calls demo_history) -> te_impl demo t i = true) /\
  use (fun t => In t demo_types) t_all /\ target_ok demo t_all (zero demo t_all) /\
  unmarshal_bare 20 demo (run demo new_codec demo_history) [106; 9; 116; 6; 19; 101; 10; 3; 65; 66; 67] t_all (zero demo t_all) <> UFuel.
Proof.
  split; [exact demo_wf|]. split; [exact demo_msgs|]. split; [exact demo_sup|].
  split; [vm_compute; reflexivity|]. split. { intros t n [H|[]]. inversion H; subst. cbn. tauto. }
  split. { intros t n i o [H|[]] [H'|[]]. inversion H; inversion H'; subst. reflexivity. }
  split. { apply useb_ok. vm_compute. reflexivity. }
  split; [intros H; discriminate|]. vm_compute. discriminate.
Qed.

(** Hostile bytes do make Unmarshal panic: an interface is decoded by looking the
    (disambiguation, prefix) bytes up among all registered types, not only those
    implementing the interface.  Here bcMessage, registered for one interface, is
    named in the encoding of a field of another. *)
Theorem C15_foreign_disfix_refuted : exists env sup h bz t v0 p, wf_env env /\ env_msgs env /\ sup_set env sup /\
  clean env new_codec h = true /\ (forall t n, In (t, n) (conc_calls h) -> sup (conc_of t)) /\
  bytes_ok bz /\ use sup t /\ has_type env t v0 = true /\ target_ok env t v0 /\ is_ptr t = false /\
  unmarshal_bare 10 env (run env new_codec h) bz t v0 = UPanic p.
Proof.
  exists demo, (fun t => In t demo_types), [OIface i_1 None; OConc (TPtr t_bcmsg) (bs "bcMessage")],
    (10 :: 8 :: 0 :: match name_to_disfix demo (bs "bcMessage") with EOk (d, p) => d ++ p | _ => [] end), t_hasif, (zero demo t_hasif).
  eexists. split; [exact demo_wf|]. split; [exact demo_msgs|]. split; [exact demo_sup|].
  split; [vm_compute; reflexivity|]. split. { intros t n [H|[]]. inversion H; subst. cbn. tauto. }
  split. { apply byte_ok_forallb. vm_compute. reflexivity. }
  split. { apply useb_ok. vm_compute. reflexivity. }
  split; [reflexivity|]. split; [intros H; discriminate|]. split; [reflexivity|]. vm_compute. reflexivity.
Qed.
(** And into a variable already pointing to a list. *)
Theorem C15_list_pointer_refuted : exists env sup bz t v0 p, wf_env env /\ env_msgs env /\ sup_set env sup /\
  bytes_ok bz /\ use sup t /\ has_type env t v0 = true /\
  unmarshal_bare 10 env new_codec bz t v0 = UPanic p.
Proof.
  exists demo, (fun t => In t demo_types), [10; 1; 2], (TPtr (TSlice TByte)), (VPtr (Some (VSlice (Some [VUint 1])))).
  eexists. split; [exact demo_wf|]. split; [exact demo_msgs|]. split; [exact demo_sup|].
  split; [repeat constructor; lia|]. split. { apply useb_ok. vm_compute. reflexivity. }
  split; [reflexivity|]. vm_compute. reflexivity.
Qed.
Print Assumptions C15_only_assign_panic_partial.
Print Assumptions C15_no_panic_partial.
Print Assumptions C15_foreign_disfix_refuted.
Print Assumptions C15_list_pointer_refuted.
