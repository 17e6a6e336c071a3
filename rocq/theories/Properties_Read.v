(** Property theorems about messages of any origin: which ones a type is read from, and
    what is read from them. *)
From Coq Require Import ZArith String List Bool Lia.
From Coq Require Import ZifyBool ZifyNat.
From Verif Require Import Base Prims SpecWire PrimFacts PrimProps Types Codec BinEnc BinDec Amino FuelFacts DecFacts
  ValueInd Typing Registry SpecRegistry RegistryFacts Sane DecSafe Demo DemoFacts SpecNorm EncFacts RoundTrip RegistryProps TopFacts TopProps SpecProto ProtoFacts
  SpecStruct SkipFacts SpecVersion VersionFacts SpecKin Careful KinFacts SpecFrame OrderFacts SpecRead ReadFacts ReadAccept ReadSound.
Import ListNotations.
Local Open Scope Z_scope.

(** ** From UnmarshalBinaryBare to the decoder *)

Lemma top_decode env h k t fs p bz v : let c := run env new_codec h in clean env new_codec h = true -> resolve env t = RStruct fs -> preamble c t p ->
  (unmarshal_bare k env c (p ++ bz) t (zero env t) = URet v None <->
   exists info, get_type_info env c t = EOk info /\ decode_reflect k env c bz info t (zero env t) top_opts true = DRet v (length bz) None).
Proof.
  intros c Hcl Hr Hp. pose proof (wf_history env h Hcl) as Hc. pose proof (sane_run env h) as Hs. fold c in Hc, Hs.
  assert (Dt : deref_type t = t) by (destruct t; try reflexivity; discriminate Hr).
  assert (G : forall info, get_type_info env c t = EOk info -> unmarshal_bare k env c (p ++ bz) t (zero env t) =
    um_finish bz (decode_reflect k env c bz info t (zero env t) top_opts true)).
  { intros info Hg. pose proof (preamble_prefix env c Hc Hs t fs info p Hr Hg Hp) as <-. rewrite (unmarshal_prefixed _ _ _ _ _ _ _ Hs Hg). unfold um_body.
    rewrite (minfo_type _ _ _ _ (gti_minfo _ _ _ _ Hs Hg)), Dt, <- struct_like_eq. unfold struct_like. rewrite Hr. reflexivity. }
  split.
  - intros H. destruct (get_type_info env c t) as [info| | |] eqn:Hg; try (rewrite unmarshal_eq, Hg in H; discriminate H). exists info. split; [reflexivity|].
    rewrite (G info eq_refl) in H. unfold um_finish in H. destruct (decode_reflect k env c bz info t (zero env t) top_opts true) as [w n [e|]| |]; try discriminate H.
    destruct (Nat.eqb_spec n (length bz)) as [En|En]; [|discriminate H]. cbn [negb] in H. inversion H. congruence.
  - intros (info & Hg & H). rewrite (G info Hg), H. unfold um_finish. rewrite Nat.eqb_refl. reflexivity.
Qed.

(** ** C68 *)

(** Whatever SpecRead.v says can be read from [bz], UnmarshalBinaryBare reads. *)
Theorem C68_accepts : forall env h t fs p bz v, let c := run env new_codec h in wf_env env -> clean env new_codec h = true ->
  resolve env t = RStruct fs -> known env c t = true -> preamble c t p -> zlen bz < 2 ^ 63 ->
  reads env c t (set_num 1 no_opts) true (Plen bz) v ->
  exists k0, forall k, (k0 <= k)%nat -> unmarshal_bare k env c (p ++ bz) t (zero env t) = URet v None.
Proof.
  intros env h t fs p bz v c We Hcl Hr Hk Hp Hz HR. pose proof (wf_history env h Hcl) as Hc. pose proof (sane_run env h) as Hs. fold c in Hc, Hs.
  assert (Dt : deref_type t = t) by (destruct t; try reflexivity; discriminate Hr).
  destruct (known_info env c Hs t Hk) as (info & Hg & Hi). destruct (accept env We c Hc Hs) as (A & _).
  destruct (A _ _ _ _ _ HR info Hi Dt Hz) as [k0 HA]. exists k0. intros k L. destruct (HA k L) as (_ & H & _).
  apply (top_decode env h k t fs p bz v Hcl Hr Hp). exists info. split; [exact Hg|]. apply H. reflexivity.
Qed.

(** The value is determined by the bytes. *)
Theorem C68_deterministic : forall env h t fs bz v v', let c := run env new_codec h in wf_env env -> clean env new_codec h = true ->
  resolve env t = RStruct fs -> known env c t = true -> zlen bz < 2 ^ 63 ->
  reads env c t (set_num 1 no_opts) true (Plen bz) v -> reads env c t (set_num 1 no_opts) true (Plen bz) v' -> v = v'.
Proof.
  intros env h t fs bz v v' c We Hcl Hr Hk Hz H1 H2. pose proof (wf_history env h Hcl) as Hc. pose proof (sane_run env h) as Hs. fold c in Hc, Hs.
  assert (Dt : deref_type t = t) by (destruct t; try reflexivity; discriminate Hr).
  destruct (known_info env c Hs t Hk) as (info & Hg & Hi). destruct (accept env We c Hc Hs) as (A & _).
  destruct (A _ _ _ _ _ H1 info Hi Dt Hz) as [k1 A1]. destruct (A _ _ _ _ _ H2 info Hi Dt Hz) as [k2 A2].
  destruct (A1 (Nat.max k1 k2) ltac:(lia)) as (_ & B1 & _). destruct (A2 (Nat.max k1 k2) ltac:(lia)) as (_ & B2 & _).
  specialize (B1 bz eq_refl). specialize (B2 bz eq_refl). rewrite B1 in B2. inversion B2. reflexivity.
Qed.

(** For bytes without superfluous digits and types built from structs, interfaces,
    lists, numbers and strings, nothing else is read.  Missing: lengths with superfluous digits,
    times and lists with one entry per element other than as fields, for which
    this is false (see C19), and implementations of interfaces other than structs. *)
Theorem C68_exact_partial : forall env h mem t fs p bz v, let c := run env new_codec h in wf_env env -> clean env new_codec h = true ->
  readable env c mem -> mem t = true -> plainly_read env t -> resolve env t = RStruct fs -> known env c t = true -> preamble c t p ->
  bytes_ok bz -> tidy bz -> zlen bz < 2 ^ 63 ->
  ((exists k, unmarshal_bare k env c (p ++ bz) t (zero env t) = URet v None) <-> reads env c t (set_num 1 no_opts) true (Plen bz) v).
Proof.
  intros env h mem t fs p bz v c We Hcl Hrd Hm Hpl Hr Hk Hp Hok Ht Hz. split.
  - intros [k H]. pose proof (wf_history env h Hcl) as Hc. pose proof (sane_run env h) as Hs. fold c in Hc, Hs.
    assert (Dt : deref_type t = t) by (destruct t; try reflexivity; discriminate Hr).
    apply (top_decode env h k t fs p bz v Hcl Hr Hp) in H. destruct H as (info & Hg & H). pose proof (gti_minfo _ _ _ _ Hs Hg) as Hi.
    destruct (sound_all env We c Hc Hs mem Hrd k) as [S _].
    destruct (S info t top_opts bz (zero env t) v (length bz) Hi ltac:(rewrite Dt; exact Hm) ltac:(apply base_zero) (conj Hok Ht)) as [_ S2].
    rewrite Dt in S2. destruct (S2 Hpl ltac:(eauto) H) as (w & -> & HR & _). rewrite ptrs_nonptr by exact Dt. exact HR.
  - intros HR. destruct (C68_accepts env h t fs p bz v We Hcl Hr Hk Hp Hz HR) as [k0 H]. exists k0. apply H. lia.
Qed.

(** Types for the examples:
    type Item struct { N int8 }
    type Square struct { Side int }, registered as "square" through a pointer
    type Msg struct { A Item; B []byte; L []*Item; N []int16; S Shape }
    where Shape is interface{}. *)
Definition t_item : gotype := TNamed 0%nat.
Definition t_square : gotype := TNamed 1%nat.
Definition t_msg : gotype := TNamed 2%nat.
Definition item_fields : list sfield := [fld "N" (TPrim PInt8) "" ""].
Definition square_fields : list sfield := [fld "Side" TInt "" ""].
Definition msg_fields : list sfield :=
  [fld "A" t_item "" ""; fld "B" (TSlice (TPrim PUint8)) "" ""; fld "L" (TSlice (TPtr t_item)) "" ""; fld "N" (TSlice (TPrim PInt16)) "" ""; fld "S" (TIface 0%nat) "" ""].
Definition read_env : tenv :=
  {| te_def := fun id => match id with
       | 0%nat => UStruct item_fields
       | 1%nat => UStruct square_fields
       | _ => UStruct msg_fields
       end;
     te_zero := fun id => match id with
       | 0%nat => VStruct [VInt 0]
       | 1%nat => VStruct [VInt 0]
       | _ => VStruct [VStruct [VInt 0]; VSlice None; VSlice None; VSlice None; VIface None]
       end;
     te_impl := fun _ i => (i =? 0)%nat; te_marshal := fun _ => None; te_unmarshal := fun _ => None; te_hash := te_hash demo |}.
Definition read_history : list op := [OIface 0%nat None; OConc (TPtr t_square) (bs "square")].
Definition read_codec : codec := Eval vm_compute in run read_env new_codec read_history.
Lemma read_wf : wf_env read_env.
Proof.
  split; cbn [te_def te_impl te_hash read_env].
  - intros [|[|id]]; cbn; discriminate.
  - intros [|[|id]]; reflexivity.
  - intros t i _ H. exact H.
  - intros t i H. exact H.
  - exact (we_hash_len _ demo_wf).
  - exact (we_hash_ok _ demo_wf).
Qed.
Lemma read_run : run read_env new_codec read_history = read_codec.
Proof. vm_compute. reflexivity. Qed.
Lemma read_clean : clean read_env new_codec read_history = true.
Proof. vm_compute. reflexivity. Qed.
Lemma read_known t : deref_type t = TIface 0%nat \/ (forall i, deref_type t <> TIface i) -> known read_env read_codec t = true.
Proof.
  intros Ht. unfold known, get_type_info. pose proof (deref_is_ptr t) as Np. destruct (deref_type t) eqn:E; try discriminate Np; try reflexivity.
  - destruct Ht as [Ht|Ht]; [|exfalso; eapply Ht; reflexivity]. inversion Ht. reflexivity.
  - destruct id as [|[|id]]; reflexivity.
Qed.
Definition read_types : list gotype :=
  [t_item; t_square; t_msg; TSlice (TPrim PUint8); TSlice (TPrim PInt16); TPrim PInt8; TPrim PInt16; TPrim PInt; TIface 0%nat].
Definition read_mem (t : gotype) : bool := existsb (gotype_eqb t) read_types.
Lemma read_readable : readable read_env read_codec read_mem.
Proof.
  intros t Ht. unfold read_mem in Ht. apply existsb_exists in Ht. destruct Ht as (x & Hx & E). apply gotype_eqb_eq in E. subst x. cbn [In read_types] in Hx.
  repeat (destruct Hx as [<-|Hx]; [split; [exact I|split; [intros; discriminate|intros _; cbn; try exact I; try reflexivity; auto]]|]); [|destruct Hx].
  intros ci [<-|[]]. cbn [ci_type]. split; [reflexivity|]. split; [intros id X; reflexivity|]. eexists; reflexivity.
Qed.
Lemma read_plain t : plainly_read read_env t.
Proof. intros id _. reflexivity. Qed.

(** A message: A is \{-2\}, L has nil and a pointer to \{1\}, N is -2, 2, S a square with side 7, and
    there is a field 9, which is not known. *)
Definition msg_entries : list entry :=
  [(1, Plen [8; 3]); (3, Plen []); (3, Plen [8; 2]); (4, Plen [3; 4]); (5, Plen ([227; 118; 95; 41] ++ [8; 7])); (9, Pvarint 1)].
Definition msg_bytes : bytes := [10; 2; 8; 3; 26; 0; 26; 2; 8; 2; 34; 2; 3; 4; 42; 6; 227; 118; 95; 41; 8; 7; 72; 1].
Definition msg_value : value :=
  VStruct [VStruct [VInt (-2)]; VSlice None; VSlice (Some [VPtr None; VPtr (Some (VStruct [VInt 1]))]); VSlice (Some [VInt (-2); VInt 2]);
           VIface (Some (TPtr t_square, VPtr (Some (VStruct [VInt 7]))))].
Lemma leb_small x : 0 <= x < 128 -> leb128_min [x] x.
Proof. intros H. exists [], x. split; [reflexivity|]. split; [constructor|]. split; [unfold digit128; lia|]. split; [cbn; lia|left; reflexivity]. Qed.
Ltac one x := apply (leb_small x); lia.
Lemma msg_message : message msg_entries msg_bytes.
Proof.
  apply (msg_cons 1 (Plen [8; 3]) [10] ([2] ++ [8; 3])); [one 10|constructor; one 2|].
  apply (msg_cons 3 (Plen []) [26] ([0] ++ [])); [one 26|constructor; one 0|].
  apply (msg_cons 3 (Plen [8; 2]) [26] ([2] ++ [8; 2])); [one 26|constructor; one 2|].
  apply (msg_cons 4 (Plen [3; 4]) [34] ([2] ++ [3; 4])); [one 34|constructor; one 2|].
  apply (msg_cons 5 (Plen ([227; 118; 95; 41] ++ [8; 7])) [42] ([6] ++ [227; 118; 95; 41; 8; 7])); [one 42|constructor; one 6|].
  apply (msg_cons 9 (Pvarint 1) [72] [1]); [one 72|constructor; one 1|]. constructor.
Qed.
Lemma item_reads o u v : unzig u = v -> -128 <= v <= 127 -> 0 <= u < 128 -> reads read_env read_codec t_item o true (Plen [8; u]) (VStruct [VInt v]).
Proof.
  intros <- Hv Hu. eapply (r_struct _ _ t_item item_fields o false [(1, Pvarint u)]); [apply read_plain|reflexivity| |apply (msg_cons 1 (Pvarint u) [8] [u] [] []); [one 8|constructor; apply leb_small; exact Hu|constructor]].
  change (VInt (unzig u)) with (ptrs (TPrim PInt8) (VInt (unzig u))).
  eapply fr_one; [reflexivity|lia|apply read_known; right; discriminate|reflexivity|reflexivity|reflexivity| |apply fr_nil; exact I].
  eapply r_prim; [apply read_plain|reflexivity|]. cbn [prim_reads]. destruct (Z.leb_spec (2 ^ 64) u); [lia|]. unfold within.
  destruct (Z.leb_spec (- 2 ^ 7) (unzig u)); [|lia]. destruct (Z.leb_spec (unzig u) (2 ^ 7 - 1)); [|lia]. reflexivity.
Qed.
Lemma msg_reads : reads read_env read_codec t_msg (set_num 1 no_opts) true (Plen msg_bytes) msg_value.
Proof.
  eapply (r_struct _ _ t_msg msg_fields _ false msg_entries); [apply read_plain|reflexivity| |exact msg_message].
  assert (K : forall t, (forall i, deref_type t <> TIface i) -> known read_env read_codec t = true) by (intros; apply read_known; right; assumption).
  change (VStruct [VInt (-2)]) with (ptrs t_item (VStruct [VInt (-2)])).
  eapply fr_one with (m := true); [reflexivity|lia|apply K; discriminate|reflexivity|reflexivity|reflexivity|apply item_reads; [reflexivity|lia|lia]|].
  eapply (fr_absent _ _ false _ (fld "B" (TSlice (TPrim PUint8)) "" "")); [reflexivity|lia|apply K; discriminate|left; reflexivity|].
  eapply (fr_list _ _ false false _ (fld "L" (TSlice (TPtr t_item)) "" "") _ _ (TPtr t_item) [(3, Plen []); (3, Plen [8; 2])] _ [absent read_env (TPtr t_item); VPtr (Some (VStruct [VInt 1]))]);
    [reflexivity|lia|apply K; discriminate|reflexivity|apply read_plain|left; reflexivity|apply K; discriminate| | |left; discriminate|discriminate|].
  { eapply er_default; [reflexivity|]. eapply (er_cons _ _ false 3 (TPtr t_item) _ [8; 2] true (VStruct [VInt 1])); [left; discriminate|reflexivity|apply item_reads; [reflexivity|lia|lia]|apply er_nil]. }
  { eapply fi_slice; [reflexivity|discriminate]. }
  eapply (fr_one _ _ false _ (fld "N" (TSlice (TPrim PInt16)) "" "") _ _ true _ (VSlice (Some [VInt (-2); VInt 2]))); [reflexivity|lia|apply K; discriminate|reflexivity|reflexivity|reflexivity| |].
  { eapply (r_packed _ _ _ (TPrim PInt16) _ [VInt (-2); VInt 2] [3; 4]); [apply read_plain|left; reflexivity|reflexivity|reflexivity|apply K; discriminate|discriminate| |eapply fi_slice; [reflexivity|discriminate]].
    apply (kr_cons _ _ (TPrim PInt16) _ false (Pvarint 3) (VInt (-2)) [3] [4]); [reflexivity|eapply r_prim; [apply read_plain|reflexivity|reflexivity]|constructor; one 3|].
    apply (kr_cons _ _ (TPrim PInt16) _ false (Pvarint 4) (VInt 2) [4] []); [reflexivity|eapply r_prim; [apply read_plain|reflexivity|reflexivity]|constructor; one 4|]. apply kr_nil. }
  eapply (fr_one _ _ false _ (fld "S" (TIface 0%nat) "" "") _ _ true _ (VIface (Some (TPtr t_square, VPtr (Some (VStruct [VInt 7])))))); [reflexivity|lia|reflexivity|reflexivity|reflexivity|reflexivity| |].
  { pose (ci := hd {| ci_type := t_item; ci_fields := []; ci_marshal := None; ci_unmarshal := None; ci_reg := None |} (cd_concretes read_codec)).
    eapply (r_iface _ _ 0%nat _ [227; 118; 95; 41] ci {| ri_ptr := true; ri_name := bs "square"; ri_disamb := [75; 163; 232]; ri_prefix := [227; 118; 95; 41] |} true (Plen [8; 7]) [8; 7] (VStruct [VInt 7])); [reflexivity| |reflexivity|reflexivity| |reflexivity].
    - split; [left; reflexivity|]. split; [reflexivity|]. right. split; [reflexivity|]. split; [split; [left; reflexivity|split; [reflexivity|eexists; split; reflexivity]]|].
      intros ci' ([<-|[]] & _). reflexivity.
    - eapply (r_struct _ _ t_square square_fields _ false [(1, Pvarint 7)]); [apply read_plain|reflexivity| |apply (msg_cons 1 (Pvarint 7) [8] [7] [] []); [one 8|constructor; one 7|constructor]].
      change (VInt 7) with (ptrs TInt (VInt 7)). eapply fr_one; [reflexivity|lia|apply K; discriminate|reflexivity|reflexivity|reflexivity| |apply fr_nil; exact I].
      eapply r_prim; [apply read_plain|reflexivity|reflexivity]. }
  apply fr_nil. cbn. lia.
Qed.
Lemma msg_ok : bytes_ok msg_bytes /\ tidy msg_bytes /\ zlen msg_bytes < 2 ^ 63.
Proof.
  split; [repeat constructor; lia|]. split; [|reflexivity]. unfold msg_bytes. intros a x b E.
  do 24 (destruct a as [|? a]; cbn [app] in E; [inversion E; subst; lia|inversion E as [[X Y]]; clear E; rename Y into E; subst]). destruct a; discriminate E.
Qed.
Lemma msg_preamble : preamble read_codec t_msg [].
Proof. right. split; [|reflexivity]. intros ci [<-|[]]. discriminate. Qed.

Example C68_example : wf_env read_env /\ clean read_env new_codec read_history = true /\ run read_env new_codec read_history = read_codec /\
  readable read_env read_codec read_mem /\ read_mem t_msg = true /\ plainly_read read_env t_msg /\ resolve read_env t_msg = RStruct msg_fields /\
  known read_env read_codec t_msg = true /\ preamble read_codec t_msg [] /\ bytes_ok msg_bytes /\ tidy msg_bytes /\ zlen msg_bytes < 2 ^ 63 /\
  reads read_env read_codec t_msg (set_num 1 no_opts) true (Plen msg_bytes) msg_value /\
  unmarshal_bare 9 read_env read_codec msg_bytes t_msg (zero read_env t_msg) = URet msg_value None.
Proof.
  split; [exact read_wf|]. split; [exact read_clean|]. split; [exact read_run|]. split; [exact read_readable|]. split; [reflexivity|]. split; [apply read_plain|]. split; [reflexivity|].
  split; [reflexivity|]. split; [exact msg_preamble|]. split; [apply msg_ok|]. split; [apply msg_ok|]. split; [apply msg_ok|]. split; [exact msg_reads|]. vm_compute. reflexivity.
Qed.

(** What is read need not be a sequence of entries: the length of an empty field of type
    []byte may be missing at the end of a message. *)
Theorem C68_wellformed_refuted : exists bz, (forall es, ~ message es bz) /\
  unmarshal_bare 9 read_env read_codec bz t_msg (zero read_env t_msg) =
    URet (VStruct [VStruct [VInt 0]; VSlice None; VSlice None; VSlice None; VIface None]) None.
Proof.
  exists [18]. split; [|vm_compute; reflexivity]. intros es M. destruct es as [|[num q] es]; [apply message_end in M; discriminate|].
  apply message_inv in M. destruct M as (key & p & b & E & K & P & _). apply ReadAccept.leb_nonnil in K. apply payload_nonnil in P.
  destruct key as [|? key]; [contradiction|]. destruct p as [|? p]; [contradiction|]. destruct key; discriminate E.
Qed.

Print Assumptions C68_accepts.
Print Assumptions C68_deterministic.
Print Assumptions C68_exact_partial.
Print Assumptions C68_wellformed_refuted.
