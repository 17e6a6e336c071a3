(** UnmarshalJSON on arbitrary bytes: C64, C65, C66.  Vocabulary: SpecJsonSafe.v. *)
From Coq Require Import ZArith String List Bool Lia.
From Coq Require Import ZifyBool ZifyNat.
From Verif Require Import Base Prims SpecWire PrimFacts Types Codec BinDec Amino DecFacts Registry SpecRegistry RegistryFacts Sane Typing DecSafe Demo DemoFacts
  SpecNorm EncFacts FrameFacts JsonText Json SpecJson JsonTextFacts JsonFacts JsonProps Properties_Tags Properties_Json LayoutFacts SpecJsonSafe JsonSafe JsonRead.
Import ListNotations.
Local Open Scope Z_scope.

(** ** C64 *)

(** On every byte string other than a lone quotation mark the only possible panic is the
    assignment of a registered value to an interface that its type does not implement. *)
Theorem C64_only_assign_panic_partial : forall env je mem h, wf_env env -> jenv_safe je -> jsafe_set env je mem ->
  clean env new_codec h = true -> (forall t n, In (t, n) (conc_calls h) -> mem (conc_of t)) ->
  forall fuel bz t v0 p, bytes_ok bz -> bz <> [34] -> jpart mem t -> has_type env t v0 = true ->
  unmarshal_json fuel env je (run env new_codec h) bz t v0 = EPanic p ->
  p = "reflect.Set: value of type is not assignable to type"%string /\
  exists t' n i o, In (t', n) (conc_calls h) /\ In (i, o) (iface_calls h) /\ te_impl env t' i = false.
Proof.
  intros env je mem h We Hj Hs Hc Hreg fuel bz t v0 p Hb Hq Hp Hv H.
  pose proof (unmarshal_good env je mem _ 0 We Hj Hs (wf_history env h Hc) (sane_run env h) (conc_calls_sup env mem h Hc Hreg) fuel bz t v0 Hb Hq Hp Hv) as G.
  rewrite H in G. destruct G as (E & ci & ii & H1 & H2 & H3). split; [exact E|]. exact (assign_calls env h ci ii Hc H1 H2 H3).
Qed.

(** So the call returns, with an error or a value of the target's type, if every registered
    type implements every registered interface; the stack stays below a multiple of the
    length of the input. *)
Theorem C64_returns_partial : forall env je mem R h, wf_env env -> jenv_safe je -> jsafe_set env je mem -> (forall t, mem t -> jchain env R t) ->
  clean env new_codec h = true -> (forall t n, In (t, n) (conc_calls h) -> mem (conc_of t)) ->
  (forall t n i o, In (t, n) (conc_calls h) -> In (i, o) (iface_calls h) -> te_impl env t i = true) ->
  forall fuel bz t v0, bytes_ok bz -> bz <> [34] -> jpart mem t -> has_type env t v0 = true -> (length bz * R + R <= fuel)%nat ->
  returns (fun v => has_type env t v = true) (unmarshal_json fuel env je (run env new_codec h) bz t v0).
Proof.
  intros env je mem R h We Hj Hs HR Hc Hreg Himp fuel bz t v0 Hb Hq Hp Hv Hf.
  pose proof (unmarshal_good env je mem _ R We Hj Hs (wf_history env h Hc) (sane_run env h) (conc_calls_sup env mem h Hc Hreg) fuel bz t v0 Hb Hq Hp Hv) as G.
  destruct (unmarshal_json _ _ _ _ _ _ _); cbn [returns]; try exact G; try exact I.
  - destruct G as (_ & ci & ii & H1 & H2 & H3). destruct (assign_calls env h ci ii Hc H1 H2 H3) as (t' & n & i & o & A & B & C). rewrite (Himp _ _ _ _ A B) in C. discriminate.
  - specialize (G HR). lia.
Qed.

Lemma jdemo_je_safe : jenv_safe jdemo_je.
Proof.
  split.
  - intros bz. cbn [je_untime jdemo_je]. destruct (parse_int _) as [z|]; [|exact I]. destruct (in_int 64 (z / nanos)) eqn:E; [|exact I].
    split; [exact E|]. cbn [snd]. unfold nanos. lia.
  - intros bz. reflexivity.
  - intros bz. reflexivity.
Qed.
Lemma jdemo_part t : existsb (gotype_eqb (deref_type t)) jdemo_types && (negb (is_ptr t) || negb (is_iface (deref_type t))) = true ->
  jpart (fun t => In t jdemo_types) t.
Proof.
  intros H. apply andb_true_iff in H. destruct H as [H1 H2]. split.
  - apply existsb_exists in H1. destruct H1 as (x & H1 & E). apply gotype_eqb_eq in E. rewrite E. exact H1.
  - intros P. rewrite P in H2. destruct (is_iface _); [discriminate|reflexivity].
Qed.
Lemma jdemo_flag_safe id : id = 3%nat -> method_safe jdemo (TNamed id) flag_read.
Proof.
  intros -> bz v _. unfold flag_read. destruct (beqb bz _); [reflexivity|]. destruct (beqb bz _); [reflexivity|exact I].
Qed.
Lemma jdemo_temp_safe : amino_safe jdemo j_temp TStr.
Proof.
  intros v w Hv Hw. destruct v; try discriminate. destruct w; try discriminate. cbn [from_repr j_temp te_unmarshal jdemo Nat.eqb temp_unmarshal returns fst].
  cbn [has_type]. unfold in_int, i32, iwrap. change (resolve jdemo j_temp) with (RPrim PInt32). cbn [prim_has]. unfold in_int.
  pose proof (Z.mod_pos_bound (zlen s) (2 ^ 32) eq_refl) as B. change (32 - 1) with 31.
  destruct (Z.ltb_spec (zlen s mod 2 ^ 32) (2 ^ 31)); lia.
Qed.
Lemma jdemo_safe : jsafe_set jdemo jdemo_je (fun t => In t jdemo_types).
Proof.
  intros t H. unfold jdemo_types in H.
  assert (S : forall t fs, resolve jdemo t = RStruct fs -> forallb (fun f => existsb (gotype_eqb (deref_type (sf_type f))) jdemo_types && (negb (is_ptr (sf_type f)) || negb (is_iface (deref_type (sf_type f))))) fs = true ->
    jparts jdemo (fun t => In t jdemo_types) t).
  { intros t0 fs E F. unfold jparts. rewrite E. intros f Hf _ _. apply jdemo_part. exact (proj1 (forallb_forall _ _) F f Hf). }
  destruct H as [<-|H]. { split; [eexists; vm_compute; reflexivity|]. eapply S; vm_compute; reflexivity. }
  destruct H as [<-|H]. { split; [eexists; vm_compute; reflexivity|]. eapply S; vm_compute; reflexivity. }
  destruct H as [<-|H]. { split; [eexists; vm_compute; reflexivity|]. split; [apply jdemo_part; reflexivity|exact jdemo_temp_safe]. }
  destruct H as [<-|H]. { split; [eexists; vm_compute; reflexivity|]. apply jdemo_flag_safe. reflexivity. }
  repeat (destruct H as [<-|H]; [first [exact I|split; [eexists; vm_compute; reflexivity|]; first [exact I|apply jdemo_part; reflexivity|intros _; split; [reflexivity|apply jdemo_part; reflexivity]]]|]).
  destruct H.
Qed.
Lemma jdemo_chain t : In t jdemo_types -> jchain jdemo 2 t.
Proof. intros H. repeat (destruct H as [<-|H]; [exact I|]). destruct H. Qed.

(** The demo program, and a text that goes wrong deep inside. *)
Example C64_example : let c := run jdemo new_codec jdemo_history in
  wf_env jdemo /\ jenv_safe jdemo_je /\ jsafe_set jdemo jdemo_je (fun t => In t jdemo_types) /\ (forall t, In t jdemo_types -> jchain jdemo 2 t) /\
  clean jdemo new_codec jdemo_history = true /\ (forall t n, In (t, n) (conc_calls jdemo_history) -> In (conc_of t) jdemo_types) /\
  (forall t n i o, In (t, n) (conc_calls jdemo_history) -> In (i, o) (iface_calls jdemo_history) -> te_impl jdemo t i = true) /\
  jpart (fun t => In t jdemo_types) j_doc /\ jpart (fun t => In t jdemo_types) (TPtr (TPtr j_doc)) /\ has_type jdemo j_doc doc_value = true /\
  (length doc_text * 2 + 2 <= 1000)%nat /\
  unmarshal_json 1000 jdemo jdemo_je c doc_text j_doc (zero jdemo j_doc) = EOk doc_norm /\
  (exists e, unmarshal_json 1000 jdemo jdemo_je c (bs "{""Is"":[null,{""type"":""Foo"",""value"":{""A"":3}}]}") j_doc doc_value = EErr e) /\
  (exists e, unmarshal_json 1000 jdemo jdemo_je c (bs "{""Is"":[{""type"":""Foo"",") j_doc doc_value = EErr e).
Proof.
  cbv zeta. split; [exact jdemo_wf|]. split; [exact jdemo_je_safe|]. split; [exact jdemo_safe|]. split; [exact jdemo_chain|]. split; [vm_compute; reflexivity|].
  split. { intros t n H. cbn in H. repeat (destruct H as [H|H]; [injection H as <- <-; cbn; tauto|]). destruct H. }
  split. { intros t n i o H [H'|[]]. injection H' as <- <-. reflexivity. }
  split; [apply jdemo_part; reflexivity|]. split; [apply jdemo_part; reflexivity|]. split; [vm_compute; reflexivity|]. split; [vm_compute; repeat constructor|].
  split; [vm_compute; reflexivity|]. split; eexists; vm_compute; reflexivity.
Qed.

(** A lone quotation mark makes it panic, if the target is a 64-bit integer
    (json-decode.go:104-106). *)
Theorem C64_quote_refuted : exists env je h t v0 p, wf_env env /\ jenv_safe je /\ clean env new_codec h = true /\ has_type env t v0 = true /\
  unmarshal_json 10 env je (run env new_codec h) [34] t v0 = EPanic p.
Proof.
  exists jdemo, jdemo_je, jdemo_history, (TPrim PInt64), (VInt 0). eexists. split; [exact jdemo_wf|]. split; [exact jdemo_je_safe|].
  split; [vm_compute; reflexivity|]. split; [reflexivity|]. vm_compute. reflexivity.
Qed.

(** A program in which no type implements interface 0 and all implement interface 1, with a
    type of strings and one of bytes. *)
Definition two_def (id : tid) : udef :=
  match id with 5%nat => UType (TPrim PString) | 8%nat => UType (TPrim PUint8) | _ => jdemo_def id end.
Definition two_zero (id : tid) : value := match id with 5%nat => VStr [] | 8%nat => VUint 0 | _ => jdemo_zero id end.
Definition two_faces : tenv :=
  {| te_def := two_def; te_zero := two_zero; te_impl := fun t i => (i =? 1)%nat; te_marshal := fun _ => None; te_unmarshal := fun _ => None; te_hash := te_hash demo |}.
Lemma two_faces_wf : wf_env two_faces.
Proof.
  split.
  - intros id. do 9 (destruct id as [|id]; [discriminate|]). discriminate.
  - intros id. do 9 (destruct id as [|id]; [reflexivity|]). reflexivity.
  - intros t i _. exact (fun H => H).
  - intros t i. exact (fun H => H).
  - exact (we_hash_len _ demo_wf).
  - exact (we_hash_ok _ demo_wf).
Qed.
Definition two_history : list op := [OIface 0%nat None; OIface 1%nat None; OConc j_foo (bs "Foo")].
Definition two_types : list gotype := [TIface 0%nat; TIface 1%nat; j_foo; TInt].
Lemma two_safe : jsafe_set two_faces jdemo_je (fun t => In t two_types).
Proof.
  intros t H. repeat (destruct H as [<-|H]; [first [exact I|split; [eexists; vm_compute; reflexivity|]; first [exact I|idtac]]|]); [|destruct H].
  intros f Hf _ _. repeat (destruct Hf as [<-|Hf]; [split; [cbn; tauto|discriminate]|]). destruct Hf.
Qed.
(** A text naming a registered type that does not implement the interface: the name is
    looked up among all registered types (json-decode.go:205-231). *)
Theorem C64_foreign_name_refuted : exists env je mem h bz t v0 p, wf_env env /\ jenv_safe je /\ jsafe_set env je mem /\
  clean env new_codec h = true /\ (forall t n, In (t, n) (conc_calls h) -> mem (conc_of t)) /\
  bytes_ok bz /\ bz <> [34] /\ jpart mem t /\ has_type env t v0 = true /\ unmarshal_json 10 env je (run env new_codec h) bz t v0 = EPanic p.
Proof.
  exists two_faces, jdemo_je, (fun t => In t two_types), two_history, (bs "{""type"":""Foo"",""value"":{}}"), (TIface 0%nat), (VIface None).
  eexists. split; [exact two_faces_wf|]. split; [exact jdemo_je_safe|]. split; [exact two_safe|]. split; [vm_compute; reflexivity|].
  split. { intros t n [H|[]]. injection H as <- <-. cbn. tauto. }
  split. { apply byte_ok_forallb. vm_compute. reflexivity. }
  split; [discriminate|]. split. { split; [cbn; tauto|discriminate]. }
  split; [reflexivity|]. vm_compute. reflexivity.
Qed.
(** Types that MarshalJSON writes but UnmarshalJSON panics on: maps keyed by a named string
    type, pointers to interfaces; and arrays of a named byte type, which neither takes. *)
Theorem C64_types_refuted : exists env je h, wf_env env /\ jenv_safe je /\ clean env new_codec h = true /\
  forall t, In t [TMap (TNamed 5%nat) TInt; TPtr (TIface 1%nat)] ->
  exists v bz p, has_type env t v = true /\ marshal_json 10 env je (run env new_codec h) t v = EOk bz /\
    unmarshal_json 10 env je (run env new_codec h) bz t (zero env t) = EPanic p.
Proof.
  exists two_faces, jdemo_je, two_history. split; [exact two_faces_wf|]. split; [exact jdemo_je_safe|]. split; [vm_compute; reflexivity|].
  intros t H. destruct H as [<-|[<-|[]]].
  - exists (VMap (Some [(VStr [107], VInt 1)])), (bs "{""k"":""1""}"). eexists. split; [reflexivity|]. split; vm_compute; reflexivity.
  - exists (VPtr (Some (VIface (Some (j_foo, jfoo 1 2))))), (bs "{""type"":""Foo"",""value"":{""A"":""1"",""B"":""2""}}"). eexists. split; [reflexivity|]. split; vm_compute; reflexivity.
Qed.
Theorem C64_named_bytes_refuted : exists env je bz t p, wf_env env /\ jenv_safe je /\ unmarshal_json 10 env je new_codec bz t (zero env t) = EPanic p.
Proof.
  exists two_faces, jdemo_je, (bs """AA=="""), (TArray 1 (TNamed 8%nat)). eexists. split; [exact two_faces_wf|]. split; [exact jdemo_je_safe|]. vm_compute. reflexivity.
Qed.
Print Assumptions C64_named_bytes_refuted.
Print Assumptions C64_only_assign_panic_partial.
Print Assumptions C64_returns_partial.
Print Assumptions C64_quote_refuted.
Print Assumptions C64_foreign_name_refuted.
Print Assumptions C64_types_refuted.

(** ** C65 *)

(** Only JSON is accepted, except that white space may stand inside the quotation marks of a
    number; this needs nothing of the program's types or registrations. *)
Theorem C65_accepted_partial : forall env je c fuel bz t v0 v, jenv_strict je -> unmarshal_json fuel env je c bz t v0 = EOk v -> accepted bz.
Proof. intros env je c fuel bz t v0 v Hj. exact (unmarshal_text env je Hj c fuel bz t v0 v). Qed.

(** The demo program, with a stricter reader of times. *)
Definition strict_je : jenv :=
  {| je_time := je_time jdemo_je; je_untime := fun b => match json_top b with Some _ => je_untime jdemo_je b | None => EErr "no time"%string end;
     je_float := je_float jdemo_je; je_unfloat := je_unfloat jdemo_je; je_marshal := je_marshal jdemo_je; je_unmarshal := je_unmarshal jdemo_je |}.
Lemma strict_je_ok : jenv_strict strict_je.
Proof.
  split.
  - intros bz r _. cbn [je_untime strict_je]. destruct (json_top bz) as [j|] eqn:E; [|discriminate]. intros _.
    destruct (top_sound _ _ E) as (w & b & w' & -> & Hw & Hw' & T). exists w, b, w'. split; [reflexivity|]. split; [exact Hw|]. split; [exact Hw'|]. eapply top_text, T.
  - intros id g bz v w. cbn [je_unmarshal strict_je jdemo_je]. destruct (_ || _); [|discriminate]. intros H. injection H as <-. unfold flag_read. intros H.
    assert (jtext bz).
    { destruct (beqb bz (bs """yes""")) eqn:E; [|destruct (beqb bz (bs """no""")) eqn:E'; [|discriminate]].
      - apply beqb_eq in E. rewrite E. apply (jt_string [121; 101; 115]); repeat (apply jc_plain; [lia|lia|lia|]); apply jc_nil.
      - apply beqb_eq in E'. rewrite E'. apply (jt_string [110; 111]); repeat (apply jc_plain; [lia|lia|lia|]); apply jc_nil. }
    exists [], bz, []. rewrite app_nil_r. split; [reflexivity|]. split; [constructor|]. split; [constructor|assumption].
Qed.
Definition spaced_int : bytes := [34; 10; 49; 34].    (* a quotation mark, a newline, 1, a quotation mark *)
Lemma spaced_int_not : ~ spaced jtext spaced_int.
Proof.
  intros (w & b & w' & E & Hw & Hw' & H).
  assert (w = []) by (destruct w as [|x w]; [reflexivity|]; injection E as <- _; inversion Hw as [|? ? X]; cbv in X; intuition lia). subst w. cbn [app] in E.
  assert (w' = []).
  { destruct w' as [|x w'] using rev_ind; [reflexivity|]. unfold spaced_int in E. change [34; 10; 49; 34] with ([34; 10; 49] ++ [34]) in E. rewrite app_assoc in E.
    apply app_inj_tail in E. destruct E as [_ <-]. apply Forall_app in Hw'. destruct Hw' as [_ X]. inversion X as [|? ? Y]. cbv in Y. intuition lia. }
  subst w'. rewrite app_nil_r in E. subst b. destruct (jtext_top _ H) as (j & X & _). vm_compute in X. discriminate.
Qed.
Example C65_example : let c := run jdemo new_codec jdemo_history in
  jenv_strict strict_je /\ unmarshal_json 9 jdemo strict_je c (bs " " ++ doc_text ++ [10]) j_doc (zero jdemo j_doc) = EOk doc_norm /\
  (forall bz, In bz [bs "{""Small"":-05}"; bs "{""Small"":-5}}"; bs "{""Small"":-5,}"; bs "{Small:-5}"; bs "{""Arr"":[true,false,]}"; bs "{""Name"":'x'}"; []] ->
    exists e, unmarshal_json 9 jdemo strict_je c bz j_doc (zero jdemo j_doc) = EErr e).
Proof.
  cbv zeta. split; [exact strict_je_ok|]. split; [vm_compute; reflexivity|].
  intros bz H. repeat (destruct H as [<-|H]; [eexists; vm_compute; reflexivity|]). destruct H.
Qed.
Theorem C65_quoted_refuted : exists env je h bz t v, wf_env env /\ jenv_strict je /\ clean env new_codec h = true /\
  unmarshal_json 10 env je (run env new_codec h) bz t (zero env t) = EOk v /\ ~ spaced jtext bz.
Proof.
  exists jdemo, strict_je, jdemo_history, spaced_int, (TPrim PInt64), (VInt 1). split; [exact jdemo_wf|]. split; [exact strict_je_ok|].
  split; [vm_compute; reflexivity|]. split; [vm_compute; reflexivity|exact spaced_int_not].
Qed.
Print Assumptions C65_accepted_partial.
Print Assumptions C65_quoted_refuted.

(** ** C66 *)

(** What is read depends only on the bytes and on the parts of the target that are kept. *)
Theorem C66_kept_partial : forall env je h fuel bz t v v', same_kept env je t v v' ->
  unmarshal_json fuel env je (run env new_codec h) bz t v = unmarshal_json fuel env je (run env new_codec h) bz t v'.
Proof. intros env je h fuel bz t v v'. apply unmarshal_used, sane_run. Qed.
(** So a used variable is as good as a fresh one if its type has no such parts. *)
Theorem C66_overwritten_partial : forall env je h fuel bz t v, wf_env env -> overwritten env je t -> has_type env t v = true ->
  unmarshal_json fuel env je (run env new_codec h) bz t v = unmarshal_json fuel env je (run env new_codec h) bz t (zero env t).
Proof.
  intros env je h fuel bz t v We Ho Hv. apply C66_kept_partial, overwritten_same; try assumption. apply has_type_zero, We.
Qed.

Definition jtree := TNamed 9%nat.    (* struct { Foo *Foo; Arr [2][]Foo; M map[string]Foo; I interface } *)
Definition tree_def (id : tid) : udef :=
  if (id =? 9)%nat then UStruct [fld "Foo" (TPtr j_foo) "" ""; fld "Arr" (TArray 2 (TSlice j_foo)) "" ""; fld "M" (TMap TStr j_foo) "" ""; fld "I" (TIface 0%nat) "" ""]
  else jdemo_def id.
Definition tree_zero (id : tid) : value :=
  if (id =? 9)%nat then VStruct [VPtr None; VArr [VSlice None; VSlice None]; VMap None; VIface None] else jdemo_zero id.
Definition tdemo : tenv :=
  {| te_def := tree_def; te_zero := tree_zero; te_impl := te_impl jdemo; te_marshal := te_marshal jdemo; te_unmarshal := te_unmarshal jdemo; te_hash := te_hash jdemo |}.
Lemma tdemo_wf : wf_env tdemo.
Proof.
  split.
  - intros id. do 10 (destruct id as [|id]; [discriminate|]). discriminate.
  - intros id. do 10 (destruct id as [|id]; [reflexivity|]). reflexivity.
  - intros t i _. exact (fun H => H).
  - intros t i. exact (fun H => H).
  - exact (we_hash_len _ demo_wf).
  - exact (we_hash_ok _ demo_wf).
Qed.
Lemma tree_overwritten : overwritten tdemo jdemo_je jtree.
Proof.
  assert (F : overwritten tdemo jdemo_je j_foo).
  { eapply ow_struct; [split; reflexivity|reflexivity| |]; intros f Hf; repeat (destruct Hf as [<-|Hf]; [|]); try destruct Hf.
    1,2: split; [reflexivity|eexists; split; reflexivity]. all: apply ow_over; exact I. }
  eapply ow_struct; [split; reflexivity|reflexivity| |]; intros f Hf.
  - repeat (destruct Hf as [<-|Hf]; [split; [reflexivity|eexists; split; reflexivity]|]). destruct Hf.
  - destruct Hf as [<-|[<-|[<-|[<-|[]]]]].
    + apply ow_ptr, F.
    + eapply ow_array; [exact I|reflexivity|]. apply ow_over; [exact I|reflexivity].
    + apply ow_over; exact I.
    + apply ow_over; exact I.
Qed.
Definition tree_value : value :=
  VStruct [VPtr (Some (jfoo 1 2)); VArr [VSlice (Some [jfoo 3 4; jfoo 5 6]); VSlice None]; VMap (Some [(VStr [107], jfoo 7 8)]); VIface (Some (TPtr j_foo, VPtr (Some (jfoo 9 10))))].
Example C66_example : let c := run tdemo new_codec jdemo_history in
  wf_env tdemo /\ overwritten tdemo jdemo_je jtree /\ has_type tdemo jtree tree_value = true /\
  unmarshal_json 9 tdemo jdemo_je c (bs "{""Foo"":{""B"":""7""},""Arr"":[[{}],[]],""M"":{}}") jtree tree_value =
    EOk (VStruct [VPtr (Some (jfoo 0 7)); VArr [VSlice (Some [jfoo 0 0]); VSlice None]; VMap (Some []); VIface None]) /\
  (* two contents that differ everywhere *)
  same_kept jdemo jdemo_je j_foo (jfoo 1 2) (jfoo 3 4) /\ jfoo 1 2 <> jfoo 3 4.
Proof.
  cbv zeta. split; [exact tdemo_wf|]. split; [exact tree_overwritten|]. split; [vm_compute; reflexivity|]. split; [vm_compute; reflexivity|]. split; [|discriminate].
  eapply sk_struct; [split; reflexivity|reflexivity|].
  do 2 (apply sf_read; [split; [reflexivity|eexists; split; reflexivity]|apply sk_over; exact I|]). constructor.
Qed.

(** Kept: an omitempty field that is not in the text (json-decode.go:396-402), a hidden
    field, and a byte given as null in a list of bytes. *)
Theorem C66_kept_refuted : exists env je h, wf_env env /\ clean env new_codec h = true /\
  (exists bz t l w l', unmarshal_json 9 env je (run env new_codec h) bz t (VStruct l) = EOk (VStruct w) /\ has_type env t (VStruct l) = true /\
     unmarshal_json 9 env je (run env new_codec h) bz t (zero env t) = EOk (VStruct l') /\
     (* the omitempty field *) nth 1 w VInvalid <> nth 1 l' VInvalid /\ (* the hidden field *) nth 12 w VInvalid <> nth 12 l' VInvalid) /\
  (exists bz v w w', has_type env (TSlice TByte) v = true /\ unmarshal_json 9 env je (run env new_codec h) bz (TSlice TByte) v = EOk w /\
     unmarshal_json 9 env je (run env new_codec h) bz (TSlice TByte) (zero env (TSlice TByte)) = EOk w' /\ w <> w').
Proof.
  exists jdemo, jdemo_je, jdemo_history. split; [exact jdemo_wf|]. split; [vm_compute; reflexivity|]. split.
  - exists (bs "{}"), j_doc.
    exists [VInt 1; VUint 7; VStr []; VTime 5 7; VSlice None; VMap None; VIface None; VSlice None; VPtr None; VSlice None; VInt 3; VPtr (Some (VBool true)); VInt 77; VInt (-5); VArr [VBool true; VBool false]].
    eexists _, _. split; [vm_compute; reflexivity|]. split; [vm_compute; reflexivity|]. split; [vm_compute; reflexivity|]. split; discriminate.
  - exists (bs "[1,null]"), (VSlice (Some [VUint 8; VUint 9])). eexists _, _. split; [reflexivity|]. split; [vm_compute; reflexivity|]. split; [vm_compute; reflexivity|]. discriminate.
Qed.
Print Assumptions C66_kept_partial.
Print Assumptions C66_overwritten_partial.
Print Assumptions C66_kept_refuted.
