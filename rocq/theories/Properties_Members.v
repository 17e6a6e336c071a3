(** The members of JSON objects: C81.  Vocabulary: SpecMembers.v. *)
From Coq Require Import ZArith String List Bool Lia.
From Verif Require Import Base Prims SpecWire PrimFacts Types Codec BinDec Amino Registry SpecRegistry RegistryFacts Sane Typing Demo DemoFacts
  SpecNorm EncFacts JsonText Json SpecJson JsonTextFacts JsonFacts JsonProps Properties_Tags Properties_Json SpecJsonSafe JsonSafe SpecMembers MembersFacts.
Import ListNotations.
Local Open Scope Z_scope.

(** ** C81 *)

(** Texts that agree member by member are read the same: with the same value, the same
    error or the same panic, whatever the target holds.  The order of members does not
    matter, nor do members that no field is called by, nor earlier ones of the same name;
    null is as good as no member.  (The calls must not run out of the model's fuel: reading
    null takes one level more than reading nothing.)  Missing for the full statement:
    UnmarshalJSON methods, which see the text itself; null for fields that are omitempty
    (refuted below); the order of the entries of a map, which is kept here. *)
Theorem C81_members_partial : forall env je h, clean env new_codec h = true ->
  forall k t v bz bz', let c := run env new_codec h in agree_top env je c t bz bz' ->
  unmarshal_json k env je c bz t v <> EFuel -> unmarshal_json k env je c bz' t v <> EFuel ->
  unmarshal_json k env je c bz t v = unmarshal_json k env je c bz' t v.
Proof.
  intros env je h Hc k t v bz bz' c H F F'. destruct (unmarshal_upto env je c (wf_history env h Hc) (sane_run env h) k bz bz' t v H) as [E|[E|E]]; [exact E|contradiction|contradiction].
Qed.
(** A struct that was read: fields that are hidden or left out ("-") keep what they held;
    a field whose member is missing is reset to zero, or kept if it is omitempty; a field
    whose member is there holds what UnmarshalJSON reads from the last member of its name. *)
Theorem C81_field_by_field : forall env je h, clean env new_codec h = true ->
  forall k t fs l bz vs w, let c := run env new_codec h in
  deref_type t = t -> unread env je t -> resolve env t = RStruct fs -> registration c t = None -> jobject l bz ->
  unmarshal_json (S k) env je c bz t (VStruct vs) = EOk w ->
  exists ws, w = VStruct ws /\ length ws = length vs /\
    forall i f v, nth_error fs i = Some f -> nth_error vs i = Some v -> exists u, nth_error ws i = Some u /\
      match json_opts f with
      | None => u = v
      | Some o =>
          (no_member (fo_json_name o) l -> u = if fo_omitempty o then v else zero env (sf_type f)) /\
          (forall x, last_member (fo_json_name o) l x -> registration c (deref_type (sf_type f)) = None ->
             unmarshal_json k env je c x (sf_type f) v = EOk u)
      end.
Proof. intros env je h Hc k t fs l bz vs w c. exact (struct_each env je c (wf_history env h Hc) (sane_run env h) k t fs l bz vs w). Qed.

(** Members in another order, a member more, one more often, one by an escaped name, a
    capital in the wrapper; and null for nothing. *)
Definition m_text : bytes := bs "{""A"":""1"",""B"":""2""}".
Definition m_text' : bytes := bs "{""B"":""2"",""C"":[null], ""A"":""3"",""\u0041"":""1""}".
Definition w_text : bytes := bs "{""type"":""Foo"",""value"":" ++ m_text ++ bs "}".
Definition w_text' : bytes := bs "{""value"":" ++ m_text' ++ bs ",""note"":0,""Type"":""Foo""}".
Definition l_text : bytes := 91 :: w_text ++ [93].
Definition l_text' : bytes := 91 :: w_text' ++ [93].
Lemma m_agree t c : deref_type t = j_foo -> agree jdemo jdemo_je c t m_text m_text'.
Proof.
  intros D. eapply ag_struct; [rewrite D; split; reflexivity|rewrite D; reflexivity|apply object_by; vm_compute; reflexivity|apply object_by; vm_compute; reflexivity|].
  assert (G : good_members [(bs "A", bs """1"""); (bs "B", bs """2""")]) by (apply (object_members _ m_text), object_by; vm_compute; reflexivity).
  assert (G' : good_members [(bs "B", bs """2"""); (bs "C", bs "[null]"); (bs "A", bs """3"""); (bs "\u0041", bs """1""")])
    by (apply (object_members _ m_text'), object_by; vm_compute; reflexivity).
  intros f o [<- |[<- |[]]] Ho; vm_compute in Ho; injection Ho as <-; right; left; cbn [fo_json_name sf_type fld tagged].
  - exists (bs """1"""), (bs """1"""). split; [|split; [|apply ag_same]].
    + apply (last_member_by _ _ _ [] (bs "A") [(bs "B", bs """2""")] G); vm_compute; reflexivity.
    + apply (last_member_by _ _ _ [(bs "B", bs """2"""); (bs "C", bs "[null]"); (bs "A", bs """3""")] (bs "\u0041") [] G'); vm_compute; reflexivity.
  - exists (bs """2"""), (bs """2"""). split; [|split; [|apply ag_same]].
    + apply (last_member_by _ _ _ [(bs "A", bs """1""")] (bs "B") [] G); vm_compute; reflexivity.
    + apply (last_member_by _ _ _ [] (bs "B") [(bs "C", bs "[null]"); (bs "A", bs """3"""); (bs "\u0041", bs """1""")] G'); vm_compute; reflexivity.
Qed.
Definition w_members : list (bytes * bytes) := [(bs "type", bs """Foo"""); (bs "value", m_text)].
Definition w_members' : list (bytes * bytes) := [(bs "value", m_text'); (bs "note", bs "0"); (bs "Type", bs """Foo""")].
(** Names of members, computed. *)
Lemma key_by word k n : Forall (fun y => 97 <= y <= 122) word -> jchars k -> unq k = EOk n -> beqb (map lower n) word = true -> key_is word k.
Proof. intros W J E B. apply (key_is_unq word k n W J E), B. Qed.
Lemma no_key_by word k n : Forall (fun y => 97 <= y <= 122) word -> jchars k -> unq k = EOk n -> beqb (map lower n) word = false -> ~ key_is word k.
Proof. intros W J E B X. apply (key_is_unq word k n W J E) in X. congruence. Qed.
Lemma w_same (same : bytes -> bytes -> bytes -> Prop) : same (bs "Foo") m_text m_text' -> same_wrapper same w_text w_text'.
Proof.
  intros S. assert (O : jobject w_members w_text) by (apply object_by; vm_compute; reflexivity).
  assert (O' : jobject w_members' w_text') by (apply object_by; vm_compute; reflexivity).
  assert (Gd := object_members _ _ O). assert (Gd' := object_members _ _ O'). unfold w_members in Gd. unfold w_members' in Gd'.
  inversion Gd as [|? ? [A1 A2] Gt]; subst. inversion Gt as [|? ? [B1 B2] _]; subst.
  inversion Gd' as [|? ? [D1 D2] Gt']; subst. inversion Gt' as [|? ? [E1 E2] Gt'']; subst. inversion Gt'' as [|? ? [F1 F2] _]; subst. cbn [fst snd] in *.
  assert (JF : jchars (bs "Foo")) by (cbn; repeat (apply jc_plain; [lia|lia|lia|]); apply jc_nil).
  assert (DF : denotes (bs "Foo") (bs "Foo")) by (apply unq_sound; [exact JF|reflexivity]).
  exists w_members, w_members', (bs "Foo"), m_text, m_text'. splits; try assumption.
  - unfold only_strings, w_members. constructor; [|constructor; [|constructor]]; cbn [fst snd]; intros K; [right; exists (bs "Foo"); split; [exact JF|reflexivity]|].
    exfalso. revert K. apply (no_key_by _ _ (bs "value") word_type_ok B1); vm_compute; reflexivity.
  - unfold only_strings, w_members'. constructor; [|constructor; [|constructor; [|constructor]]]; cbn [fst snd]; intros K; [exfalso|exfalso|right; exists (bs "Foo"); split; [exact JF|reflexivity]]; revert K.
    + apply (no_key_by _ _ (bs "value") word_type_ok D1); vm_compute; reflexivity.
    + apply (no_key_by _ _ (bs "note") word_type_ok E1); vm_compute; reflexivity.
  - exists [], (bs "type"), (bs "Foo"), [(bs "value", m_text)]. splits; [reflexivity|apply (key_by _ _ (bs "type") word_type_ok A1); vm_compute; reflexivity|exact DF|].
    constructor; [|constructor]. cbn [fst snd]. intros K. exfalso. revert K. apply (no_key_by _ _ (bs "value") word_type_ok B1); vm_compute; reflexivity.
  - exists [(bs "value", m_text'); (bs "note", bs "0")], (bs "Type"), (bs "Foo"), []. splits; [reflexivity|apply (key_by _ _ (bs "Type") word_type_ok F1); vm_compute; reflexivity|exact DF|constructor].
  - exists [(bs "type", bs """Foo""")], (bs "value"), []. splits; [reflexivity|apply (key_by _ _ (bs "value") word_value_ok B1); vm_compute; reflexivity|constructor].
  - exists [], (bs "value"), [(bs "note", bs "0"); (bs "Type", bs """Foo""")]. splits; [reflexivity|apply (key_by _ _ (bs "value") word_value_ok D1); vm_compute; reflexivity|].
    constructor; [|constructor; [|constructor]]; cbn [fst].
    + apply (no_key_by _ _ (bs "note") word_value_ok E1); vm_compute; reflexivity.
    + apply (no_key_by _ _ (bs "Type") word_value_ok F1); vm_compute; reflexivity.
Qed.
Example C81_example : let c := run jdemo new_codec jdemo_history in
  clean jdemo new_codec jdemo_history = true /\ agree_top jdemo jdemo_je c (TPtr j_foo) w_text w_text' /\
  agree_top jdemo jdemo_je c (TSlice (TIface 0%nat)) l_text l_text' /\
  unmarshal_json 5 jdemo jdemo_je c w_text (TPtr j_foo) (VPtr None) = EOk (VPtr (Some (jfoo 1 2))) /\
  unmarshal_json 5 jdemo jdemo_je c w_text' (TPtr j_foo) (VPtr None) = EOk (VPtr (Some (jfoo 1 2))) /\
  unmarshal_json 5 jdemo jdemo_je c l_text' (TSlice (TIface 0%nat)) (VSlice None) = EOk (VSlice (Some [VIface (Some (TPtr j_foo, VPtr (Some (jfoo 1 2))))])) /\
  (* null for a missing member, both reset the field *)
  agree_top jdemo jdemo_je new_codec j_foo (bs "{""A"":""1""}") (bs "{""A"":""1"",""B"":null}") /\
  unmarshal_json 5 jdemo jdemo_je new_codec (bs "{""A"":""1""}") j_foo (jfoo 7 8) = EOk (jfoo 1 0) /\
  unmarshal_json 5 jdemo jdemo_je new_codec (bs "{""A"":""1"",""B"":null}") j_foo (jfoo 7 8) = EOk (jfoo 1 0) /\
  (* a struct with fields that are kept *)
  resolve jdemo j_doc = RStruct doc_fields /\ unread jdemo jdemo_je j_doc /\ registration c j_doc = None /\
  exists vs ws, unmarshal_json 5 jdemo jdemo_je c (bs "{""Small"":3,""other"":{}}") j_doc (VStruct vs) = EOk (VStruct ws) /\
    nth_error vs 0 = Some (VInt 5) /\ nth_error ws 0 = Some (VInt 0) /\       (* missing *)
    nth_error vs 1 = Some (VUint 6) /\ nth_error ws 1 = Some (VUint 6) /\     (* missing, omitempty *)
    nth_error vs 12 = Some (VInt 77) /\ nth_error ws 12 = Some (VInt 77) /\   (* hidden *)
    nth_error ws 13 = Some (VInt 3).
Proof.
  cbv zeta. split; [vm_compute; reflexivity|]. split; [|split].
  - unfold agree_top. match goal with |- match ?x with _ => _ end => assert (E : x = Some (bs "Foo", true)) by (vm_compute; reflexivity); rewrite E end.
    right. apply w_same. apply m_agree. reflexivity.
  - unfold agree_top. match goal with |- match ?x with _ => _ end => assert (E : x = None) by (vm_compute; reflexivity); rewrite E end.
    eapply ag_list; [exact I|left; reflexivity|reflexivity|apply array_by; vm_compute; reflexivity|apply array_by; vm_compute; reflexivity|].
    constructor; [|constructor]. eapply ag_iface; [reflexivity|]. change (same_wrapper (fun name x x' => forall ct ptr,
      registration (run jdemo new_codec jdemo_history) ct = Some (name, ptr) -> agree jdemo jdemo_je (run jdemo new_codec jdemo_history) ct x x') w_text w_text').
    apply w_same. intros ct ptr R. apply m_agree.
    assert (W : wf_codec jdemo (run jdemo new_codec jdemo_history)) by (apply wf_history; vm_compute; reflexivity).
    destruct (registration_info _ _ W _ _ _ R) as (ci & r & _ & Hty & _ & _ & _ & _ & Hn & Hd). rewrite Hd, <- Hty. 
    assert (E2 : match type_info_from_name (run jdemo new_codec jdemo_history) (bs "Foo") with EOk ci => Some (ci_type ci) | _ => None end = Some j_foo) by (vm_compute; reflexivity).
    rewrite Hn in E2. injection E2 as E2. exact E2.
  - do 3 (split; [vm_compute; reflexivity|]). split.
    { unfold agree_top. change (registration new_codec (deref_type j_foo)) with (@None (bytes * bool)). cbv iota.
      assert (O : jobject [(bs "A", bs """1""")] (bs "{""A"":""1""}")) by (apply object_by; vm_compute; reflexivity).
      assert (O' : jobject [(bs "A", bs """1"""); (bs "B", bs "null")] (bs "{""A"":""1"",""B"":null}")) by (apply object_by; vm_compute; reflexivity).
      assert (G := object_members _ _ O). assert (G' := object_members _ _ O').
      eapply ag_struct; [split; reflexivity|reflexivity|exact O|exact O'|].
      intros f o [<- |[<- |[]]] Ho; vm_compute in Ho; injection Ho as <-; cbn [fo_json_name sf_type fld tagged].
      - right. left. exists (bs """1"""), (bs """1"""). split; [|split; [|apply ag_same]].
        + apply (last_member_by _ _ _ [] (bs "A") [] G); vm_compute; reflexivity.
        + apply (last_member_by _ _ _ [] (bs "A") [(bs "B", bs "null")] G'); vm_compute; reflexivity.
      - right. right. split; [reflexivity|]. left. split; [apply no_member_by; vm_compute; reflexivity|].
        apply (last_member_by _ _ _ [(bs "A", bs """1""")] (bs "B") [] G'); vm_compute; reflexivity. }
    do 2 (split; [vm_compute; reflexivity|]). split; [reflexivity|]. split; [split; reflexivity|]. split; [vm_compute; reflexivity|].
    exists [VInt 5; VUint 6; VStr []; zero_time; VSlice None; VMap None; VIface None; VSlice None; VPtr None; VSlice None; VInt 0;
            VPtr None; VInt 77; VInt 0; VArr [VBool false; VBool false]].
    eexists. split; [vm_compute; reflexivity|]. repeat (split; [reflexivity|]). reflexivity.
Qed.
Print Assumptions C81_members_partial.
Print Assumptions C81_field_by_field.

(** For a field that is omitempty, null resets what a missing member keeps. *)
Theorem C81_omitempty_refuted : exists env je h t v w w' bz bz' l x, let c := run env new_codec h in
  wf_env env /\ clean env new_codec h = true /\ jobject l bz /\ jobject (l ++ [(x, bs "null")]) bz' /\
  unmarshal_json 5 env je c bz t v = EOk w /\ unmarshal_json 5 env je c bz' t v = EOk w' /\ w <> w'.
Proof.
  exists jdemo, jdemo_je, jdemo_history, j_doc.
  exists (VStruct [VInt 5; VUint 6; VStr []; zero_time; VSlice None; VMap None; VIface None; VSlice None; VPtr None; VSlice None; VInt 0;
            VPtr None; VInt 77; VInt 0; VArr [VBool false; VBool false]]).
  eexists. eexists. exists (bs "{""Small"":3}"), (bs "{""Small"":3,""U"":null}"), [(bs "Small", bs "3")], (bs "U"). cbv zeta.
  split; [exact jdemo_wf|]. split; [vm_compute; reflexivity|]. split; [apply object_by; vm_compute; reflexivity|]. split; [apply object_by; vm_compute; reflexivity|].
  split; [vm_compute; reflexivity|]. split; [vm_compute; reflexivity|]. discriminate.
Qed.
(** The order of members of the same name matters; in a wrapper also that of members whose
    names differ only in case. *)
Theorem C81_order_refuted : exists env je h t t' m1 m2 m n n' bz1 bz1' bz2 bz2' a a' b b', let c := run env new_codec h in
  wf_env env /\ clean env new_codec h = true /\
  jobject [m1; m2] bz1 /\ jobject [m2; m1] bz1' /\
  unmarshal_json 5 env je c bz1 t (zero env t) = EOk a /\ unmarshal_json 5 env je c bz1' t (zero env t) = EOk a' /\ a <> a' /\
  jobject [m; n; n'] bz2 /\ jobject [m; n'; n] bz2' /\ fst m <> fst n /\ fst m <> fst n' /\ fst n <> fst n' /\
  unmarshal_json 5 env je c bz2 t' (zero env t') = EOk b /\ unmarshal_json 5 env je c bz2' t' (zero env t') = EOk b' /\ b <> b'.
Proof.
  exists jdemo, jdemo_je, jdemo_history, j_doc, j_foo, (bs "Small", bs "3"), (bs "Small", bs "4"), (bs "type", bs """Foo"""),
    (bs "value", bs "{""A"":""1""}"), (bs "Value", bs "{}").
  exists (bs "{""Small"":3,""Small"":4}"), (bs "{""Small"":4,""Small"":3}"),
    (bs "{""type"":""Foo"",""value"":{""A"":""1""},""Value"":{}}"), (bs "{""type"":""Foo"",""Value"":{},""value"":{""A"":""1""}}").
  do 4 eexists. cbv zeta. split; [exact jdemo_wf|]. split; [vm_compute; reflexivity|].
  do 2 (split; [apply object_by; vm_compute; reflexivity|]). do 2 (split; [vm_compute; reflexivity|]). split; [discriminate|].
  do 2 (split; [apply object_by; vm_compute; reflexivity|]). do 3 (split; [discriminate|]).
  do 2 (split; [vm_compute; reflexivity|]). discriminate.
Qed.
Print Assumptions C81_omitempty_refuted.
Print Assumptions C81_order_refuted.
