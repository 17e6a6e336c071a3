(** JSON layout and the remaining JSON entry points: C48 (Must*JSON), C62, C63.
    Vocabulary: SpecLayout.v. *)
From Coq Require Import ZArith String List Bool Lia.
From Coq Require Import ZifyBool ZifyNat.
From Verif Require Import Base Prims SpecWire PrimFacts Types Codec Amino Registry SpecRegistry RegistryFacts Sane Typing Demo DemoFacts
  SpecNorm EncFacts JsonText Json JsonIndent SpecJson SpecLayout JsonTextFacts JsonFacts JsonProps LayoutFacts Properties_Tags Properties_Json.
Import ListNotations.
Local Open Scope Z_scope.

(** ** C48 *)

Theorem C48_must_json : forall k env je c t v bz,
  (forall b, must_marshal_json k env je c t v = EOk b <-> marshal_json k env je c t v = EOk b) /\
  ((exists p, must_marshal_json k env je c t v = EPanic p) <->
   (exists e, marshal_json k env je c t v = EErr e) \/ (exists p, marshal_json k env je c t v = EPanic p)) /\
  (forall e, must_marshal_json k env je c t v <> EErr e) /\
  (forall w, must_unmarshal_json k env je c bz t v = EOk w <-> unmarshal_json k env je c bz t v = EOk w) /\
  ((exists p, must_unmarshal_json k env je c bz t v = EPanic p) <->
   (exists e, unmarshal_json k env je c bz t v = EErr e) \/ (exists p, unmarshal_json k env je c bz t v = EPanic p)) /\
  (forall e, must_unmarshal_json k env je c bz t v <> EErr e).
Proof.
  assert (G : forall A (q : eres A), (forall b, must q = EOk b <-> q = EOk b) /\
    ((exists p, must q = EPanic p) <-> (exists e, q = EErr e) \/ (exists p, q = EPanic p)) /\ (forall e, must q <> EErr e)).
  { intros A [b|e|p|]; cbn [must]; (split; [|split]); try (intros; split; congruence); try congruence;
      split; try (intros [x X]; discriminate X); try (intros [[x X]|[x X]]; discriminate X); eauto. }
  intros k env je c t v bz. destruct (G _ (marshal_json k env je c t v)) as (A & B & C).
  destruct (G _ (unmarshal_json k env je c bz t v)) as (A' & B' & C'). splits; assumption.
Qed.
Example C48_json_example :
  must_marshal_json 5 jdemo jdemo_je new_codec j_foo (jfoo 1 2) = EOk (bs "{""A"":""1"",""B"":""2""}") /\
  must_unmarshal_json 5 jdemo jdemo_je new_codec (bs "{""A"":""1""}") j_foo (jfoo 0 0) = EOk (jfoo 1 0) /\
  (exists e, unmarshal_json 5 jdemo jdemo_je new_codec (bs "{""A"":1}") j_foo (jfoo 0 0) = EErr e /\
             must_unmarshal_json 5 jdemo jdemo_je new_codec (bs "{""A"":1}") j_foo (jfoo 0 0) = EPanic e).
Proof. split; [vm_compute; reflexivity|]. split; [vm_compute; reflexivity|]. eexists. split; [vm_compute; reflexivity|]. vm_compute. reflexivity. Qed.
Print Assumptions C48_must_json.

(** ** C62 *)

(** MarshalJSONIndent lays the text of MarshalJSON out over lines, whatever prefix and
    indentation are. *)
Theorem C62_layout : forall env je h, wf_env env -> marshal_typed env -> jenv_ok je -> clean env new_codec h = true ->
  byte_names env -> (forall t0 name, In (t0, name) (conc_calls h) -> unescaped name = true) ->
  forall k t v prefix indent bz, let c := run env new_codec h in
  has_type env t v = true -> marshal_json k env je c t v = EOk bz ->
  exists out, marshal_json_indent k env je c t v prefix indent = EOk out /\ laid_out prefix indent 0 bz out.
Proof.
  intros env je h We Hm Hj Hc Hb Hn k t v prefix indent bz c Ht H.
  destruct (C50_valid_partial env je h We Hm Hj Hc Hb Hn k t v bz Ht H) as [J _]. unfold marshal_json_indent. rewrite H. cbn [ebind].
  destruct (indent_ok prefix indent bz J) as (out & L & E). exists out. split; [exact E|exact L].
Qed.
(** Whatever MarshalJSON wrote, also if it is not JSON: the text laid out, or an error. *)
Theorem C62_any : forall k env je c t v prefix indent,
  match marshal_json k env je c t v with
  | EOk bz => jtext bz -> exists out, marshal_json_indent k env je c t v prefix indent = EOk out /\ laid_out prefix indent 0 bz out
  | r => marshal_json_indent k env je c t v prefix indent = r
  end /\
  (forall out, marshal_json_indent k env je c t v prefix indent = EOk out ->
     exists w text w', marshal_json k env je c t v = EOk (w ++ text ++ w') /\ spaces w /\ spaces w' /\ jtext text).
Proof.
  intros k env je c t v prefix indent. unfold marshal_json_indent. destruct (marshal_json k env je c t v) as [bz|e|p|]; cbn [ebind]; (split; [|try discriminate]); try reflexivity.
  - intros J. destruct (indent_ok prefix indent bz J) as (out & L & E). exists out. split; [exact E|exact L].
  - intros out. unfold json_indent. destruct (json_top bz) as [j|] eqn:E; [|discriminate]. intros _.
    destruct (top_sound bz j E) as (w & text & w' & -> & Hw & Hw' & T). exists w, text, w'. splits; try assumption; [reflexivity|apply (top_text j), T].
Qed.
(** If prefix and indentation are white space it is the same text, and reads back the same. *)
Theorem C62_same_text : forall k env je c t v prefix indent bz out, spaces prefix -> spaces indent ->
  marshal_json k env je c t v = EOk bz -> jtext bz -> marshal_json_indent k env je c t v prefix indent = EOk out ->
  respaced bz out /\ jtext out /\
  ((forall id g b b' w, je_unmarshal je id = Some g -> respaced b b' -> g b w = g b' w) ->
   forall m t' v', unmarshal_json m env je c out t' v' = unmarshal_json m env je c bz t' v').
Proof.
  intros k env je c t v prefix indent bz out Hp Hi H J Ho. unfold marshal_json_indent in Ho. rewrite H in Ho. cbn [ebind] in Ho.
  destruct (indent_ok prefix indent bz J) as (out' & L & E). assert (out' = out) by congruence. subst out'.
  pose proof (laid_respaced prefix indent Hp Hi (length bz) bz ltac:(lia) 0%nat out L) as R. splits; [exact R|apply (respaced_texts _ _ R)|].
  intros Hje m t' v'. symmetry. apply unmarshal_same; assumption.
Qed.
(** So what has a JSON normal form is read back as that. *)
Theorem C62_round_trip : forall env je h, wf_env env -> marshal_typed env -> jenv_ok je -> clean env new_codec h = true ->
  byte_names env -> (forall t0 name, In (t0, name) (conc_calls h) -> unescaped name = true) ->
  (forall id g b b' w, je_unmarshal je id = Some g -> respaced b b' -> g b w = g b' w) ->
  forall k t v w prefix indent, let c := run env new_codec h in spaces prefix -> spaces indent ->
  jnorm k env je c t v = Some w -> has_type env t v = true -> name_ok c t ->
  exists out, forall m, (k <= m)%nat ->
    marshal_json_indent m env je c t v prefix indent = EOk out /\ unmarshal_json m env je c out t (zero env t) = EOk w.
Proof.
  intros env je h We Hm Hj Hc Hb Hn Hje k t v w prefix indent c Hp Hi Hw Ht Hnm.
  destruct (C49_normal_form_partial env je h We Hm Hj Hc k t v w Hw Ht Hnm) as (bz & H). destruct (H k (le_n k)) as (Hk & _).
  destruct (C62_layout env je h We Hm Hj Hc Hb Hn k t v prefix indent bz Ht Hk) as (out & Eo & _).
  destruct (C50_valid_partial env je h We Hm Hj Hc Hb Hn k t v bz Ht Hk) as [J _]. exists out. intros m Hkm. destruct (H m Hkm) as (Hk' & _ & Hu). fold c in Hk, Hk', Hu, Eo. split.
  - unfold marshal_json_indent in *. rewrite Hk in Eo. rewrite Hk'. exact Eo.
  - destruct (C62_same_text k env je c t v prefix indent bz out Hp Hi Hk J Eo) as (_ & _ & S). rewrite S by exact Hje. exact Hu.
Qed.
(** The methods of the program behind the examples do not mind. *)
Lemma flag_layout id g b b' w : je_unmarshal jdemo_je id = Some g -> respaced b b' -> g b w = g b' w.
Proof.
  cbn [je_unmarshal jdemo_je]. destruct (_ || _); [|discriminate]. intros H R. injection H as <-.
  destruct (respaced_shape b b' R) as [-> |(x & t & t' & -> & -> & [-> | ->])]; reflexivity.
Qed.
Definition nl : string := String (Ascii.ascii_of_nat 10) EmptyString.
Example C62_example : let c := run jdemo new_codec jdemo_history in
  wf_env jdemo /\ marshal_typed jdemo /\ jenv_ok jdemo_je /\ clean jdemo new_codec jdemo_history = true /\ byte_names jdemo /\
  (forall t0 name, In (t0, name) (conc_calls jdemo_history) -> unescaped name = true) /\ spaces (bs " ") /\ spaces [9] /\
  jnorm 9 jdemo jdemo_je c j_doc doc_value = Some doc_norm /\ has_type jdemo j_doc doc_value = true /\ name_ok c j_doc /\
  marshal_json_indent 9 jdemo jdemo_je c (TSlice j_foo) (VSlice (Some [jfoo 1 2])) (bs ">") (bs "  ") =
    EOk (bs ("[" ++ nl ++ ">  {" ++ nl ++ ">    ""A"": ""1""," ++ nl ++ ">    ""B"": ""2""" ++ nl ++ ">  }" ++ nl ++ ">]")) /\
  marshal_json_indent 9 jdemo jdemo_je c (TMap TStr TInt) (VMap (Some [])) [] (bs "  ") = EOk (bs "{}") /\
  (exists out, marshal_json_indent 9 jdemo jdemo_je c j_doc doc_value (bs " ") [9] = EOk out /\ out <> doc_text /\
     unmarshal_json 9 jdemo jdemo_je c out j_doc (zero jdemo j_doc) = EOk doc_norm) /\
  (* a name that is not escaped makes MarshalJSONIndent fail *)
  (exists bz e, let c' := run jdemo new_codec [OConc j_foo (bs "a""b")] in
     marshal_json 5 jdemo jdemo_je c' j_foo (jfoo 1 2) = EOk bz /\ marshal_json_indent 5 jdemo jdemo_je c' j_foo (jfoo 1 2) [] [] = EErr e).
Proof.
  cbv zeta. split; [exact jdemo_wf|]. split; [exact jdemo_marshal_typed|]. split; [exact jdemo_je_ok|]. split; [vm_compute; reflexivity|].
  split; [exact jdemo_byte_names|]. split; [intros t0 name [H|[H|[]]]; injection H as <- <-; reflexivity|].
  split; [constructor; [unfold space; tauto|constructor]|]. split; [constructor; [unfold space; tauto|constructor]|].
  split; [vm_compute; reflexivity|]. split; [vm_compute; reflexivity|]. split; [apply jdemo_names|]. split; [vm_compute; reflexivity|]. split; [vm_compute; reflexivity|].
  split; [eexists; split; [vm_compute; reflexivity|]; split; [vm_compute; discriminate|]; vm_compute; reflexivity|].
  eexists. eexists. split; [vm_compute; reflexivity|]. vm_compute. reflexivity.
Qed.
Print Assumptions C62_layout.
Print Assumptions C62_any.
Print Assumptions C62_same_text.
Print Assumptions C62_round_trip.

(** ** C63 *)

(** White space between the tokens of a text does not matter to UnmarshalJSON, for any
    codec, type, target and text.  Missing for the full statement: white space before and
    after the text (refuted below), and UnmarshalJSON methods, which must not mind either. *)
Theorem C63_layout_partial : forall env je c,
  (forall id g b b' w, je_unmarshal je id = Some g -> respaced b b' -> g b w = g b' w) ->
  forall k bz bz' t v, respaced bz bz' -> unmarshal_json k env je c bz t v = unmarshal_json k env je c bz' t v.
Proof. intros env je c Hje k bz bz' t v. exact (unmarshal_same env je c Hje k bz bz' t v). Qed.
Example C63_example :
  let bz := bs "{""type"":""Foo"",""value"":{""A"":""1"",""B"":""2""}}" in
  let bz' := bs ("{ ""type"" :" ++ nl ++ """Foo"", ""value"": { ""A"": ""1"" , ""B"" : ""2"" }" ++ nl ++ "}") in
  let c := run jdemo new_codec jdemo_history in
  respaced bz bz' /\ unmarshal_json 5 jdemo jdemo_je c bz j_foo (jfoo 9 9) = EOk (jfoo 1 2) /\
  unmarshal_json 5 jdemo jdemo_je c bz' j_foo (jfoo 9 9) = EOk (jfoo 1 2).
Proof.
  cbv zeta. split; [|split; vm_compute; reflexivity].
  assert (C : forall s, forallb (fun x => (32 <=? x) && negb (x =? 34) && negb (x =? 92)) s = true -> jchars s).
  { intros s H. apply jchars_plain, Forall_forall. intros x Hx. rewrite forallb_forall in H. specialize (H x Hx). lia. }
  set (in1 := bs "{""A"":""1"",""B"":""2""}"). set (in2 := bs "{ ""A"": ""1"" , ""B"" : ""2"" }").
  assert (S0 : spaces []) by constructor. assert (S1 : spaces [32]) by (constructor; [unfold space; tauto|constructor]).
  assert (S2 : spaces [10]) by (constructor; [unfold space; tauto|constructor]).
  assert (Q : forall s, forallb (fun x => (32 <=? x) && negb (x =? 34) && negb (x =? 92)) s = true -> respaced (34 :: s ++ [34]) (34 :: s ++ [34])) by (intros s H; apply rs_string, C, H).
  assert (T : forall s, forallb (fun x => (32 <=? x) && negb (x =? 34) && negb (x =? 92)) s = true -> jtext (34 :: s ++ [34])) by (intros s H; apply jt_string, C, H).
  assert (R : respaced in1 in2).
  { apply (rs_object [(bs "A", bs """1"""); (bs "B", bs """2""")] [(bs "A", bs """1"""); (bs "B", bs """2""")]).
    - apply (jo_members _ (bs """A"":""1"",""B"":""2""")).
      apply (jm_cons [] (bs "A") [] [] (bs """1""") []); try assumption; [apply C; reflexivity|apply (T (bs "1")); reflexivity|].
      apply (jm_one [] (bs "B") [] [] (bs """2""") []); try assumption; [apply C; reflexivity|apply (T (bs "2")); reflexivity].
    - apply (jo_members _ (bs " ""A"": ""1"" , ""B"" : ""2"" ")).
      apply (jm_cons [32] (bs "A") [] [32] (bs """1""") [32]); try assumption; [apply C; reflexivity|apply (T (bs "1")); reflexivity|].
      apply (jm_one [32] (bs "B") [32] [32] (bs """2""") [32]); try assumption; [apply C; reflexivity|apply (T (bs "2")); reflexivity].
    - constructor; [split; [reflexivity|apply (Q (bs "1")); reflexivity]|]. constructor; [split; [reflexivity|apply (Q (bs "2")); reflexivity]|constructor]. }
  destruct (respaced_texts _ _ R) as [R1 R2].
  apply (rs_object [(bs "type", bs """Foo"""); (bs "value", in1)] [(bs "type", bs """Foo"""); (bs "value", in2)]).
  - apply (jo_members _ (bs """type"":""Foo"",""value"":{""A"":""1"",""B"":""2""}")).
    apply (jm_cons [] (bs "type") [] [] (bs """Foo""") []); try assumption; [apply C; reflexivity|apply (T (bs "Foo")); reflexivity|].
    apply (jm_one [] (bs "value") [] [] in1 []); try assumption. apply C; reflexivity.
  - apply (jo_members _ (bs (" ""type"" :" ++ nl ++ """Foo"", ""value"": { ""A"": ""1"" , ""B"" : ""2"" }" ++ nl))).
    apply (jm_cons [32] (bs "type") [32] [10] (bs """Foo""") []); try assumption; [apply C; reflexivity|apply (T (bs "Foo")); reflexivity|].
    apply (jm_one [32] (bs "value") [] [32] in2 [10]); try assumption. apply C; reflexivity.
  - constructor; [split; [reflexivity|apply (Q (bs "Foo")); reflexivity]|]. constructor; [split; [reflexivity|exact R]|constructor].
Qed.
(** White space around the whole text does matter: a quoted integer, a time and null (into
    a pointer) are recognised by their first and last byte or as a whole. *)
Theorem C63_outer_space_refuted : exists env je c, wf_env env /\ jenv_ok je /\
  (unmarshal_json 5 env je c (bs """5""") TInt (VInt 0) = EOk (VInt 5) /\ exists e, unmarshal_json 5 env je c (bs " ""5""") TInt (VInt 0) = EErr e) /\
  (unmarshal_json 5 env je c (bs """5Z""") TTime zero_time = EOk (VTime 0 5) /\ exists e, unmarshal_json 5 env je c (bs """5Z"" ") TTime zero_time = EErr e) /\
  (unmarshal_json 5 env je c (bs "null") (TPtr TInt) (VPtr (Some (VInt 1))) = EOk (VPtr None) /\ exists e, unmarshal_json 5 env je c (bs " null") (TPtr TInt) (VPtr (Some (VInt 1))) = EErr e).
Proof.
  exists jdemo, jdemo_je, new_codec. split; [exact jdemo_wf|]. split; [exact jdemo_je_ok|].
  split; [split; [vm_compute; reflexivity|eexists; vm_compute; reflexivity]|]. split; [split; [vm_compute; reflexivity|eexists; vm_compute; reflexivity]|].
  split; [vm_compute; reflexivity|eexists; vm_compute; reflexivity].
Qed.
Print Assumptions C63_layout_partial.
Print Assumptions C63_outer_space_refuted.
