(** Property theorems: what is written is no longer than the value warrants. *)
From Coq Require Import ZArith String List Bool Lia.
From Coq Require Import ZifyBool ZifyNat.
From Verif Require Import Base Prims SpecWire PrimFacts Types Codec BinEnc BinDec Amino FuelFacts Registry SpecRegistry RegistryFacts Sane Typing DecSafe Sha256 Demo DemoFacts
  SpecNorm EncFacts RoundTrip TopFacts SpecSupported SupportedFacts SpecWritable WritableFacts SpecEcho EchoFacts Properties_Decode Properties_Echo
  JsonText Json SpecJson JsonTextFacts JsonFacts JsonProps Properties_Json SpecJsonWritable JsonWritableFacts SpecJsonEcho JsonEchoFacts Properties_JsonEcho
  SpecBulk BulkFacts JsonBulkFacts.
Import ListNotations.
Local Open Scope Z_scope.

(** ** C86 *)

(** The bytes of a value are at most a fixed number for each part of it and the bytes of
    the strings in it: however deeply the parts are nested, nothing is written twice, no
    key takes more than five bytes and no number or length more than ten. *)
Theorem C86_marshal_size : forall env h m, wf_env env -> repr_nogrow env m ->
  forall k t v bz, let c := run env new_codec h in
  (marshal_bare k env c t v = EOk bz -> (length bz <= 9 + bulk m v)%nat) /\
  (marshal_length_prefixed k env c t v = EOk bz -> (length bz <= 19 + bulk m v)%nat).
Proof.
  intros env h m We Hg k t v bz c. pose proof (marshal_short env We c (sane_run env h) m Hg k t v) as L. split; [apply L|].
  unfold marshal_length_prefixed. intros H. einv H. apply L in E. apply EOk_inj in H. subst bz. rewrite app_length.
  pose proof (uvarint_short (zlen a)). lia.
Qed.

(** So is the JSON text: at most six characters for each byte of a string and one for each
    bit of a number, and for each part a fixed number and its name. *)
Theorem C86_json_size : forall env je h m n, let c := run env new_codec h in
  short_names env c n -> json_short env je m n ->
  forall k t v bz, marshal_json k env je c t v = EOk bz -> (length bz <= 20 + n + jbulk m n v)%nat.
Proof. intros env je h m n c Hn Hg k t v bz. exact (marshal_json_short env je c (sane_run env h) m n Hn Hg k t v bz). Qed.

(** *** The program of Properties_Echo.v; all times have a text of 32 bytes. *)
Definition brief_je : jenv :=
  {| je_time := fun _ _ => EOk (quote (bs "2006-01-02T15:04:05.999999999Z")); je_untime := je_untime mail_je;
     je_float := fun _ _ => EOk (bs "0"); je_unfloat := je_unfloat mail_je; je_marshal := je_marshal mail_je; je_unmarshal := je_unmarshal mail_je |}.
Lemma mail_nogrow : repr_nogrow mail 6.
Proof.
  intros id r f v w. cbn [te_marshal mail]. destruct (id =? 2)%nat; [|discriminate]. intros H. injection H as <- <-.
  destruct v; try discriminate. intros H. apply EOk_inj in H. subst w. cbn. lia.
Qed.
Lemma mail_json_short : json_short mail brief_je 6 44.
Proof.
  split; [|split; [|split]].
  - intros id r f v w. cbn [te_marshal mail]. destruct (id =? 2)%nat; [|discriminate]. intros H. injection H as <- <-.
    destruct v; try discriminate. intros H. apply EOk_inj in H. subst w. cbn [jbulk length]. lia.
  - intros id b f v t. cbn [je_marshal brief_je mail_je]. destruct (id =? 3)%nat; [|discriminate]. intros H. injection H as <- <-.
    destruct v; try discriminate. intros H. apply EOk_inj in H. subst t. cbn [jbulk]. pose proof (quote_length s). lia.
  - intros s ns t H. apply EOk_inj in H. subst t. apply Nat.leb_le. vm_compute. reflexivity.
  - intros p z t H. apply EOk_inj in H. subst t. apply Nat.leb_le. vm_compute. reflexivity.
Qed.
Lemma mail_short_names : short_names mail (run mail new_codec mail_history) 44.
Proof.
  split.
  - intros t fs f o R Hi Hp.
    assert (X : forallb (fun f => match parse_field_options f with Some o => (2 + 6 * length (fo_json_name o) <=? 44)%nat | None => true end) fs = true).
    { destruct t as [| | | | | | | | |id]; try discriminate R. clear f o Hi Hp. unfold resolve, mail in R. cbn [te_def] in R.
      do 6 (destruct id as [|id]; [first [discriminate R|injection R as <-; vm_compute; reflexivity]|]). injection R as <-. reflexivity. }
    rewrite forallb_forall in X. specialize (X f Hi). rewrite Hp in X. apply Nat.leb_le in X. exact X.
  - intros t ci r Hi Hr.
    assert (X : forallb (fun p => match ci_reg (snd p) with Some r => (length (ri_name r) <=? 44)%nat | None => true end) (cd_types (run mail new_codec mail_history)) = true)
      by (vm_compute; reflexivity).
    rewrite forallb_forall in X. specialize (X _ Hi). cbn [snd] in X. rewrite Hr in X. apply Nat.leb_le in X. exact X.
Qed.
(** A message inside a message: 138 bytes, or 614 characters, where 1054 and 2608 are the most. *)
Definition reply : value := match jmail_value with VStruct l => VStruct (upd 12 (VPtr (Some jmail_value)) l) | v => v end.
Definition size_of (r : eres bytes) : option nat := match r with EOk b => Some (length b) | _ => None end.
Example C86_example : let c := run mail new_codec mail_history in
  wf_env mail /\ repr_nogrow mail 6 /\ short_names mail c 44 /\ json_short mail brief_je 6 44 /\
  size_of (marshal_bare 10 mail c (TPtr e_mail) (VPtr (Some reply))) = Some 138%nat /\ bulk 6 reply = 1054%nat /\
  size_of (marshal_json 10 mail brief_je c (TPtr e_mail) (VPtr (Some reply))) = Some 614%nat /\ jbulk 6 44 reply = 2608%nat.
Proof.
  intros c. split; [exact mail_wf|]. split; [exact mail_nogrow|]. split; [exact mail_short_names|]. split; [exact mail_json_short|].
  do 3 (split; [vm_compute; reflexivity|]). vm_compute. reflexivity.
Qed.

Print Assumptions C86_marshal_size.
Print Assumptions C86_json_size.
