(** Property theorems: whatever Unmarshal reads, Marshal can write. *)
From Coq Require Import ZArith String List Bool Lia.
From Coq Require Import ZifyBool ZifyNat.
From Verif Require Import Base Prims PrimFacts Types Codec BinEnc BinDec Amino FuelFacts Registry SpecRegistry RegistryFacts Sane Typing DecSafe Sha256 Demo DemoFacts
  SpecNorm EncFacts RoundTrip TopFacts SpecSupported SupportedFacts SpecWritable WritableFacts SturdyFacts SpecEcho EchoFacts Properties_Decode.
Import ListNotations.
Local Open Scope Z_scope.

(** ** C80 *)

(** Whatever bytes an Unmarshal call accepts, if the target's value could have been
    written before, the value read can be written: Marshal returns bytes for it,
    with and without length prefix, given enough stack.
    Missing for the full statement: the types left out by [sturdy] and [echoes] (see
    the refuted statements below), and targets that are pointer variables. *)
Theorem C80_can_write_partial : forall env h mem rank calm, wf_env env -> marshal_typed env -> clean env new_codec h = true ->
  let c := run env new_codec h in
  sturdy env mem rank -> echoes env c mem calm ->
  forall fd bz t v0 v, is_ptr t = false -> mem t = true -> calm t = true -> bytes_ok bz ->
  has_type env t v0 = true -> sendable c mem v0 = true ->
  unmarshal_bare fd env c bz t v0 = URet v None \/ unmarshal_length_prefixed fd env c bz t v0 = URet v None ->
  exists k bz', forall k', (k <= k')%nat -> marshal_bare k' env c t v = EOk bz' /\
    marshal_length_prefixed k' env c t v = EOk (encode_uvarint (zlen bz') ++ bz').
Proof.
  intros env h mem rank calm We Hm Hc c Hst Hec fd bz t v0 v Hp Hmem Hcalm Hok Ht Hsv H.
  assert (D : deref_type t = t) by (destruct t; try reflexivity; discriminate Hp).
  pose proof (wf_history env h Hc) as W. pose proof (sane_run env h) as Sa.
  assert (G : good env c mem t v).
  { destruct H as [H|H]; [eapply unmarshal_good in H|eapply unmarshal_lp_good in H]; try eassumption; try (rewrite D; assumption); split; assumption. }
  destruct (marshal_good env We c W Sa Hm mem calm rank Hst Hec t v v) as (k & bz' & Hk); try (rewrite D; assumption); try assumption.
  - apply (under_nonptr env v t); [apply G|exact Hp|exact We].
  - exists k, bz'. intros k' Hk'. rewrite (Hk k' Hk'). split; [reflexivity|]. unfold marshal_length_prefixed. rewrite (Hk k' Hk'). reflexivity.
Qed.

(** A new variable is such a target, and so is what was read before: a variable
    can be read into again and again, and written after each time. *)
Theorem C80_targets_partial : forall env h mem rank calm, wf_env env -> marshal_typed env -> clean env new_codec h = true ->
  let c := run env new_codec h in
  sturdy env mem rank -> echoes env c mem calm ->
  forall t, mem t = true -> is_ptr t = false ->
  has_type env t (zero env t) = true /\ sendable c mem (zero env t) = true /\
  forall fd bz v0 v, bytes_ok bz -> has_type env t v0 = true -> sendable c mem v0 = true ->
  unmarshal_bare fd env c bz t v0 = URet v None \/ unmarshal_length_prefixed fd env c bz t v0 = URet v None ->
  has_type env t v = true /\ sendable c mem v = true.
Proof.
  intros env h mem rank calm We Hm Hc c Hst Hec t Hmem Hp.
  assert (D : deref_type t = t) by (destruct t; try reflexivity; discriminate Hp).
  pose proof (wf_history env h Hc) as W. pose proof (sane_run env h) as Sa.
  split; [apply has_type_zero, We|]. split; [apply snd_zero, We|]. intros fd bz v0 v Hok Ht Hsv H.
  destruct H as [H|H]; [eapply unmarshal_good in H|eapply unmarshal_lp_good in H]; try eassumption; try (rewrite D; assumption); split; assumption.
Qed.

(** *** A program *)
Definition e_addr := TNamed 0%nat.    (* struct { Name string; Port uint16 } *)
Definition e_mail := TNamed 1%nat.
Definition e_mood := TNamed 2%nat.    (* int32, with MarshalAmino to string *)
Definition e_note := TNamed 3%nat.    (* string *)
Definition e_pair := TNamed 4%nat.    (* struct { Ends [2]*Addr `amino:"empty_elements"` } *)
Definition e_spot := TNamed 5%nat.    (* struct { At [2]float64 } *)
Definition mail_fields : list sfield :=
  [fld "Subject" TStr "" ""; fld "When" TTime "" ""; fld "From" (TPtr e_addr) "" ""; fld "Body" (TIface 0%nat) "" "";
   fld "Parts" (TSlice (TIface 0%nat)) "" ""; fld "Sizes" (TArray 2 TInt) "" ""; fld "Blob" (TSlice TByte) "" "";
   fld "Blobs" (TSlice (TSlice TByte)) "" ""; fld "Score" (TPrim PFloat64) "" "unsafe"; fld "Mood" e_mood "" "write_empty";
   fld "Cc" (TSlice (TPtr e_addr)) "" ""; hidden "secret" TInt; fld "Up" (TPtr e_mail) "" ""].
Definition mood_marshal (v : value) : eres value :=
  match v with VInt z => EOk (VStr [if z <? 0 then 45 else 43]) | _ => EPanic "not a Mood"%string end.
Definition mood_unmarshal (_ r : value) : eres (value * option error) :=
  match r with
  | VStr [] => EOk (VInt 0, None)
  | VStr [b] => EOk (VInt (if b =? 45 then -1 else 1), None)
  | VStr _ => EErr "no such mood"%string
  | _ => EPanic "not a string"%string
  end.
Definition mail_impl (t : gotype) (i : ifid) : bool :=
  match i with 0%nat => match t with TPtr (TNamed 0%nat) | TPtr (TNamed 3%nat) | TNamed 3%nat => true | _ => false end | _ => false end.
Definition mail : tenv :=
  {| te_def := fun id => match id with
                         | 0%nat => UStruct [fld "Name" TStr "" ""; fld "Port" (TPrim PUint16) "" ""]
                         | 1%nat => UStruct mail_fields
                         | 2%nat => UType (TPrim PInt32)
                         | 3%nat => UType TStr
                         | 4%nat => UStruct [fld "Ends" (TArray 2 (TPtr e_addr)) "" "empty_elements"]
                         | 5%nat => UStruct [fld "At" (TArray 2 (TPrim PFloat64)) "" ""]
                         | _ => UStruct []
                         end;
     te_zero := fun id => match id with
                          | 0%nat => VStruct [VStr []; VUint 0]
                          | 1%nat => VStruct [VStr []; zero_time; VPtr None; VIface None; VSlice None; VArr [VInt 0; VInt 0]; VSlice None; VSlice None;
                                              VFloat 0; VInt 0; VSlice None; VInt 0; VPtr None]
                          | 2%nat => VInt 0
                          | 3%nat => VStr []
                          | 4%nat => VStruct [VArr [VPtr None; VPtr None]]
                          | 5%nat => VStruct [VArr [VFloat 0; VFloat 0]]
                          | _ => VStruct []
                          end;
     te_impl := mail_impl;
     te_marshal := fun id => if (id =? 2)%nat then Some (MOk TStr mood_marshal) else None;
     te_unmarshal := fun id => if (id =? 2)%nat then Some (UOk TStr mood_unmarshal) else None;
     te_hash := sha256 |}.
Lemma mail_wf : wf_env mail.
Proof.
  split.
  - intros id. do 6 (destruct id as [|id]; [discriminate|]). discriminate.
  - intros id. do 6 (destruct id as [|id]; [reflexivity|]). reflexivity.
  - intros t [|i] Hn; [|discriminate]. destruct t as [| | | | | | | | |[|[|[|[|]]]]]; try contradiction; cbn; try discriminate; reflexivity.
  - intros t [|i]; discriminate.
  - exact sha256_length.
  - exact sha256_ok.
Qed.
Lemma mail_typed : marshal_typed mail.
Proof.
  intros id r f v w. cbn [te_marshal mail]. destruct (id =? 2)%nat; [|discriminate]. intros H. injection H as <- <-.
  destruct v; cbn; try discriminate. intros _ X. injection X as <-. destruct (z <? 0); reflexivity.
Qed.
Definition mail_history : list op := [OIface 0%nat None; OConc (TPtr e_addr) (bs "mail/Addr"); OConc e_note (bs "mail/Note")].
Definition mail_types : list gotype :=
  [e_addr; e_mail; e_mood; e_note; TStr; TTime; TIface 0%nat; TInt; TPrim PUint16; TPrim PFloat64; TSlice (TIface 0%nat); TArray 2 TInt; TSlice TByte;
   TSlice (TSlice TByte); TSlice (TPtr e_addr)].
Definition mail_mem (t : gotype) : bool := existsb (gotype_eqb t) mail_types.
Definition mail_rank (t : gotype) : nat := match t with TPrim PString => 0%nat | _ => 1%nat end.
Definition mail_calm (t : gotype) : bool := negb (gotype_eqb t (TPrim PFloat64)).
Lemma mail_sturdy : sturdy mail mail_mem mail_rank.
Proof.
  intros t H. unfold mail_mem in H. apply existsb_exists in H. destruct H as (t' & H & Et). apply gotype_eqb_eq in Et. subst t'.
  assert (T : sturdy_ok mail mail_mem mail_rank e_mood).
  { split; [reflexivity|]. split; [reflexivity|]. cbn [e_mood te_marshal te_unmarshal mail Nat.eqb]. split; [|reflexivity].
    split; [reflexivity|]. split; [reflexivity|]. split; [cbn; lia|]. intros v Ht.
    rewrite (has_type_prim mail e_mood PInt32 v eq_refl) in Ht. destruct v; try discriminate Ht. reflexivity. }
  assert (R : sturdy_plain mail mail_mem mail_rank (TIface 0%nat)).
  { unfold sturdy_plain. cbn [resolve]. intros ct _ _. unfold mail_rank. destruct (deref_type ct) as [[]| | | | | | | | |]; lia. }
  cbn [mail_types In] in H.
  repeat (destruct H as [<-|H]; [first [exact T|split; [vm_compute; reflexivity|]; split; [vm_compute; reflexivity|];
    first [vm_compute; reflexivity|vm_compute; exact I|split; [|exact I]; first [vm_compute; reflexivity|vm_compute; exact I]|exact R]]|]). destruct H.
Qed.
Lemma mail_echoes : echoes mail (run mail new_codec mail_history) mail_mem mail_calm.
Proof.
  set (c := run mail new_codec mail_history).
  intros t H. unfold mail_mem in H. apply existsb_exists in H. destruct H as (t' & H & Et). apply gotype_eqb_eq in Et. subst t'.
  assert (T : echo_ok mail c mail_mem mail_calm e_mood).
  { split; [vm_compute; reflexivity|]. cbn [e_mood te_marshal te_unmarshal mail Nat.eqb]. split.
    - split; [reflexivity|]. intros v Ht _. rewrite (has_type_prim mail e_mood PInt32 v eq_refl) in Ht. destruct v; try discriminate Ht.
      eexists. split; reflexivity.
    - split; [reflexivity|]. intros v w v' Ht _ Hw _ E. rewrite (has_type_prim mail TStr PString w eq_refl) in Hw. destruct w as [| | | |s| | | | | | | | | |]; try discriminate Hw.
      destruct s as [|b [|b2 s]]; try discriminate E; injection E as <-; (split; [|reflexivity]); [reflexivity|]. destruct (b =? 45); reflexivity. }
  assert (R : echo_plain mail c mail_mem mail_calm (TIface 0%nat)).
  { unfold echo_plain. cbn [resolve]. intros ct Hi _. cbn [te_impl mail mail_impl] in Hi.
    destruct ct as [| | | |[| | | | | | | | |[|[|[|[|]]]]]| | | | |[|[|[|[|]]]]]; try discriminate Hi; split; reflexivity. }
  assert (K : forallb (known mail c) mail_types = true) by (vm_compute; reflexivity).
  pose proof (proj1 (forallb_forall _ _) K t H) as Kt. clear K.
  cbn [mail_types In] in H.
  repeat (destruct H as [<-|H]; [first [exact T|split; [exact Kt|];
    first [exact R|exact I|reflexivity|split; [reflexivity|]; first [exact I|reflexivity|intros _; reflexivity]|split; split; first [reflexivity|intros _; reflexivity|exact I]]]|]). destruct H.
Qed.


Definition addr (n : bytes) (p : Z) : value := VStruct [VStr n; VUint p].
Definition mail_value : value :=
  VStruct [VStr [72; 105]; VTime 5 6; VPtr (Some (addr [65] 0)); VIface (Some (TPtr e_addr, VPtr (Some (addr [66] 25))));
           VSlice (Some [VIface (Some (TPtr e_addr, VPtr (Some (addr [67] 0))))]); VArr [VInt 300; VInt 0]; VSlice (Some [VUint 7]); VSlice (Some [VSlice (Some [VUint 1]); VSlice None]);
           VFloat 4607182418800017408; VInt (-1); VSlice (Some [VPtr None; VPtr (Some (addr [68] 1))]); VInt 0; VPtr None].
Definition mail_bytes : bytes :=
  [10; 2; 72; 105; 18; 4; 8; 5; 16; 6; 26; 3; 10; 1; 65; 34; 9; 246; 145; 136; 28; 10; 1; 66; 16; 25; 42; 7; 246; 145; 136; 28; 10; 1; 67;
   50; 3; 172; 2; 0; 58; 1; 7; 66; 1; 1; 66; 0; 73; 0; 0; 0; 0; 0; 0; 240; 63; 80; 1; 45; 90; 0; 90; 5; 10; 1; 68; 16; 1].
(** As [mail_bytes], with an over-long length, a field that could have been left
    out, and an unknown field. *)
Definition mail_other : bytes :=
  [10; 130; 0; 72; 105; 18; 4; 8; 5; 16; 6; 26; 5; 10; 1; 65; 16; 0; 34; 9; 246; 145; 136; 28; 10; 1; 66; 16; 25; 42; 7; 246; 145; 136; 28; 10; 1; 67;
   50; 3; 172; 2; 0; 58; 1; 7; 66; 1; 1; 66; 0; 73; 0; 0; 0; 0; 0; 0; 240; 63; 80; 1; 45; 90; 0; 90; 5; 10; 1; 68; 16; 1; 120; 1].
Example C80_example : let c := run mail new_codec mail_history in
  wf_env mail /\ marshal_typed mail /\ clean mail new_codec mail_history = true /\ sturdy mail mail_mem mail_rank /\ echoes mail c mail_mem mail_calm /\
  is_ptr e_mail = false /\ mail_mem e_mail = true /\ mail_calm e_mail = true /\ bytes_ok mail_other /\
  sendable c mail_mem mail_value = true /\ sendable c mail_mem (VTime 253402300800 0) = false /\
  sendable c mail_mem (VIface (Some (e_mood, VInt 0))) = false /\
  unmarshal_bare 10 mail c mail_other e_mail (zero mail e_mail) = URet mail_value None /\
  marshal_bare 10 mail c e_mail mail_value = EOk mail_bytes /\ mail_bytes <> mail_other /\
  unmarshal_bare 10 mail c mail_other e_mail (VStruct [VStr [1]; VTime 1 1; VPtr None; VIface None; VSlice None; VArr [VInt 5; VInt 0]; VSlice None; VSlice None;
                                                       VFloat 0; VInt 0; VSlice None; VInt 0; VPtr (Some (zero mail e_mail))]) = URet mail_value None.
Proof.
  intros c. split; [exact mail_wf|]. split; [exact mail_typed|]. split; [vm_compute; reflexivity|]. split; [exact mail_sturdy|]. split; [exact mail_echoes|].
  do 3 (split; [reflexivity|]). split; [unfold mail_other; repeat constructor; unfold byte_ok; lia|]. do 5 (split; [vm_compute; reflexivity|]). split; [discriminate|]. vm_compute. reflexivity.
Qed.

(** An array of struct pointers that is absent is read as nil pointers, which
    cannot be written under the empty_elements tag (binary-encode.go:355-363). *)
Theorem C80_empty_elements_refuted : exists env t v e, wf_env env /\ marshal_typed env /\
  unmarshal_bare 10 env new_codec [] t (zero env t) = URet v None /\
  forall k, (5 <= k)%nat -> marshal_bare k env new_codec t v = EErr e.
Proof.
  exists mail, e_pair, (VStruct [VArr [VPtr None; VPtr None]]), "nil struct pointers not supported when empty_elements field tag is set"%string.
  split; [exact mail_wf|]. split; [exact mail_typed|]. split; [vm_compute; reflexivity|].
  intros k Hk. do 5 (destruct k as [|k]; [lia|]). vm_compute. reflexivity.
Qed.
(** An array of floats that is absent is read as zeros, which cannot be written
    without the unsafe tag: arrays are not left out for being all zeros
    (reflect.go:105-126, binary-encode.go:176-187). *)
Theorem C80_floats_refuted : exists env t v e, wf_env env /\ marshal_typed env /\
  unmarshal_bare 10 env new_codec [] t (zero env t) = URet v None /\
  forall k, (5 <= k)%nat -> marshal_bare k env new_codec t v = EErr e.
Proof.
  exists mail, e_spot, (VStruct [VArr [VFloat 0; VFloat 0]]), "amino float* support requires unsafe"%string.
  split; [exact mail_wf|]. split; [exact mail_typed|]. split; [vm_compute; reflexivity|].
  intros k Hk. do 5 (destruct k as [|k]; [lia|]). vm_compute. reflexivity.
Qed.
Print Assumptions C80_can_write_partial.
Print Assumptions C80_targets_partial.
Print Assumptions C80_empty_elements_refuted.
Print Assumptions C80_floats_refuted.
