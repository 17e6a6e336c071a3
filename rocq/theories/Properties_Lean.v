(** Property theorems: a message read and written again is no longer than it was. *)
From Coq Require Import ZArith String List Bool Lia.
From Coq Require Import ZifyBool ZifyNat.
From Verif Require Import Base Prims SpecWire PrimFacts Types Codec BinEnc BinDec Amino FuelFacts Registry SpecRegistry RegistryFacts Sane Typing DecSafe Sha256 Demo DemoFacts
  SpecNorm EncFacts RoundTrip TopFacts SpecSupported SupportedFacts Properties_Decode SpecLean LeanFacts.
Import ListNotations.
Local Open Scope Z_scope.

(** ** C87 *)

(** Whatever bytes Unmarshal accepts for a struct, and whatever was in the target before,
    Marshal writes no more bytes for what was read: skipped fields, numbers in more bytes
    than they need, prefixes with disambiguation bytes they do not need and elements and
    fields given though they are empty only ever make the message longer.
    Missing for the full statement: the types left out by [lean] (see the refuted
    statements below), and messages that are not structs or lists of structs. *)
Theorem C87_relay_partial : forall env h mem hol, wf_env env -> clean env new_codec h = true ->
  let c := run env new_codec h in lean env c mem hol ->
  forall fd k bz t v0 v bz', bytes_ok bz -> mem (deref_type t) = true -> payload env (deref_type t) = true -> struct_like env (deref_type t) = true ->
  unmarshal_bare fd env c bz t v0 = URet v None -> marshal_bare k env c t v = EOk bz' -> (length bz' <= length bz)%nat.
Proof.
  intros env h mem hol We Hc c Hl fd k bz t v0 v bz'.
  exact (relay_lean env We c (wf_history env h Hc) (sane_run env h) mem hol Hl fd k bz t v0 v bz').
Qed.

(** The same with length prefixes, which may also take more bytes than they need. *)
Theorem C87_relay_length_prefixed_partial : forall env h mem hol, wf_env env -> clean env new_codec h = true ->
  let c := run env new_codec h in lean env c mem hol ->
  forall fd k bz t v0 v bz', bytes_ok bz -> zlen bz < 2 ^ 63 ->
  mem (deref_type t) = true -> payload env (deref_type t) = true -> struct_like env (deref_type t) = true ->
  unmarshal_length_prefixed fd env c bz t v0 = URet v None -> marshal_length_prefixed k env c t v = EOk bz' -> (length bz' <= length bz)%nat.
Proof.
  intros env h mem hol We Hc c Hl fd k bz t v0 v bz'.
  exact (relay_lp_lean env We c (wf_history env h Hc) (sane_run env h) mem hol Hl fd k bz t v0 v bz').
Qed.

(** A message passed on from program to program never gets longer, be the types of the
    programs the same or not, as long as they are all of the set. *)
Inductive passed_on (env : tenv) (c : codec) (ok : gotype -> Prop) : bytes -> bytes -> Prop :=
| po_sent bz : passed_on env c ok bz bz
| po_hop bz bz1 bz2 fd k t v0 v : passed_on env c ok bz bz1 -> ok t -> bytes_ok bz1 ->
    unmarshal_bare fd env c bz1 t v0 = URet v None -> marshal_bare k env c t v = EOk bz2 -> passed_on env c ok bz bz2.
Theorem C87_hops_partial : forall env h mem hol, wf_env env -> clean env new_codec h = true ->
  let c := run env new_codec h in lean env c mem hol ->
  forall bz bz', passed_on env c (fun t => mem (deref_type t) = true /\ payload env (deref_type t) = true /\ struct_like env (deref_type t) = true) bz bz' ->
  (length bz' <= length bz)%nat.
Proof.
  intros env h mem hol We Hc c Hl bz bz' H. induction H as [|bz bz1 bz2 fd k t v0 v _ IH (H1 & H2 & H3) Hok Hu Hw]; [lia|].
  pose proof (C87_relay_partial env h mem hol We Hc Hl fd k bz1 t v0 v bz2 Hok H1 H2 H3 Hu Hw). lia.
Qed.

(** *** A program *)
Definition l_item := TNamed 0%nat.    (* struct { Name string; Port uint16; Ok bool } *)
Definition l_post := TNamed 1%nat.
Definition l_word := TNamed 2%nat.    (* string, with MarshalAmino to the string read backwards *)
Definition l_note := TNamed 3%nat.    (* struct { Sizes *[2]int; Score *float64 `amino:"unsafe"` } *)
Definition post_fields : list sfield :=
  [fld "Subject" TStr "" ""; fld "When" TTime "" ""; fld "From" (TPtr l_item) "" ""; fld "Body" (TIface 0%nat) "" "";
   fld "Parts" (TSlice (TIface 0%nat)) "" ""; fld "Box" (TPtr (TArray 2 TInt)) "" ""; fld "Blob" (TSlice TByte) "" "";
   fld "Cc" (TSlice (TPtr l_item)) "" ""; fld "Bcc" (TSlice l_item) "" ""; fld "Word" l_word "" ""; hidden "secret" TInt; fld "Up" (TPtr l_post) "" ""].
Definition word_marshal (v : value) : eres value := match v with VStr s => EOk (VStr (rev s)) | _ => EPanic "not a Word"%string end.
Definition word_unmarshal (_ r : value) : eres (value * option error) := match r with VStr s => EOk (VStr (rev s), None) | _ => EPanic "not a string"%string end.
(** Types that grow. *)
Definition g_float := TNamed 4%nat.   (* struct { X float64 `amino:"unsafe"` } *)
Definition g_hash := TNamed 5%nat.    (* struct { H [4]byte } *)
Definition g_when := TNamed 6%nat.    (* struct { T *time.Time } *)
Definition g_blobs := TNamed 7%nat.   (* struct { B [][]byte } *)
Definition g_zero := TNamed 8%nat.    (* struct { N int `amino:"write_empty"` } *)
Definition g_any := TNamed 9%nat.     (* struct { I Interface1 } *)
Definition post_impl (t : gotype) (i : ifid) : bool :=
  match i, t with
  | 0%nat, (TPtr (TNamed 0%nat) | TPtr (TNamed 3%nat) | TNamed 3%nat) => true
  | 1%nat, (TPtr (TNamed 3%nat) | TNamed 3%nat) => true
  | _, _ => false
  end.
Definition post : tenv :=
  {| te_def := fun id => match id with
                         | 0%nat => UStruct [fld "Name" TStr "" ""; fld "Port" (TPrim PUint16) "" ""; fld "Ok" (TPrim PBool) "" ""]
                         | 1%nat => UStruct post_fields
                         | 2%nat => UType TStr
                         | 3%nat => UStruct [fld "Sizes" (TPtr (TArray 2 TInt)) "" ""; fld "Score" (TPtr (TPrim PFloat64)) "" "unsafe"]
                         | 4%nat => UStruct [fld "X" (TPrim PFloat64) "" "unsafe"]
                         | 5%nat => UStruct [fld "H" (TArray 4 TByte) "" ""]
                         | 6%nat => UStruct [fld "T" (TPtr TTime) "" ""]
                         | 7%nat => UStruct [fld "B" (TSlice (TSlice TByte)) "" ""]
                         | 8%nat => UStruct [fld "N" TInt "" "write_empty"]
                         | 9%nat => UStruct [fld "I" (TIface 1%nat) "" ""]
                         | _ => UStruct []
                         end;
     te_zero := fun id => match id with
                          | 0%nat => VStruct [VStr []; VUint 0; VBool false]
                          | 1%nat => VStruct [VStr []; zero_time; VPtr None; VIface None; VSlice None; VPtr None; VSlice None; VSlice None; VSlice None;
                                              VStr []; VInt 0; VPtr None]
                          | 2%nat => VStr []
                          | 3%nat => VStruct [VPtr None; VPtr None]
                          | 4%nat => VStruct [VFloat 0]
                          | 5%nat => VStruct [VArr [VUint 0; VUint 0; VUint 0; VUint 0]]
                          | 6%nat => VStruct [VPtr None]
                          | 7%nat => VStruct [VSlice None]
                          | 8%nat => VStruct [VInt 0]
                          | 9%nat => VStruct [VIface None]
                          | _ => VStruct []
                          end;
     te_impl := post_impl;
     te_marshal := fun id => if (id =? 2)%nat then Some (MOk TStr word_marshal) else None;
     te_unmarshal := fun id => if (id =? 2)%nat then Some (UOk TStr word_unmarshal) else None;
     te_hash := sha256 |}.
Lemma post_wf : wf_env post.
Proof.
  split.
  - intros id. do 10 (destruct id as [|id]; [discriminate|]). discriminate.
  - intros id. do 10 (destruct id as [|id]; [reflexivity|]). reflexivity.
  - intros t [|[|i]] Hn; [| |discriminate]; destruct t as [| | | | | | | | |[|[|[|[|]]]]]; try contradiction; cbn; try discriminate; reflexivity.
  - intros t [|[|i]]; discriminate.
  - exact sha256_length.
  - exact sha256_ok.
Qed.
Definition post_history : list op :=
  [OIface 0%nat None; OIface 1%nat (Some {| io_prio := []; io_always := true |}); OConc (TPtr l_item) (bs "post/Item"); OConc l_note (bs "post/Note")].
Definition post_types : list gotype :=
  [l_item; l_post; l_word; l_note; TStr; TTime; TIface 0%nat; TInt; TPrim PUint16; TPrim PBool; TPrim PFloat64; TSlice (TIface 0%nat); TArray 2 TInt; TSlice TByte;
   TSlice (TPtr l_item); TSlice l_item].
Definition post_mem (t : gotype) : bool := existsb (gotype_eqb t) post_types.
Definition post_hollow : list gotype :=
  [l_item; l_word; TStr; TIface 0%nat; TInt; TPrim PUint16; TPrim PBool; TSlice (TIface 0%nat); TSlice TByte; TSlice (TPtr l_item); TSlice l_item].
Definition post_hol (t : gotype) : bool := existsb (gotype_eqb t) post_hollow.
Lemma post_lean : lean post (run post new_codec post_history) post_mem post_hol.
Proof.
  split; intros t H.
  - unfold post_mem in H. apply existsb_exists in H. destruct H as (t' & H & Et). apply gotype_eqb_eq in Et. subst t'.
    assert (W : lean_type post (run post new_codec post_history) post_mem post_hol l_word).
    { cbn [lean_type l_word te_unmarshal te_marshal post Nat.eqb]. split; [reflexivity|]. exists word_marshal. split; [reflexivity|].
      intros v w v' X. destruct w; try discriminate X. cbn in X. injection X as <-. split; [reflexivity|]. cbn. rewrite rev_involutive. reflexivity. }
    assert (I0 : lean_type post (run post new_codec post_history) post_mem post_hol (TIface 0%nat)).
    { cbn [lean_type lean_plain resolve]. split.
      - assert (X : forallb (fun ci => post_mem (ci_type ci) && payload post (ci_type ci)) (cd_concretes (run post new_codec post_history)) = true) by (vm_compute; reflexivity).
        rewrite forallb_forall in X. intros ci Hc. apply andb_true_iff, X, Hc.
      - assert (X : forallb (fun ii => if (ii_id ii =? 0)%nat then negb (ii_always ii) else true) (cd_ifaces (run post new_codec post_history)) = true) by (vm_compute; reflexivity).
        rewrite forallb_forall in X. intros ii Hc E. specialize (X ii Hc). rewrite E in X. apply negb_true_iff, X. }
    cbn [post_types In] in H.
    repeat (destruct H as [<-|H]; [first [exact W|exact I0|vm_compute; exact I|vm_compute; reflexivity|split; vm_compute; reflexivity]|]). destruct H.
  - unfold post_hol in H. apply existsb_exists in H. destruct H as (t' & H & Et). apply gotype_eqb_eq in Et. subst t'. cbn [post_hollow In] in H.
    repeat (destruct H as [<-|H]; [first [vm_compute; exact I|vm_compute; reflexivity]|]). destruct H.
Qed.
(** 42 bytes are read: a length in two bytes instead of one, disambiguation bytes that are
    not needed, an empty field, a nil element, an element with a field that is zero and a
    field of a later version.  Without them 30 bytes are written again. *)
Definition post_bytes : bytes :=
  [10; 130; 0; 104; 105;  18; 2; 8; 5;  26; 2; 16; 7;  34; 8; 0; 177; 99; 21; 208; 236; 35; 36] ++
  [58; 0;  66; 0;  66; 2; 24; 1;  74; 2; 16; 0;  82; 2; 97; 98;  160; 1; 5].
Definition post_bytes_again : bytes :=
  [10; 2; 104; 105;  18; 2; 8; 5;  26; 2; 16; 7;  34; 4; 208; 236; 35; 36;  66; 0;  66; 2; 24; 1;  74; 0;  82; 2; 97; 98].
Definition again (t : gotype) (bz : bytes) : eres bytes :=
  match unmarshal_bare 10 post (run post new_codec post_history) bz t (zero post t) with
  | URet v None => marshal_bare 10 post (run post new_codec post_history) t v
  | _ => EErr "not read"%string
  end.
Lemma again_reads t bz bz' : again t bz = EOk bz' -> let c := run post new_codec post_history in
  exists v, unmarshal_bare 10 post c bz t (zero post t) = URet v None /\ marshal_bare 10 post c t v = EOk bz'.
Proof. unfold again. destruct (unmarshal_bare _ _ _ _ _ _) as [v [e|]| |]; try discriminate. intros H. exists v. split; [reflexivity|exact H]. Qed.
Example C87_example : let c := run post new_codec post_history in
  wf_env post /\ clean post new_codec post_history = true /\ lean post c post_mem post_hol /\
  bytes_ok post_bytes /\ post_mem l_post = true /\ payload post l_post = true /\ struct_like post l_post = true /\
  again l_post post_bytes = EOk post_bytes_again /\ length post_bytes = 42%nat /\ length post_bytes_again = 30%nat.
Proof.
  intros c. split; [exact post_wf|]. split; [vm_compute; reflexivity|]. split; [exact post_lean|]. split; [unfold post_bytes; cbn [app]; repeat constructor; lia|].
  do 5 (split; [vm_compute; reflexivity|]). vm_compute. reflexivity.
Qed.
Definition again_length_prefixed (t : gotype) (bz : bytes) : eres bytes :=
  match unmarshal_length_prefixed 10 post (run post new_codec post_history) bz t (zero post t) with
  | URet v None => marshal_length_prefixed 10 post (run post new_codec post_history) t v
  | _ => EErr "not read"%string
  end.
Example C87_length_prefixed_example : again_length_prefixed l_post ([170; 0] ++ post_bytes) = EOk ([30] ++ post_bytes_again) /\ zlen ([170; 0] ++ post_bytes) < 2 ^ 63.
Proof. split; vm_compute; reflexivity. Qed.
Example C87_hops_example : let c := run post new_codec post_history in
  passed_on post c (fun t => post_mem (deref_type t) = true /\ payload post (deref_type t) = true /\ struct_like post (deref_type t) = true) post_bytes post_bytes_again.
Proof.
  assert (E : again l_post post_bytes = EOk post_bytes_again) by (vm_compute; reflexivity).
  destruct (again_reads _ _ _ E) as (v & H1 & H2). eapply (po_hop _ _ _ post_bytes post_bytes _ 10 10 l_post); [apply po_sent|split; [reflexivity|split; reflexivity]|unfold post_bytes; cbn [app]; repeat constructor; lia|exact H1|exact H2].
Qed.

(** *** Messages that grow *)

(** Nothing at all is read as a struct whose only field is a float, a byte array, a pointer
    to a time or has the tag write_empty; some bytes are written for it. *)
Theorem C87_absent_refuted : let c := run post new_codec post_history in
  clean post new_codec post_history = true /\ wf_env post /\
  forall t, In t [g_float; g_hash; g_when; g_zero] -> exists v bz',
  unmarshal_bare 10 post c [] t (zero post t) = URet v None /\ marshal_bare 10 post c t v = EOk bz' /\ (length (@nil Z) < length bz')%nat.
Proof.
  split; [vm_compute; reflexivity|]. split; [exact post_wf|].
  assert (G : forall t bz', again t [] = EOk bz' -> (0 < length bz')%nat -> exists v bz',
    unmarshal_bare 10 post (run post new_codec post_history) [] t (zero post t) = URet v None /\ marshal_bare 10 post (run post new_codec post_history) t v = EOk bz' /\ (length (@nil Z) < length bz')%nat).
  { intros t bz' H L. destruct (again_reads _ _ _ H) as (v & H1 & H2). exists v, bz'. split; [exact H1|]. split; [exact H2|exact L]. }
  intros t [<-|[<-|[<-|[<-|[]]]]].
  - apply (G _ [9; 0; 0; 0; 0; 0; 0; 0; 0]); [vm_compute; reflexivity|cbn; lia].
  - apply (G _ [10; 4; 0; 0; 0; 0]); [vm_compute; reflexivity|cbn; lia].
  - apply (G _ [10; 0]); [vm_compute; reflexivity|cbn; lia].
  - apply (G _ [8; 0]); [vm_compute; reflexivity|cbn; lia].
Qed.
(** A list of byte slices that ends with a key is read as if an empty one followed it. *)
Theorem C87_cut_entry_refuted : let c := run post new_codec post_history in exists v,
  unmarshal_bare 10 post c [10] g_blobs (zero post g_blobs) = URet v None /\ marshal_bare 10 post c g_blobs v = EOk [10; 0].
Proof. apply again_reads. vm_compute. reflexivity. Qed.
(** Disambiguation bytes are not needed to read, but AlwaysDisambiguate writes them. *)
Theorem C87_disambiguate_refuted : let c := run post new_codec post_history in exists v,
  unmarshal_bare 10 post c [10; 4; 208; 236; 35; 36] g_any (zero post g_any) = URet v None /\
  marshal_bare 10 post c g_any v = EOk [10; 8; 0; 177; 99; 21; 208; 236; 35; 36].
Proof. apply again_reads. vm_compute. reflexivity. Qed.

Print Assumptions C87_relay_partial.
Print Assumptions C87_relay_length_prefixed_partial.
Print Assumptions C87_hops_partial.
Print Assumptions C87_absent_refuted.
Print Assumptions C87_cut_entry_refuted.
Print Assumptions C87_disambiguate_refuted.
