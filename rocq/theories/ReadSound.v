(** What the decoder reads is what SpecRead.v says. *)
From Coq Require Import ZArith String List Bool Lia.
From Coq Require Import ZifyBool ZifyNat.
From Verif Require Import Base Prims SpecWire PrimFacts PrimProps Types Codec BinEnc BinDec Amino FuelFacts DecFacts
  ValueInd Typing Registry SpecRegistry RegistryFacts Sane DecSafe SpecNorm EncFacts RoundTrip RegistryProps TopFacts SpecProto ProtoFacts
  SpecStruct SkipFacts SpecVersion VersionFacts SpecKin Careful KinFacts SpecFrame OrderFacts SpecRead ReadFacts ReadAccept.
Import ListNotations.
Local Open Scope Z_scope.

Definition good (bz : bytes) : Prop := bytes_ok bz /\ tidy bz.
Lemma good_app a b : good (a ++ b) -> good a /\ good b.
Proof. intros [H1 H2]. apply bytes_ok_app in H1. apply tidy_app in H2. unfold good. tauto. Qed.

Lemma key_sound bz kt m : good bz -> decode_field_key bz = DRet kt m None ->
  exists key rest, bz = key ++ rest /\ m = length key /\ leb128_min key (fst kt * 8 + snd kt) /\ 0 <= fst kt < 2 ^ 29 /\ 0 <= snd kt < 8.
Proof.
  intros [H1 H2] H. destruct kt as [num typ]. destruct (decode_field_key_some _ _ _ _ H1 H) as (Hu & Hn & Ht).
  destruct (uvarint_sound _ _ _ H1 H2 Hu) as (b & rest & -> & -> & Hb & _). exists b, rest. auto.
Qed.
Lemma skipn_here {A} (a b : list A) : skipn (length a) (a ++ b) = b.
Proof. apply skipn_app_exact. reflexivity. Qed.

Lemma enter_sound {A} (v0 : A) bz (k : bytes -> nat -> dres A) v n : good bz -> enter v0 false bz k = DRet v n None ->
  exists l b rest, bz = (l ++ b) ++ rest /\ leb128_min l (zlen b) /\ zlen b < 2 ^ 63 /\ good b /\ k b (length l) = DRet v n None.
Proof.
  intros Hg H. destruct (enter_ok v0 bz k v n H) as (b & m & E & H'). destruct (slice_sound _ _ _ (proj1 Hg) (proj2 Hg) E) as (l & rest & -> & -> & Hl & Hz).
  exists l, b, rest. apply good_app in Hg. destruct Hg as [Hg _]. apply good_app in Hg. rewrite (minimal_size l b) by (try lia; exact Hl). tauto.
Qed.

(** ** Unknown fields *)

Lemma consume_sound wt bz n : good bz -> consume_any wt bz = DRet tt n None ->
  exists q b rest, bz = b ++ rest /\ n = length b /\ payload_bytes q b /\ wire_type q = wt /\ match q with Pvarint u => u < 2 ^ 64 | _ => True end.
Proof.
  intros [Hok Ht] H. unfold consume_any in H. unfold Typ3Varint, Typ38Byte, Typ3ByteLength, Typ3_4Byte in H.
  destruct (Z.eqb_spec wt 0) as [W|W]; [|destruct (Z.eqb_spec wt 1) as [W1|W1]; [|destruct (Z.eqb_spec wt 2) as [W2|W2]; [|destruct (Z.eqb_spec wt 5) as [W5|W5]; [|discriminate H]]]];
    dstep H; destruct e; try discriminate H; apply slide_ok in H; destruct H as [_ H]; inversion H; subst.
  - destruct (varint_sound _ _ _ Hok Ht E) as (b & rest & u & -> & -> & Hb & Hu & _). exists (Pvarint u), b, rest. splits; auto; try lia. constructor. exact Hb.
  - destruct (fixed_sound _ _ _ _ _ _ Hok E) as (b & rest & -> & -> & Hl & Hb & _). exists (P64 (val256 b)), b, rest. splits; auto. constructor; assumption.
  - destruct (slice_sound _ _ _ Hok Ht E) as (l & rest & -> & -> & Hl & Hz). exists (Plen a), (l ++ a), rest. splits; auto. constructor; assumption.
  - destruct (fixed_sound _ _ _ _ _ _ Hok E) as (b & rest & -> & -> & Hl & Hb & _). exists (P32 (val256 b)), b, rest. splits; auto. constructor; assumption.
Qed.

Lemma rest_sound : forall k bz last n n', good bz -> 0 <= last -> consume_rest k bz last n = DRet tt n' None ->
  exists es, unknown (last + 1) es /\ message es bz /\ n' = (n + length bz)%nat.
Proof.
  induction k as [|k IH]; intros bz last n n' Hg Hla H.
  - destruct bz; [|discriminate H]. cbn in H. inversion H; subst. exists []. splits; [exact I|constructor|cbn; lia].
  - destruct bz as [|x bz]; [cbn in H; inversion H; subst; exists []; splits; [exact I|constructor|cbn; lia]|].
    cbn [consume_rest] in H. remember (x :: bz) as b0. clear Heqb0 x bz.
    dstep H. dstep H. cbv zeta in H. destruct e; [discriminate H|]. destruct (key_sound _ _ _ Hg E) as (key & rest & -> & -> & Hk & Hn & Ht). rewrite skipn_here in H.
    dstep H. dstep H. dstep H. destruct e; [discriminate H|]. apply good_app in Hg. destruct Hg as [_ Hg]. destruct a0.
    destruct (consume_sound _ _ _ Hg E1) as (q & p & rest2 & -> & -> & Hp & Hw & Hu). rewrite skipn_here in H. apply good_app in Hg. destruct Hg as [_ Hg].
    destruct (IH _ _ _ _ Hg (proj1 Hn) H) as (es & U & M & ->). exists ((fst a, q) :: es). splits.
    + cbn [unknown]. splits; auto; lia.
    + constructor; auto. rewrite Hw. exact Hk.
    + rewrite !app_length. lia.
Qed.
Lemma unknown_from lo num q es : unknown lo ((num, q) :: es) -> forall lo', lo' <= num -> unknown lo' ((num, q) :: es).
Proof. intros (H1 & H2 & H3) lo' L. cbn. splits; auto; lia. Qed.

Lemma cut_cons (cut : bool) num q es key p b : leb128_min key (num * 8 + wire_type q) -> payload_bytes q p -> message es (if cut then b ++ [0] else b) ->
  message ((num, q) :: es) (if cut then key ++ p ++ b ++ [0] else key ++ p ++ b).
Proof. destruct cut; intros; constructor; assumption. Qed.

Section Sound.
  Variable env : tenv.
  Hypothesis We : wf_env env.
  Variable c : codec.
  Hypothesis Hc : wf_codec env c.
  Hypothesis Hs : sane_codec env c.
  Variable mem : gotype -> bool.
  Hypothesis Hr : readable env c mem.

  Notation D k := (decode_reflect k env c).

  (** [b] at the start of [bz] is a payload [q]; or [bz] is empty and [q] is too. *)
  Definition starts (t : gotype) (q : payload) (bz : bytes) (n : nat) : Prop :=
    (exists b rest, bz = b ++ rest /\ n = length b /\ payload_bytes q b) \/ (bz = [] /\ n = 0%nat /\ q = Plen [] /\ byte_slice env t).
  Definition sound (rec : bytes -> tinfo -> gotype -> value -> fopts -> bool -> dres value) : Prop :=
    forall info t o bz v0 v n, minfo env c info t -> mem (deref_type t) = true -> base_of env t v0 = zero env (deref_type t) -> good bz ->
    (rec bz info t v0 o false = DRet v n None ->
       exists m q w, v = ptrs t w /\ direct t = true /\ reads env c (deref_type t) o m q w /\ type_wire env (deref_type t) o = Some (wire_type q) /\ starts (deref_type t) q bz n) /\
    (plainly_read env (deref_type t) -> (exists fs, resolve env (deref_type t) = RStruct fs) -> rec bz info t v0 o true = DRet v n None ->
       exists w, v = ptrs t w /\ reads env c (deref_type t) o true (Plen bz) w /\ n = length bz).

  Lemma gti_known t info : get_type_info env c t = EOk info -> known env c t = true.
  Proof. intros H. unfold known. rewrite H. reflexivity. Qed.

  Section Level.
    Variable rec : bytes -> tinfo -> gotype -> value -> fopts -> bool -> dres value.
    Hypothesis Hrec : sound rec.

    (** ** Packed elements *)

    Lemma packed_elem info e o bz v n : minfo env c info e -> mem (deref_type e) = true -> good bz -> delimited env e = false ->
      rec bz info e (zero env e) o false = DRet v n None ->
      exists m q w b rest, prefer_nil env e v = (if is_ptr e && defaultv w then VPtr None else ptrs e w) /\ direct e = true /\ reads env c (deref_type e) o m q w /\
        bz = b ++ rest /\ n = length b /\ payload_bytes q b.
    Proof.
      intros Hi Hm Hg Hdl H. destruct (Hrec info e o bz (zero env e) v n Hi Hm (base_zero _ _) Hg) as [S _].
      destruct (S H) as (m & q & w & -> & Hd & HR & Hw & [(b & rest & E1 & E2 & E3)|(_ & _ & -> & _)]).
      - exists m, q, w, b, rest. splits; auto. apply rebuild_prefer.
      - exfalso. exact (typ3_packed _ _ _ _ Hdl Hw eq_refl).
    Qed.

    Lemma slice_packed_sound info e o : minfo env c info e -> mem (deref_type e) = true -> delimited env e = false ->
      forall K bz n done l' n', good bz -> decode_slice_packed env rec K bz n info e o done = DRet l' n' None ->
      exists l, l' = done ++ l /\ packed_reads env c e o bz l /\ n' = (n + length bz)%nat.
    Proof.
      intros Hi Hm Hdl. induction K as [|K IH]; intros bz n done l' n' Hg H.
      - destruct bz; [|discriminate H]. cbn in H. inversion H; subst. exists []. rewrite app_nil_r. splits; [reflexivity|constructor|cbn; lia].
      - destruct bz as [|x bz]; [cbn in H; inversion H; subst; exists []; rewrite app_nil_r; splits; [reflexivity|constructor|cbn; lia]|].
        cbn [decode_slice_packed] in H. remember (x :: bz) as b0. clear Heqb0 x bz. dstep H. dstep H. destruct e0; [discriminate H|].
        destruct (packed_elem _ _ _ _ _ _ Hi Hm Hg Hdl E) as (mm & q & w & b & rest & Ew & Hd & HR & -> & -> & Hp). rewrite skipn_here in H.
        apply good_app in Hg. destruct Hg as [_ Hg]. destruct (IH _ _ _ _ _ Hg H) as (l & -> & HK & ->). rewrite Ew. eexists. rewrite <- app_assoc. splits; [reflexivity| |rewrite app_length; lia].
        econstructor; eassumption.
    Qed.
    Lemma array_packed_sound info e o : minfo env c info e -> mem (deref_type e) = true -> delimited env e = false ->
      forall j bz n done l' bz' n', good bz -> decode_array_packed env rec bz n info e o done (repeat (zero env e) j) = DRet (l', bz') n' None ->
      exists l b, l' = done ++ l /\ bz = b ++ bz' /\ length l = j /\ packed_reads env c e o b l /\ n' = (n + length b)%nat.
    Proof.
      intros Hi Hm Hdl. induction j as [|j IH]; intros bz n done l' bz' n' Hg H; cbn [repeat decode_array_packed] in H.
      - inversion H; subst. exists [], []. rewrite app_nil_r. splits; try reflexivity; [constructor|cbn; lia].
      - dstep H. dstep H. destruct e0; [discriminate H|].
        destruct (packed_elem _ _ _ _ _ _ Hi Hm Hg Hdl E) as (mm & q & w & b & rest & Ew & Hd & HR & -> & -> & Hp). rewrite skipn_here in H.
        apply good_app in Hg. destruct Hg as [_ Hg]. destruct (IH _ _ _ _ _ _ Hg H) as (l & b2 & -> & -> & <- & HK & ->). rewrite Ew.
        eexists (_ :: l), (b ++ b2). rewrite <- !app_assoc. splits; [reflexivity|reflexivity|reflexivity|econstructor; eassumption|rewrite app_length; lia].
    Qed.

    (** ** Entries *)

    (** One element after its key. *)
    Lemma entry_elem info e o bz v n : minfo env c info e -> mem (deref_type e) = true -> good bz -> delimited env e = true ->
      skip_empty env info e o bz = false -> rec bz info e (zero env e) (set_num 1 o) false = DRet v n None ->
      exists m w, v = ptrs e w /\ direct e = true /\
        ((exists b p rest, reads env c (deref_type e) (set_num 1 o) m (Plen b) w /\ bz = p ++ rest /\ n = length p /\ payload_bytes (Plen b) p /\
            (b <> [] \/ is_ptr e && is_struct env (deref_type e) && fo_empty_elements o = true)) \/
         (bz = [] /\ n = 0%nat /\ byte_slice env (deref_type e) /\ reads env c (deref_type e) (set_num 1 o) m (Plen []) w)).
    Proof.
      intros Hi Hm Hg Hdl Hse H. destruct (Hrec info e (set_num 1 o) bz (zero env e) v n Hi Hm (base_zero _ _) Hg) as [S _].
      destruct (S H) as (m & q & w & -> & Hd & HR & Hw & [(p & rest & E1 & E2 & E3)|(E1 & E2 & -> & E3)]); exists m, w; (split; [reflexivity|split; [exact Hd|]]).
      - left. pose proof (delimited_wire _ _ _ _ Hdl Hw) as W. destruct q as [u|u|b|u]; try discriminate W. exists b, p, rest. splits; auto.
        destruct b as [|x b]; [|left; discriminate]. right. apply empty_payload in E3. subst p bz. cbn [app skip_empty] in Hse.
        rewrite (minfo_type _ _ _ _ Hi) in Hse. apply negb_false_iff in Hse. exact Hse.
      - right. auto.
    Qed.

    (** Loops over entries. *)
    Lemma slice_unpacked_sound info e o : minfo env c info e -> mem (deref_type e) = true -> delimited env e = true -> 0 < fo_num o ->
      forall K bz n done l' n', good bz -> decode_slice_unpacked env rec K bz n info e o done = DRet l' n' None ->
      exists cut es l b rest, l' = done ++ l /\ bz = b ++ rest /\ n' = (n + length b)%nat /\ elems_read env c cut (fo_num o) e o es l /\
        message es (if cut then b ++ [0] else b) /\ (cut = true -> rest = []) /\ tail_key (fo_num o) rest.
    Proof.
      intros Hi Hm Hdl Hn0.
      assert (END : forall bz done n l' n', DRet done n None = DRet l' n' None -> tail_key (fo_num o) bz ->
        exists cut es l b rest, l' = done ++ l /\ bz = b ++ rest /\ n' = (n + length b)%nat /\ elems_read env c cut (fo_num o) e o es l /\
        message es (if cut then b ++ [0] else b) /\ (cut = true -> rest = []) /\ tail_key (fo_num o) rest).
      { intros bz done n l' n' H T. inversion H; subst. exists false, [], [], [], bz. rewrite app_nil_r. splits; try reflexivity; [cbn; lia|apply er_nil|constructor|discriminate|exact T]. }
      induction K as [|K IH]; intros bz n done l' n' Hg H.
      - destruct bz; [|discriminate H]. cbn in H. apply (END [] done n l' n' H). left. reflexivity.
      - destruct bz as [|x bz]; [cbn in H; apply (END [] done n l' n' H); left; reflexivity|].
        cbn [decode_slice_unpacked] in H. remember (x :: bz) as b0. clear Heqb0 x bz.
        dstep H. destruct (Z.ltb_spec (fst a) (fo_num o)); [discriminate H|]. destruct (Z.ltb_spec (fo_num o) (fst a)) as [Lt|Ge].
        { destruct e0; [apply key_err in E; lia|]. apply (END _ _ _ _ _ H). right. eauto. }
        assert (En : fst a = fo_num o) by lia. destruct (Z.eqb_spec (snd a) Typ3ByteLength) as [Et|]; [|discriminate H]. cbn [negb] in H.
        dstep H. cbv zeta in H. destruct e0; [discriminate H|]. destruct (key_sound _ _ _ Hg E) as (key & bz1 & -> & -> & Hk & Hn & _). rewrite skipn_here in H.
        rewrite Et, En in Hk. change Typ3ByteLength with (wire_type (Plen [])) in Hk. apply good_app in Hg. destruct Hg as [_ Hg].
        destruct (skip_empty env info e o bz1) eqn:Hse.
        + unfold skip_empty in Hse. destruct bz1 as [|y bz2]; [discriminate Hse|]. destruct (Z.eqb_spec y 0) as [->|Ny]; [|destruct y; try discriminate Hse; contradiction].
          apply negb_true_iff in Hse. rewrite (minfo_type _ _ _ _ Hi) in Hse. cbn [skipn] in H. rewrite <- (EncFacts.absent_eq env e) in H. apply (good_app [0] bz2) in Hg. destruct Hg as [_ Hg].
          destruct (IH _ _ _ _ _ Hg H) as (cut & es & l & b & rest & -> & -> & -> & HE & M & HC & T).
          exists cut, ((fo_num o, Plen []) :: es), (absent env e :: l), (key ++ [0] ++ b), rest. rewrite <- !app_assoc. splits; auto.
          * rewrite !app_length. cbn [length]. lia.
          * constructor; assumption.
          * apply (cut_cons cut _ (Plen []) es key [0] b); [exact Hk|apply (pb_len [0] []); exact leb_zero|exact M].
        + dstep H. dstep H. destruct e0; [discriminate H|].
          destruct (entry_elem _ _ _ _ _ _ Hi Hm Hg Hdl Hse E0) as (mm & w & -> & Hd & [(b1 & p & rest1 & HR & -> & -> & Hp & Hb)|(-> & -> & HB & HR)]).
          * rewrite skipn_here in H. apply good_app in Hg. destruct Hg as [_ Hg].
            destruct (IH _ _ _ _ _ Hg H) as (cut & es & l & b & rest & -> & -> & -> & HE & M & HC & T).
            exists cut, ((fo_num o, Plen b1) :: es), (ptrs e w :: l), (key ++ p ++ b), rest. rewrite <- !app_assoc. splits; auto.
            -- rewrite !app_length. lia.
            -- econstructor; eassumption.
            -- apply cut_cons; assumption.
          * cbn [skipn] in H. assert (H' : DRet (done ++ [ptrs e w]) (n + length key + 0) None = DRet l' n' None) by (destruct K; exact H). inversion H'; subst.
            exists true, [(fo_num o, Plen [])], [ptrs e w], key, []. rewrite app_nil_r. splits; auto; [apply er_cut with (m := mm); assumption| |left; reflexivity].
            change (key ++ [0]) with (key ++ [0] ++ []). constructor; [exact Hk|apply (pb_len [0] []); exact leb_zero|constructor].
    Qed.
    Lemma array_unpacked_sound info e o : minfo env c info e -> mem (deref_type e) = true -> delimited env e = true -> 0 < fo_num o ->
      forall j bz n done l' rest n', good bz -> decode_array_unpacked env rec bz n info e o done (repeat (zero env e) j) = DRet (l', rest) n' None ->
      exists cut es l b, l' = done ++ l /\ bz = b ++ rest /\ n' = (n + length b)%nat /\ length l = j /\ elems_read env c cut (fo_num o) e o es l /\
        message es (if cut then b ++ [0] else b) /\ (cut = true -> rest = []).
    Proof.
      intros Hi Hm Hdl Hn0. induction j as [|j IH]; intros bz n done l' rest n' Hg H; cbn [repeat decode_array_unpacked] in H.
      - inversion H; subst. exists false, [], [], []. rewrite app_nil_r. splits; try reflexivity; [cbn; lia|apply er_nil|constructor|discriminate].
      - dstep H. destruct (Z.eqb_spec (fst a) (fo_num o)) as [En|]; [|discriminate H]. cbn [negb] in H.
        destruct (Z.eqb_spec (snd a) Typ3ByteLength) as [Et|]; [|discriminate H]. cbn [negb] in H.
        dstep H. cbv zeta in H. destruct e0; [discriminate H|]. destruct (key_sound _ _ _ Hg E) as (key & bz1 & -> & -> & Hk & Hn & _). rewrite skipn_here in H.
        rewrite Et, En in Hk. change Typ3ByteLength with (wire_type (Plen [])) in Hk. apply good_app in Hg. destruct Hg as [_ Hg].
        destruct (skip_empty env info e o bz1) eqn:Hse.
        + unfold skip_empty in Hse. destruct bz1 as [|y bz2]; [discriminate Hse|]. destruct (Z.eqb_spec y 0) as [->|Ny]; [|destruct y; try discriminate Hse; contradiction].
          apply negb_true_iff in Hse. rewrite (minfo_type _ _ _ _ Hi) in Hse. cbn [skipn] in H. rewrite <- (EncFacts.absent_eq env e) in H. apply (good_app [0] bz2) in Hg. destruct Hg as [_ Hg].
          destruct (IH _ _ _ _ _ _ Hg H) as (cut & es & l & b & -> & -> & -> & <- & HE & M & HC).
          exists cut, ((fo_num o, Plen []) :: es), (absent env e :: l), (key ++ [0] ++ b). rewrite <- !app_assoc. splits; auto.
          * rewrite !app_length. cbn [length]. lia.
          * constructor; assumption.
          * apply (cut_cons cut _ (Plen []) es key [0] b); [exact Hk|apply (pb_len [0] []); exact leb_zero|exact M].
        + dstep H. dstep H. destruct e0; [discriminate H|].
          destruct (entry_elem _ _ _ _ _ _ Hi Hm Hg Hdl Hse E0) as (mm & w & -> & Hd & [(b1 & p & rest1 & HR & -> & -> & Hp & Hb)|(-> & -> & HB & HR)]).
          * rewrite skipn_here in H. apply good_app in Hg. destruct Hg as [_ Hg].
            destruct (IH _ _ _ _ _ _ Hg H) as (cut & es & l & b & -> & -> & -> & <- & HE & M & HC).
            exists cut, ((fo_num o, Plen b1) :: es), (ptrs e w :: l), (key ++ p ++ b). rewrite <- !app_assoc. splits; auto.
            -- rewrite !app_length. lia.
            -- econstructor; eassumption.
            -- apply cut_cons; assumption.
          * cbn [skipn] in H. destruct j as [|j]; cbn [repeat decode_array_unpacked] in H.
            -- inversion H; subst. exists true, [(fo_num o, Plen [])], [ptrs e w], key. splits; auto; [apply er_cut with (m := mm); assumption|].
               change (key ++ [0]) with (key ++ [0] ++ []). constructor; [exact Hk|apply (pb_len [0] []); exact leb_zero|constructor].
            -- exfalso. dstep H. destruct e0; [|discriminate E1]. apply key_err in E1. destruct (Z.eqb_spec (fst a0) (fo_num o)); [lia|]. discriminate H.
    Qed.
  End Level.

  (** A list field with one entry per element. *)
  Definition listed (rec : bytes -> tinfo -> gotype -> value -> fopts -> bool -> dres value) : Prop :=
    forall info t e o bz v n, minfo env c info t -> plainly_read env t -> list_of env t e -> is_uint8 env e = false -> delimited env e = true ->
    mem (deref_type e) = true -> 0 < fo_num o -> good bz -> rec bz info t (zero env t) o true = DRet v n None ->
    exists cut es l b rest, bz = b ++ rest /\ n = length b /\ known env c e = true /\ elems_read env c cut (fo_num o) e o es l /\ filled env t l v /\
      message es (if cut then b ++ [0] else b) /\ (cut = true -> rest = []) /\ tail_key (fo_num o) rest.

  Lemma list_nonptr t e : list_of env t e -> deref_type t = t.
  Proof. intros H. apply deref_nonptr. destruct t; try reflexivity. destruct H as [H|[n H]]; discriminate H. Qed.
  Lemma fill_slice t e l : resolve env t = RSlice e -> filled env t l (mk_slice l).
  Proof. intros H. destruct l; [apply fi_empty with (e := e); auto|apply fi_slice with (e := e); auto; discriminate]. Qed.

  Lemma listed_step k : sound (D k) -> listed (D (S k)).
  Proof.
    intros Hrec info t e o bz v n Hi Hp Hl Hu Hdl Hm Hn0 Hg H. pose proof (list_nonptr _ _ Hl) as Hd.
    rewrite plain_switch in H by assumption. unfold decode_switch in H. rewrite (minfo_type _ _ _ _ Hi), Hd in H. destruct Hl as [Hl|[nn Hl]]; rewrite Hl, Hu in H.
    - unfold decode_slice in H. rewrite Hu in H. dstep H. pose proof (gti_minfo _ _ _ _ Hs E) as Hie. cbn [enter] in H. dstep H.
      rewrite (minfo_type _ _ _ _ Hie), (typ3_delimited _ _ _ Hdl) in E0. apply EOk_inj in E0. subst a0. cbn [Z.eqb Typ3ByteLength Pos.eqb negb] in H. dstep H. destruct e0; [discriminate H|]. inversion H; subst.
      destruct (slice_unpacked_sound _ Hrec _ _ _ Hie Hm Hdl Hn0 _ _ _ _ _ _ Hg E0) as (cut & es & l & b & rest & -> & -> & -> & HE & M & HC & T).
      exists cut, es, l, b, rest. splits; auto; [eapply gti_known; eassumption|eapply fill_slice; eassumption].
    - unfold decode_array in H. rewrite Hu in H. rewrite (zero_array _ _ _ _ We Hl) in H. dstep H. pose proof (gti_minfo _ _ _ _ Hs E) as Hie. cbn [enter] in H. dstep H.
      rewrite (minfo_type _ _ _ _ Hie), (typ3_delimited _ _ _ Hdl) in E0. apply EOk_inj in E0. subst a0. cbn [Z.eqb Typ3ByteLength Pos.eqb negb] in H. dstep H. destruct a0 as [l' bz']. destruct e0; [discriminate H|].
      assert (Hv : v = VArr l' /\ n = m /\ tail_key (fo_num o) bz').
      { destruct bz' as [|y z]; [inversion H; splits; auto; left; reflexivity|]. dstep H. destruct e0; [discriminate H|]. destruct (Z.leb_spec (fst a0) (fo_num o)); [discriminate H|].
        inversion H. splits; auto. right. eauto. }
      destruct Hv as (-> & -> & T).
      destruct (array_unpacked_sound _ Hrec _ _ _ Hie Hm Hdl Hn0 _ _ _ _ _ _ _ Hg E0) as (cut & es & l & b & -> & -> & -> & Ll & HE & M & HC).
      exists cut, es, l, b, bz'. splits; auto; [eapply gti_known; eassumption|]. cbn [app]. apply fi_array with (e := e). rewrite Ll. exact Hl.
  Qed.

  (** ** Structs *)

  Section Fields.
    Variable rec : bytes -> tinfo -> gotype -> value -> fopts -> bool -> dres value.
    Hypothesis Hrec : sound rec.
    Hypothesis Hlist : listed rec.

    Lemma no_entries cut num fs es l : fields_read env c cut num fs es l -> 1 <= num -> message es (if cut then [0] else []) -> es = [] /\ cut = false.
    Proof.
      intros H L M. destruct (read_numbers env c) as (_ & _ & _ & N). destruct (N _ _ _ _ _ H) as [N1 N2]. destruct cut.
      - exfalso. specialize (N2 eq_refl). destruct es as [|[a q] es]; [contradiction|]. inversion N1; subst. cbn [fst] in *.
        apply message_inv in M. destruct M as (key & p & b & E & K & P & _). pose proof (payload_nonnil _ _ P). pose proof (leb_nonnil _ _ K).
        destruct key as [|x key]; [contradiction|]. destruct key; [|destruct p; [contradiction|discriminate E]]. destruct p; [contradiction|discriminate E].
      - split; [|reflexivity]. destruct es; [reflexivity|]. apply message_nonnil in M. contradiction.
    Qed.

    Definition at_field (num last : Z) (bz : bytes) : Prop := 0 <= last < num /\ (last = num - 1 \/ tail_key (num - 1) bz).

    Lemma field_sound num f fs o fi donel todo bz last n l' bz' last' n' : field_opts num f = Some o -> readable_fields env mem num (f :: fs) = true ->
      fi_type fi = sf_type f -> fi_unpacked fi = entries env (sf_type f) -> fi_opts fi = o -> length donel = fi_index fi -> good bz -> at_field num last bz ->
      decode_field env c rec fi (donel ++ zero env (sf_type f) :: todo) bz last n = DRet (l', bz', last') n' None ->
      exists b v, bz = b ++ bz' /\ n' = (n + length b)%nat /\ l' = donel ++ v :: todo /\ at_field (num + 1) last' bz' /\
        forall cut es l, fields_read env c cut (num + 1) fs es l -> message es (if cut then bz' ++ [0] else bz') ->
          exists cut' es', fields_read env c cut' num (f :: fs) es' (v :: l) /\ message es' (if cut' then bz ++ [0] else bz).
    Proof.
      intros Ho Hrf Hty Hup Hopt Hlen Hg [Hla Htk] H. cbn [readable_fields] in Hrf. rewrite Ho in Hrf. apply andb_true_iff in Hrf. destruct Hrf as [Hrf _]. apply andb_true_iff in Hrf. destruct Hrf as [Hlt Hrf].
      apply Z.ltb_lt in Hlt.
      assert (Eo : fo_num o = num). { unfold field_opts in Ho. destruct (sf_exported f); [|discriminate]. destruct (parse_field_options f) as [o'|]; [|discriminate]. inversion Ho. reflexivity. }
      unfold decode_field in H. rewrite Hty, Hup, Hopt in H. dstep H. rename a into info. pose proof (gti_minfo _ _ _ _ Hs E) as Hi. pose proof (gti_known _ _ E) as Hk.
      destruct bz as [|x bz].
      { rewrite <- Hlen, upd_here, <- (EncFacts.absent_eq env (sf_type f)) in H. inversion H; subst l' bz' last' n'. exists [], (absent env (sf_type f)). splits; auto.
        - split; [lia|right; left; reflexivity].
        - intros cut es l HF M. exists cut, es. split; [|exact M]. cbn [app] in M. destruct (no_entries _ _ _ _ _ HF ltac:(lia) M) as [-> ->]. eapply fr_absent; eauto. }
      assert (NN : x :: bz <> []) by discriminate. remember (x :: bz) as b0. clear Heqb0 x bz. rename b0 into bz. destruct (entries env (sf_type f)) eqn:He.
      - (* entries *)
        apply andb_true_iff in Hrf. destruct Hrf as [Hpl Hme].
        assert (Hp : plainly_read env (sf_type f)). { intros id Ei. rewrite Ei in Hpl. destruct (te_unmarshal env id); [discriminate|reflexivity]. }
        assert (Ex : exists e, list_of env (sf_type f) e /\ delimited env e = true /\ is_uint8 env e = false /\ mem (deref_type e) = true).
        { unfold entries in He. destruct (resolve env (sf_type f)) eqn:Er; try discriminate He; (eexists; split; [unfold list_of; eauto|]; destruct (is_uint8 env _); try discriminate He; auto). }
        destruct Ex as (e & Hl & Hdl & Hu & Hm). dstep H. dstep H. inversion H; subst l' last' n' e0. rewrite <- Hlen, nth_mid in E0. rewrite <- Hlen, upd_here in *.
        destruct (Hlist info (sf_type f) e o bz a m Hi Hp Hl Hu Hdl Hm ltac:(lia) Hg E0) as (cut' & es' & vs & b & rest & -> & -> & Hke & HE & Hf & M & HC & T).
        rewrite skipn_here in *. subst bz'. exists b, a. splits; auto.
        + rewrite Eo in T. split; [lia|right]. replace (num + 1 - 1) with num by lia. exact T.
        + intros cut es l HF M2. exists (cut || cut'), (es' ++ es). rewrite Eo in HE. destruct (read_numbers env c) as (_ & _ & N3 & _). destruct (N3 _ _ _ _ _ _ HE) as [_ Ne].
          assert (CE : cut' = true -> es = [] /\ cut = false). { intros X. specialize (HC X). subst rest. apply (no_entries _ _ _ _ _ HF ltac:(lia) M2). }
          split.
          * eapply fr_list; eauto; [|intros X; apply CE; exact X]. destruct es' as [|]; [|left; discriminate]. right. destruct cut'; [exfalso; apply Ne; reflexivity|].
            apply message_end in M. subst b. destruct es; [|discriminate]. apply message_end in M2. destruct cut; [destruct rest; discriminate|]. subst rest. contradiction.
          * destruct cut'.
            -- destruct (CE eq_refl) as [-> ->]. rewrite (HC eq_refl), !app_nil_r. exact M.
            -- rewrite orb_false_r. destruct cut; rewrite <- ?app_assoc; apply message_app; assumption.
      - (* one entry *)
        destruct bz as [|x bz]; [contradiction|]. remember (x :: bz) as b0. clear Heqb0 x bz. rename b0 into bz.
        dstep H. destruct a as [fnum typ]. rewrite Eo in H. destruct (Z.ltb_spec num fnum) as [Lt|Ge].
        { destruct e as [e|]; [apply key_err in E0; cbn [fst] in E0; lia|]. rewrite <- Hlen, upd_here, <- (EncFacts.absent_eq env (sf_type f)) in H. inversion H; subst l' bz' last' n'.
          exists [], (absent env (sf_type f)). splits; auto.
          - split; [lia|right]. replace (num + 1 - 1) with num by lia. right. eauto.
          - intros cut es l HF M. exists cut, es. split; [|exact M]. eapply fr_absent; eauto. }
        dstep H. dstep H. cbv zeta in H. destruct e; [discriminate H|]. destruct (Z.eqb_spec num fnum) as [En|]; [|discriminate H]. cbn [negb] in H. subst fnum.
        destruct (key_sound _ _ _ Hg E0) as (key & bz1 & -> & -> & Kk & _ & _). cbn [fst snd] in Kk. rewrite skipn_here in H. dstep H. rename a into tw.
        destruct (Z.eqb_spec typ tw) as [<-|]; [|discriminate H]. cbn [negb] in H. dstep H. dstep H. inversion H; subst l' last' n' e. rewrite <- Hlen, nth_mid in E3. rewrite <- Hlen, upd_here in *.
        apply good_app in Hg. destruct Hg as [_ Hg]. rewrite (minfo_type _ _ _ _ Hi) in E2.
        destruct (Hrec info (sf_type f) o bz1 (zero env (sf_type f)) a m Hi Hrf (base_zero _ _) Hg) as [S _].
        destruct (S E3) as (mm & q & w & -> & Hd & HR & Hw & St). pose proof (type_wire_typ3 _ _ _ _ _ E2 Hw) as Etyp. rewrite Etyp in Kk.
        destruct St as [(p & rest & -> & -> & Hp)|(-> & -> & -> & HB)].
        + rewrite skipn_here in *. subst bz'. exists (key ++ p), (ptrs (sf_type f) w). rewrite <- app_assoc. splits; auto.
          * rewrite app_length. lia.
          * split; [lia|left; lia].
          * intros cut es l HF M. exists cut, ((num, q) :: es). split; [eapply fr_one; eauto|]. destruct cut; rewrite <- ?app_assoc; constructor; assumption.
        + cbn [skipn] in *. subst bz'. exists key, (ptrs (sf_type f) w). splits; auto.
          * split; [lia|left; lia].
          * intros cut es l HF M. destruct (no_entries _ _ _ _ _ HF ltac:(lia) M) as [-> ->]. exists true, [(num, Plen [])]. split; [eapply fr_cut; eauto|].
            rewrite app_nil_r. change (key ++ [0]) with (key ++ [0] ++ []). constructor; [exact Kk|apply (pb_len [0] []); exact leb_zero|constructor].
    Qed.

    Lemma fields_sound : forall fs num numn i infos donel bz last n l' bz' last' n' nend, num = Z.of_nat numn + 1 -> readable_fields env mem num fs = true ->
      parse_fields env fs i numn = EOk infos -> length donel = i -> good bz -> at_field num last bz ->
      decode_fields env c rec infos (donel ++ map (fun f => zero env (sf_type f)) fs) bz last n = DRet (l', bz', last') n' None ->
      consume_rest (length bz') bz' last' n' = DRet tt nend None ->
      exists cut es l, l' = donel ++ l /\ fields_read env c cut num fs es l /\ message es (if cut then bz ++ [0] else bz) /\ nend = (n + length bz)%nat.
    Proof.
      induction fs as [|f fs IH]; intros num numn i infos donel bz last n l' bz' last' n' nend Hn Hrf Hp Hl Hg Ha H HC.
      - cbn [parse_fields] in Hp. apply EOk_inj in Hp. subst infos. cbn [decode_fields map] in H. inversion H; subst l' bz' last' n'. destruct Ha as [Hla Htk].
        destruct (rest_sound _ _ _ _ _ Hg (proj1 Hla) HC) as (es & U & M & ->). exists false, es, []. splits; auto. apply fr_nil.
        destruct es as [|[a q] es]; [exact I|]. apply unknown_from with (1 := U). destruct Htk as [->|[->|(kt & m & Ek & Lk)]].
        + destruct U as [U _]. lia.
        + apply message_nonnil in M. contradiction.
        + destruct U as [U _]. apply message_inv in M. destruct M as (key & p & b & -> & K & _). rewrite (key_reads key a q (p ++ b) K) in Ek by lia. inversion Ek; subst. cbn [fst] in Lk. lia.
      - pose proof Hrf as Hrf0. cbn [readable_fields] in Hrf. apply parse_step in Hp. rewrite <- Hn in Hp. destruct (field_opts num f) as [o|] eqn:Ho.
        + destruct Hp as (fi & rest & -> & Hix & Hty & Hup & Hopt & _ & Hp). apply andb_true_iff in Hrf. destruct Hrf as [Hrf1 Hrf]. apply andb_true_iff in Hrf1. destruct Hrf1 as [Hlt _]. apply Z.ltb_lt in Hlt.
          assert (Eo' : fi_opts fi = o).
          { rewrite Hopt. unfold u32, uwrap. rewrite Z.mod_small by lia. unfold field_opts in Ho. destruct (sf_exported f); [|discriminate].
            destruct (parse_field_options f) as [o'|]; [|discriminate]. inversion Ho. reflexivity. }
          cbn [decode_fields map] in H. dstep H. destruct e; [discriminate H|]. destruct a as [[l1 bz1] last1].
          destruct (field_sound num f fs o fi donel _ bz last n l1 bz1 last1 _ Ho Hrf0 Hty Hup Eo' ltac:(lia) Hg Ha E) as (b & v & -> & -> & -> & Ha1 & HF).
          apply good_app in Hg. destruct Hg as [_ Hg]. replace (donel ++ v :: map (fun f => zero env (sf_type f)) fs) with ((donel ++ [v]) ++ map (fun f => zero env (sf_type f)) fs) in H by (rewrite <- app_assoc; reflexivity).
          destruct (IH (num + 1) (S numn) (S i) rest (donel ++ [v]) bz1 last1 _ l' bz' last' n' nend ltac:(lia) Hrf Hp ltac:(rewrite app_length; cbn; lia) Hg Ha1 H HC) as (cut & es & l & -> & F & M & ->).
          destruct (HF _ _ _ F M) as (cut' & es' & F' & M'). exists cut', es', (v :: l). rewrite <- app_assoc. splits; auto. rewrite app_length. lia.
        + cbn [map] in H. replace (donel ++ zero env (sf_type f) :: map (fun f => zero env (sf_type f)) fs) with ((donel ++ [zero env (sf_type f)]) ++ map (fun f => zero env (sf_type f)) fs) in H by (rewrite <- app_assoc; reflexivity).
          destruct (IH num numn (S i) infos (donel ++ [zero env (sf_type f)]) bz last _ l' bz' last' n' nend Hn Hrf Hp ltac:(rewrite app_length; cbn; lia) Hg Ha H HC) as (cut & es & l & -> & F & M & ->).
          exists cut, es, (zero env (sf_type f) :: l). rewrite <- app_assoc. splits; auto. apply fr_hidden; assumption.
    Qed.

    Lemma struct_sound t fs ci o bz v n : minfo env c (TIConc ci) t -> deref_type t = t -> plainly_read env t -> mem t = true -> resolve env t = RStruct fs -> good bz ->
      (decode_struct env c rec bz ci (zero env t) false = DRet v n None ->
        exists b p rest, reads env c t o true (Plen b) v /\ bz = p ++ rest /\ n = length p /\ payload_bytes (Plen b) p) /\
      (decode_struct env c rec bz ci (zero env t) true = DRet v n None -> reads env c t o true (Plen bz) v /\ n = length bz).
    Proof.
      intros [Hct Hok] Hd Hp Hm Er Hg. rewrite Hd in Hct. pose proof (info_ok_parts _ _ Hok) as (_ & Hpf & _). unfold parse_struct_info in Hpf. rewrite Hct, Er in Hpf.
      pose proof (proj2 (proj2 (Hr t Hm)) Hp) as Hrd. rewrite Er in Hrd.
      assert (B : forall b n0, good b -> match resolve env (ci_type ci), zero env t with
        | RTime, _ => dbind (decode_time b) (fun t' n e => slide b n (fun _ => match e with Some e => DRet (zero env t) (n0 + n)%nat (Some e) | None => DRet (VTime (fst t') (snd t')) (n0 + n)%nat None end))
        | RStruct _, VStruct l0 => dbind (decode_fields env c rec (ci_fields ci) l0 b 0 n0) (fun st n e => let '(l, bz', last) := st in
            match e with Some e => DRet (VStruct l) n (Some e) | None => dbind (consume_rest (length bz') bz' last n) (fun _ n e => DRet (VStruct l) n e) end)
        | _, _ => DPanic "reflect: call on wrong kind"%string end = DRet v n None -> reads env c t o true (Plen b) v /\ n = (n0 + length b)%nat).
      { intros b n0 Hgb H. rewrite Hct, Er, (zero_struct _ _ _ We Er) in H. dstep H. destruct a as [[l bz'] last]. destruct e; [discriminate H|]. dstep H. inversion H; subst v n e. destruct a.
        destruct (fields_sound fs 1 0%nat 0%nat (ci_fields ci) [] b 0 n0 l bz' last _ _ eq_refl Hrd Hpf eq_refl Hgb ltac:(split; [lia|left; lia]) E E0) as (cut & es & l2 & -> & F & M & ->).
        split; [|reflexivity]. eapply r_struct; eassumption. }
      split; intros H.
      - unfold decode_struct in H. apply enter_sound in H; [|exact Hg]. destruct H as (l & b & rest & -> & Hl & Hz & Hgb & H). destruct (B _ _ Hgb H) as [HR ->].
        exists b, (l ++ b), rest. splits; auto; [rewrite app_length; reflexivity|constructor; exact Hl].
      - unfold decode_struct in H. cbn [enter] in H. destruct (B _ _ Hg H) as [HR ->]. auto.
    Qed.
  End Fields.

  (** ** Interfaces *)

  Lemma iface_known ii : In ii (cd_ifaces c) -> known env c (TIface (ii_id ii)) = true.
  Proof.
    intros H. unfold known. rewrite get_type_info_iface. destruct (find_iface (ii_id ii) (cd_ifaces c)) eqn:E; [reflexivity|]. exfalso. revert H E. unfold find_iface.
    induction (cd_ifaces c) as [|x l IH]; cbn [find In]; [tauto|]. intros [->|H]; [rewrite Nat.eqb_refl; discriminate|]. destruct (_ =? _)%nat; [discriminate|]. auto.
  Qed.

  Lemma tag_sound ii b dp n1 ci : In ii (cd_ifaces c) -> decode_disamb_prefix b = DRet dp n1 None ->
    match fst dp with Some d => type_info_from_disfix c (to_disfix d (snd dp)) | None => type_info_from_prefix ii (snd dp) end = EOk ci ->
    exists tag body r, b = tag ++ body /\ n1 = length tag /\ tells env c (ii_id ii) tag ci r.
  Proof.
    intros Hin H Hti. apply decode_disamb_prefix_inv in H. destruct H as [(p & body & -> & Lp & Np & -> & ->)|(d & p & body & -> & Ld & Lp & -> & ->)]; cbn [fst snd] in Hti.
    - unfold type_info_from_prefix in Hti. destruct (assoc beqb p (ii_impls ii)) as [li|] eqn:Ea; [|discriminate]. destruct li as [|x [|]]; try discriminate. apply EOk_inj in Hti. subst x.
      assert (I1 : impls_of ii p = [ci]) by (unfold impls_of; rewrite Ea; reflexivity).
      assert (Ip : implementer env c (ii_id ii) p ci) by (apply (implementer_in env c Hc Hs ii p ci Hin); rewrite I1; left; reflexivity).
      destruct Ip as (Hci & Him & r & Hrg & Hpx). exists p, body, r. splits; auto. split; [exact Hci|split; [exact Hrg|right]]. rewrite Hpx. splits; auto.
      + unfold implementer. splits; eauto.
      + intros ci' Hi'. apply (implementer_in env c Hc Hs ii p ci' Hin) in Hi'. rewrite I1 in Hi'. destruct Hi' as [->|[]]. reflexivity.
    - unfold type_info_from_disfix in Hti. destruct (assoc beqb (to_disfix d p) (cd_disfix c)) as [x|] eqn:Ea; [|discriminate]. apply EOk_inj in Hti. subst x.
      apply (wc_disfix _ _ Hc) in Ea. destruct Ea as [Hci Hdf]. pose proof (conc_ok env c ci Hc Hci) as Hok. pose proof (proj2 (sa_conc _ _ Hs _ Hci)) as Hrg.
      destruct (ci_reg ci) as [r|] eqn:Er; [|congruence]. destruct (reg_shape _ _ _ Hok Er) as (Ld' & Lp' & _). unfold ci_disfix in Hdf. rewrite Er in Hdf. unfold to_disfix in Hdf.
      exists (0 :: ri_disamb r ++ ri_prefix r), body, r. rewrite Hdf. splits.
      + cbn [app]. rewrite <- app_assoc. reflexivity.
      + cbn [length]. rewrite app_length. lia.
      + split; [exact Hci|split; [exact Er|left]]. rewrite Hdf. reflexivity.
  Qed.

  Lemma iface_sound rec ii o bz v n : sound rec -> In ii (cd_ifaces c) -> mem (TIface (ii_id ii)) = true -> good bz ->
    decode_interface env c rec bz ii (VIface None) o false = DRet v n None ->
    exists b p rest, reads env c (TIface (ii_id ii)) o true (Plen b) v /\ bz = p ++ rest /\ n = length p /\ payload_bytes (Plen b) p.
  Proof.
    intros Hrec Hin Hm Hg H. unfold decode_interface in H. apply enter_sound in H; [|exact Hg]. destruct H as (l & b & rest & -> & Hl & Hz & Hgb & H).
    exists b, (l ++ b), rest. dstep H. dstep H. cbv zeta in H. destruct e; [discriminate H|]. dstep H. rename a0 into ci.
    destruct (tag_sound _ _ _ _ _ Hin E E0) as (tag & body & r & -> & -> & Ht). rewrite skipn_here in H.
    pose proof (proj2 (proj2 (Hr _ Hm)) ltac:(intros id X; discriminate X)) as Hrd. cbn [resolve] in Hrd. pose proof Ht as (Hci & Hrg & _). destruct (Hrd ci Hci) as (Hmc & Hpc & fs & Erc).
    pose proof (conc_ok env c ci Hc Hci) as Hok. pose proof (conc_nonptr env ci Hok) as Hnp. assert (Hdc : deref_type (ci_type ci) = ci_type ci) by (destruct (ci_type ci); try reflexivity; contradiction).
    assert (Hmi : minfo env c (TIConc ci) (ci_type ci)) by (split; [symmetry; exact Hdc|exact Hok]).
    assert (WK : wants_key env ci body o = false) by (unfold wants_key, is_struct_or_repeated_struct; rewrite Erc; reflexivity). rewrite WK in H.
    apply good_app in Hgb. destruct Hgb as [_ Hgb]. dstep H. dstep H. unfold set_iface in H. rewrite Hrg in H. destruct e; [destruct (ri_ptr r); destruct (te_impl _ _ _); discriminate H|].
    destruct (skipn m body) eqn:Es; [|discriminate H].
    destruct (Hrec (TIConc ci) (ci_type ci) o body (zero env (ci_type ci)) a0 m Hmi ltac:(rewrite Hdc; exact Hmc) ltac:(apply base_zero) Hgb) as [_ S].
    rewrite Hdc in S. destruct (S Hpc ltac:(eauto) E1) as (w & -> & HR & ->). rewrite ptrs_nonptr in H by exact Hdc.
    assert (Hv : v = VIface (Some (if ri_ptr r then (TPtr (ci_type ci), VPtr (Some w)) else (ci_type ci, w))) /\ n = (length l + length tag + length body)%nat /\
      te_impl env (if ri_ptr r then TPtr (ci_type ci) else ci_type ci) (ii_id ii) = true).
    { destruct (ri_ptr r); destruct (te_impl _ _ _) eqn:Eim; try discriminate H; inversion H; subst; auto. }
    destruct Hv as (-> & -> & Him). splits; auto.
    - eapply r_iface; eauto; [apply iface_known; exact Hin|unfold struct_like; rewrite Erc; reflexivity|reflexivity].
    - rewrite !app_length. lia.
    - constructor. exact Hl.
  Qed.

  (** ** Lists *)

  Lemma bytes_slice_sound t e bz v n : plainly_read env t -> resolve env t = RSlice e -> is_uint8 env e = true -> good bz ->
    forall v0 o, decode_byte_slice_val bz e v0 = DRet v n None ->
    exists b, reads env c t o false (Plen b) v /\ starts t (Plen b) bz n.
  Proof.
    intros Hp Er Hu Hg v0 o H. assert (Hl : list_of env t e) by (left; exact Er).
    assert (N : reads env c t o false (Plen []) (VSlice None)) by (eapply r_bytes; eauto; apply fi_empty with (e := e); auto).
    destruct bz as [|x bz]; [cbn in H; inversion H; subst; exists []; split; [exact N|right; splits; auto; eapply bs_plain; eauto]|].
    unfold decode_byte_slice_val in H. remember (x :: bz) as b0. clear Heqb0 x bz. dstep H. dstep H. destruct e0; [discriminate H|].
    destruct (slice_sound _ _ _ (proj1 Hg) (proj2 Hg) E) as (l & rest & -> & -> & Hlb & Hz). exists a.
    assert (St : starts t (Plen a) ((l ++ a) ++ rest) (length (l ++ a))) by (left; eexists _, _; splits; [reflexivity|reflexivity|constructor; exact Hlb]).
    destruct a as [|y a]; [inversion H; subst; auto|]. destruct (gotype_eqb e (TPrim PUint8)) eqn:He; [|discriminate H]. apply gotype_eqb_eq in He. inversion H; subst. split; [|exact St].
    eapply r_bytes; eauto. apply fi_slice with (e := TPrim PUint8); [exact Er|discriminate].
  Qed.
  Lemma bytes_array_sound t e len bz v n : plainly_read env t -> resolve env t = RArray len e -> is_uint8 env e = true -> good bz ->
    forall v0 o, decode_byte_array bz len e v0 = DRet v n None ->
    exists b, reads env c t o false (Plen b) v /\ starts t (Plen b) bz n.
  Proof.
    intros Hp Er Hu Hg v0 o H. assert (Hl : list_of env t e) by (right; eauto). unfold decode_byte_array in H. dstep H. dstep H. dstep H. destruct e0; [discriminate H|].
    destruct (slice_sound _ _ _ (proj1 Hg) (proj2 Hg) E0) as (l & rest & -> & -> & Hlb & Hz). exists a.
    assert (St : starts t (Plen a) ((l ++ a) ++ rest) (length (l ++ a))) by (left; eexists _, _; splits; [reflexivity|reflexivity|constructor; exact Hlb]).
    destruct (Nat.eqb_spec (length a) len) as [La|]; [|discriminate H]. cbn [negb] in H. destruct (gotype_eqb e (TPrim PUint8)) eqn:He; [|discriminate H]. apply gotype_eqb_eq in He. inversion H; subst. split; [|exact St].
    eapply r_bytes; eauto. apply fi_array with (e := TPrim PUint8). unfold bytes_val. rewrite map_length. exact Er.
  Qed.

  Lemma packed_wire e o z : mem (deref_type e) = true -> type_to_typ3 env (deref_type e) o = EOk z -> type_wire env (deref_type e) o = Some z.
  Proof. intros Hm H. apply typ3_wire; [exact H|]. exact (proj1 (proj2 (Hr _ Hm))). Qed.
  Lemma packed_slice_sound rec t e o bz v n : sound rec -> plainly_read env t -> resolve env t = RSlice e -> is_uint8 env e = false -> delimited env e = false ->
    mem (deref_type e) = true -> good bz -> forall v0, decode_slice env c rec bz e v0 o false = DRet v n None ->
    exists b p rest, reads env c t o true (Plen b) v /\ bz = p ++ rest /\ n = length p /\ payload_bytes (Plen b) p.
  Proof.
    intros Hrec Hp Er Hu Hdl Hm Hg v0 H. unfold decode_slice in H. rewrite Hu in H. dstep H. pose proof (gti_minfo _ _ _ _ Hs E) as Hie.
    apply enter_sound in H; [|exact Hg]. destruct H as (l & b & rest & -> & Hl & Hz & Hgb & H). dstep H. rewrite (minfo_type _ _ _ _ Hie) in E0.
    pose proof (packed_wire _ _ _ Hm E0) as Hw. pose proof (typ3_packed _ _ _ _ Hdl Hw) as N2. destruct (Z.eqb_spec a0 Typ3ByteLength); [contradiction|]. cbn [negb] in H.
    dstep H. destruct e0; [discriminate H|]. inversion H; subst v n. destruct (slice_packed_sound rec Hrec _ _ _ Hie Hm Hdl _ _ _ _ _ _ Hgb E1) as (vs & -> & HK & ->).
    exists b, (l ++ b), rest. splits; auto; [|rewrite app_length; reflexivity|constructor; exact Hl].
    eapply r_packed; eauto; [left; exact Er|eapply gti_known; eassumption|congruence|eapply fill_slice; eassumption].
  Qed.
  Lemma packed_array_sound rec t e len o bz v n : sound rec -> plainly_read env t -> resolve env t = RArray len e -> is_uint8 env e = false -> delimited env e = false ->
    mem (deref_type e) = true -> good bz -> decode_array env c rec bz e (zero env t) o false = DRet v n None ->
    exists b p rest, reads env c t o true (Plen b) v /\ bz = p ++ rest /\ n = length p /\ payload_bytes (Plen b) p.
  Proof.
    intros Hrec Hp Er Hu Hdl Hm Hg H. unfold decode_array in H. rewrite Hu, (zero_array _ _ _ _ We Er) in H. dstep H. pose proof (gti_minfo _ _ _ _ Hs E) as Hie.
    apply enter_sound in H; [|exact Hg]. destruct H as (l & b & rest & -> & Hl & Hz & Hgb & H). dstep H. rewrite (minfo_type _ _ _ _ Hie) in E0.
    pose proof (packed_wire _ _ _ Hm E0) as Hw. pose proof (typ3_packed _ _ _ _ Hdl Hw) as N2. destruct (Z.eqb_spec a0 Typ3ByteLength); [contradiction|]. cbn [negb] in H.
    dstep H. destruct a1 as [vs bz']. destruct e0; [discriminate H|]. destruct bz'; [|discriminate H]. inversion H; subst v n.
    destruct (array_packed_sound rec Hrec _ _ _ Hie Hm Hdl _ _ _ _ _ _ _ Hgb E1) as (vs' & b' & -> & -> & Lv & HK & ->). rewrite app_nil_r in *.
    exists b', (l ++ b'), rest. splits; auto; [|rewrite app_length; reflexivity|constructor; exact Hl].
    eapply r_packed; eauto; [right; eauto|eapply gti_known; eassumption|congruence|apply fi_array with (e := e); cbn [app]; rewrite Lv; exact Er].
  Qed.

  (** ** The whole *)

  Lemma drop_ptr k bz info t v0 o bare v n : minfo env c info t -> base_of env t v0 = zero env (deref_type t) ->
    D k bz info t v0 o bare = DRet v n None ->
    exists w, v = ptrs t w /\ direct t = true /\ D k bz info (deref_type t) (zero env (deref_type t)) o bare = DRet w n None.
  Proof.
    intros Hi Hb H. destruct k as [|k]; [discriminate H|]. cbn [decode_reflect] in *.
    assert (Bd : base_of env (deref_type t) (zero env (deref_type t)) = zero env (deref_type t)) by (rewrite base_zero, deref_idem; reflexivity).
    rewrite Bd. rewrite Hb in H. pose proof (deref_is_ptr t) as Np.
    assert (DM : forall r : dres value, dmap (rebuild (deref_type t)) r = r).
    { intros [x y z| |]; try reflexivity. cbn. unfold rebuild. rewrite <- EncFacts.ptrs_wrap, ptrs_nonptr by apply deref_idem. reflexivity. }
    rewrite DM.
    assert (DN : forall r, dmap (rebuild t) r = DRet v n None -> exists w, v = ptrs t w /\ r = DRet w n None).
    { intros [x y z| |] X; try discriminate X. cbn in X. unfold rebuild in X. rewrite <- EncFacts.ptrs_wrap in X. inversion X; subst. eauto. }
    destruct info as [ci|ii].
    - assert (direct t = true). { unfold direct. destruct Hi as [Hct Hok]. pose proof (conc_nonptr env ci Hok) as X. rewrite Hct in X. destruct (deref_type t); try contradiction; cbn [is_iface]; rewrite ?andb_false_r; reflexivity. }
      apply DN in H. destruct H as (w & -> & H). exists w. splits; auto.
    - destruct Hi as [_ Hi]. rewrite Hi in *. destruct t; try discriminate H; try discriminate Hi; apply DN in H; destruct H as (w & -> & H); exists w; splits; auto.
  Qed.

  Lemma sound_step k : sound (D k) -> listed (D k) -> sound (D (S k)).
  Proof.
    intros Hrec Hlist info t0 o bz v0 v n Hi0 Hm Hb Hg.
    assert (G : forall t w, t = deref_type t0 -> 
      (D (S k) bz info t (zero env t) o false = DRet w n None -> exists m q, reads env c t o m q w /\ type_wire env t o = Some (wire_type q) /\ starts t q bz n) /\
      (plainly_read env t -> (exists fs, resolve env t = RStruct fs) -> D (S k) bz info t (zero env t) o true = DRet w n None -> reads env c t o true (Plen bz) w /\ n = length bz)).
    { intros t w Et. rewrite <- Et in Hm. pose proof (minfo_deref _ _ _ _ Hi0) as Hi. rewrite <- Et in Hi. assert (Hd : deref_type t = t) by (subst t; apply deref_idem). clear Hi0 Hb Et t0 v0 v.
      pose proof (minfo_type _ _ _ _ Hi) as Ety. rewrite Hd in Ety.
      assert (FR : forall m b p rest, reads env c t o m (Plen b) w -> type_wire env t o = Some 2 -> bz = p ++ rest -> n = length p -> payload_bytes (Plen b) p ->
        exists m q, reads env c t o m q w /\ type_wire env t o = Some (wire_type q) /\ starts t q bz n).
      { intros m b p rest H1 H2 H3 H4 H5. exists m, (Plen b). splits; auto. left. eauto. }
      destruct (Hr t Hm) as (Hr1 & Hr2 & Hr3).
      assert (CASE : plainly_read env t \/ exists ci id r g, info = TIConc ci /\ t = TNamed id /\ te_unmarshal env id = Some (UOk r g) /\ deref_type r = r /\ ci_unmarshal ci = Some r).
      { destruct info as [ci|ii]; [|left; intros id X; destruct Hi as [_ Hi]; rewrite Hd, X in Hi; discriminate Hi].
        destruct Hi as [Hct Hok]. rewrite Hd in Hct. pose proof (minfo_unmethod _ _ _ Hct Hok) as U. destruct (ci_unmarshal ci) as [r|] eqn:Eu; [right|left; exact U].
        destruct U as (id & g & E1 & E2 & E3). exists ci, id, r, g. splits; auto. }
      destruct CASE as [Hp|(ci & id & r & g & -> & -> & Hu & Hdr & Hcu)].
      - rewrite !plain_switch by assumption. specialize (Hr3 Hp). unfold decode_switch. rewrite Ety. destruct (resolve env t) as [p| |len e|e|e|a e| | |i|fs|] eqn:Er;
          try (split; [discriminate|intros _ [fs' X]; discriminate X]); try contradiction.
        + split; [|intros _ [fs X]; discriminate X]. intros H. destruct (prim_sound _ _ _ _ _ _ (proj1 Hg) (proj2 Hg) H) as (q & b & rest & E1 & E2 & E3 & E4 & E5 & E6).
          exists false, q. splits; [eapply r_prim; eauto|rewrite E5; apply prim_type_wire; exact Er|left; eauto].
        + split; [|intros _ [fs X]; discriminate X]. assert (W2 : type_wire env t o = Some 2) by (unfold type_wire; rewrite Er; reflexivity). destruct (is_uint8 env e) eqn:Hu; intros H.
          * destruct (bytes_array_sound t e len bz w n Hp Er Hu Hg _ o H) as (b & HR & St). exists false, (Plen b). splits; auto.
          * destruct Hr3 as [X|[Hdl Hme]]; [congruence|]. destruct (packed_array_sound _ t e len o bz w n Hrec Hp Er Hu Hdl Hme Hg H) as (b & p & rest & H1 & H2 & H3 & H4). eapply FR; eauto.
        + split; [|intros _ [fs X]; discriminate X]. assert (W2 : type_wire env t o = Some 2) by (unfold type_wire; rewrite Er; reflexivity). destruct (is_uint8 env e) eqn:Hu; intros H.
          * destruct (bytes_slice_sound t e bz w n Hp Er Hu Hg _ o H) as (b & HR & St). exists false, (Plen b). splits; auto.
          * destruct Hr3 as [X|[Hdl Hme]]; [congruence|]. destruct (packed_slice_sound _ t e o bz w n Hrec Hp Er Hu Hdl Hme Hg _ H) as (b & p & rest & H1 & H2 & H3 & H4). eapply FR; eauto.
        + split; [|intros _ [fs X]; discriminate X]. assert (W2 : type_wire env t o = Some 2) by (unfold type_wire; rewrite Er; reflexivity). intros H. destruct info as [ci|ii]; [discriminate H|].
          destruct Hi as [Hin Hid]. rewrite Hd in Hid. subst t. cbn [zero] in H. destruct (iface_sound _ ii o bz w n Hrec Hin Hm Hg H) as (b & p & rest & H1 & H2 & H3 & H4). eapply FR; eauto.
        + assert (W2 : type_wire env t o = Some 2) by (unfold type_wire; rewrite Er; reflexivity). destruct info as [ci|ii]; [|split; discriminate].
          destruct (struct_sound _ Hrec Hlist t fs ci o bz w n Hi Hd Hp Hm Er Hg) as [S1 S2]. split; [|intros _ _; exact S2].
          intros H. destruct (S1 H) as (b & p & rest & H1 & H2 & H3 & H4). eapply FR; eauto.
      - split; [|intros X; rewrite (X id eq_refl) in Hu; discriminate]. intros H. rewrite Hu in Hr1. destruct Hr1 as [Hmr Hwr]. destruct Hi as [Hct Hok]. rewrite Hd in Hct.
        destruct ci as [ct cf cm cu cr]. cbn [ci_unmarshal ci_type] in *. subst cu ct. cbn [decode_reflect base_of] in H.
        assert (DM : forall r : dres value, dmap (rebuild (TNamed id)) r = r) by (intros [x y z| |]; reflexivity). rewrite DM in H. clear DM.
        dstep H. pose proof (gti_minfo _ _ _ _ Hs E) as Hri. dstep H. dstep H. destruct e; [discriminate H|].
        destruct (Hrec a r o bz (zero env r) a0 m Hri ltac:(rewrite Hdr; exact Hmr) (base_zero _ _) Hg) as [S _]. destruct (S E0) as (m' & q & w' & -> & _ & HR & Hw & St).
        rewrite Hdr in *. rewrite ptrs_nonptr in H by exact Hdr. dstep H. cbn [from_repr] in E1. rewrite Hu in E1. destruct a0 as [v' e']. inversion H; subst. cbn [fst snd] in *.
        exists m', q. splits.
        + eapply r_method; eauto. eapply gti_known; eassumption.
        + rewrite <- Hwr. exact Hw.
        + destruct St as [St|(E3 & E4 & E5 & E6)]; [left; exact St|right]. splits; auto. eapply bs_method; eassumption. }
    split.
    - intros H. destruct (drop_ptr _ _ _ _ _ _ _ _ _ Hi0 Hb H) as (w & -> & Hdir & H'). destruct (G _ w eq_refl) as [G1 _]. destruct (G1 H') as (m & q & HR & Hw & St). exists m, q, w. auto.
    - intros Hp Hst H. destruct (drop_ptr _ _ _ _ _ _ _ _ _ Hi0 Hb H) as (w & -> & Hdir & H'). destruct (G _ w eq_refl) as [_ G2]. destruct (G2 Hp Hst H') as [HR ->]. exists w. auto.
  Qed.

  Theorem sound_all k : sound (D k) /\ listed (D k).
  Proof.
    induction k as [|k [IH1 IH2]].
    - split; [intros info t o bz v0 v n _ _ _ _; split; intros; discriminate|intros info t e o bz v n _ _ _ _ _ _ _ _ X; discriminate X].
    - split; [apply sound_step; assumption|apply listed_step; assumption].
  Qed.
End Sound.
