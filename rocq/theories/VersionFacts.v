(** Struct types extended by appending fields. *)
From Coq Require Import ZArith String List Bool Lia.
From Coq Require Import ZifyBool ZifyNat.
From Verif Require Import Base Prims SpecWire PrimFacts PrimProps Types Codec BinEnc BinDec Amino FuelFacts DecFacts
  ValueInd Typing Registry SpecRegistry RegistryFacts Sane DecSafe SpecNorm EncFacts RoundTrip TopFacts SpecProto ProtoFacts
  SpecStruct SkipFacts SpecVersion.
Import ListNotations.
Local Open Scope Z_scope.

(** ** Field information *)

Lemma parse_app env : forall fs gs i num infos, parse_fields env (fs ++ gs) i num = EOk infos ->
  exists a b, infos = a ++ b /\ parse_fields env fs i num = EOk a /\
    exists num', parse_fields env gs (i + length fs) num' = EOk b /\ Z.of_nat num' = Z.of_nat num + live fs.
Proof.
  induction fs as [|f fs IH]; intros gs i num infos H.
  - exists [], infos. split; [reflexivity|]. split; [reflexivity|]. exists num. cbn [app] in H. rewrite Nat.add_0_r. split; [exact H|]. change (live []) with 0. lia.
  - cbn [app parse_fields] in *. rewrite (live_cons f fs 0). unfold field_opts. destruct (sf_exported f); cbn [negb] in *.
    2: { destruct (IH _ _ _ _ H) as (a & b & -> & Ha & n' & Hb & Hn). exists a, b. split; [reflexivity|]. split; [exact Ha|]. exists n'.
         split; [|exact Hn]. cbn [length]. replace (i + S (length fs))%nat with (S i + length fs)%nat by lia. exact Hb. }
    destruct (parse_field_options f) as [o|]; cbn [option_map].
    2: { destruct (IH _ _ _ _ H) as (a & b & -> & Ha & n' & Hb & Hn). exists a, b. split; [reflexivity|]. split; [exact Ha|]. exists n'.
         split; [|exact Hn]. cbn [length]. replace (i + S (length fs))%nat with (S i + length fs)%nat by lia. exact Hb. }
    unfold ebind in *. destruct (unpacked_list _ _ _) as [up| | |]; try discriminate H. cbv zeta in *.
    destruct (check_unsafe _ _ _) as [[]| | |]; try discriminate H.
    destruct (parse_fields env (fs ++ gs) (S i) (S num)) as [rest| | |] eqn:E; try discriminate H.
    destruct (IH _ _ _ _ E) as (a & b & -> & Ha & n' & Hb & Hn). apply EOk_inj in H. subst infos. rewrite Ha.
    eexists (_ :: a), b. split; [reflexivity|]. split; [reflexivity|]. exists n'.
    split; [|lia]. cbn [length]. replace (i + S (length fs))%nat with (S i + length fs)%nat by lia. exact Hb.
Qed.
Lemma parse_index env fs : forall i num infos, parse_fields env fs i num = EOk infos ->
  Forall (fun f => (fi_index f < i + length fs)%nat) infos.
Proof.
  induction fs as [|f fs IH]; intros i num infos H; [cbn in H; apply EOk_inj in H; subst; constructor|].
  apply parse_step in H. destruct (field_opts _ f) as [o|].
  - destruct H as (fi & rest & -> & Hx & _ & _ & _ & _ & H). constructor; [cbn; lia|]. specialize (IH _ _ _ H).
    eapply Forall_impl; [|exact IH]. cbn [length]. intros; lia.
  - specialize (IH _ _ _ H). eapply Forall_impl; [|exact IH]. cbn [length]. intros; lia.
Qed.

Section Frame.
  Variable env : tenv.
  Variable c : codec.

  Lemma encode_fields_app enc a b l : encode_fields env c enc (a ++ b) l =
    ebind (encode_fields env c enc a l) (fun x => ebind (encode_fields env c enc b l) (fun y => EOk (x ++ y))).
  Proof.
    induction a as [|f a IH]; cbn [app encode_fields ebind].
    - destruct (encode_fields env c enc b l); reflexivity.
    - destruct (encode_field _ _ _ _ _) as [x| | |]; cbn [ebind]; try reflexivity. rewrite IH.
      destruct (encode_fields env c enc a l) as [y| | |]; cbn [ebind]; try reflexivity.
      destruct (encode_fields env c enc b l) as [z| | |]; cbn [ebind]; try reflexivity. rewrite app_assoc. reflexivity.
  Qed.
  Lemma encode_fields_frame enc a l ex : Forall (fun f => (fi_index f < length l)%nat) a ->
    encode_fields env c enc a (l ++ ex) = encode_fields env c enc a l.
  Proof.
    induction 1 as [|f a Hf Ha IH]; cbn [encode_fields]; [reflexivity|]. rewrite IH, app_nth1 by exact Hf. reflexivity.
  Qed.

  Definition with_ex (ex : list value) (r : dres (list value * bytes * Z)) : dres (list value * bytes * Z) :=
    match r with DRet (l, bz, last) n e => DRet (l ++ ex, bz, last) n e | DPanic p => DPanic p | DFuel => DFuel end.
  Lemma upd_app i (v : value) ex : forall l, (i < length l)%nat -> upd i v (l ++ ex) = upd i v l ++ ex.
  Proof. induction i as [|i IH]; intros [|x l] H; cbn in *; try lia; [reflexivity|]. rewrite IH by lia. reflexivity. Qed.
  Lemma upd_len i (v : value) : forall l, length (upd i v l) = length l.
  Proof. induction i as [|i IH]; intros [|x l]; cbn; try reflexivity. rewrite IH. reflexivity. Qed.

  Lemma decode_field_frame dec f l ex bz last n : (fi_index f < length l)%nat ->
    decode_field env c dec f (l ++ ex) bz last n = with_ex ex (decode_field env c dec f l bz last n) /\
    match decode_field env c dec f l bz last n with DRet (l', _, _) _ _ => length l' = length l | _ => True end.
  Proof.
    intros Hi. unfold decode_field. cbv zeta. rewrite app_nth1 by exact Hi. rewrite ?upd_app by exact Hi.
    destruct (get_type_info _ _ _) as [info| | |]; cbn [eget with_ex]; try (split; first [reflexivity|exact I]).
    destruct bz as [|x bz]; [cbn [with_ex]; split; [reflexivity|apply upd_len]|]. set (bz0 := x :: bz). clearbody bz0.
    destruct (fi_unpacked f).
    - destruct (dec _ _ _ _ _ _) as [v m e| |]; cbn [dbind with_ex]; try (split; first [reflexivity|exact I]).
      unfold slide. destruct (_ <? _)%nat; cbn [with_ex]; [split; first [reflexivity|exact I]|]. rewrite upd_app by exact Hi. split; [reflexivity|apply upd_len].
    - destruct (decode_field_key bz0) as [[fnum typ] m e| |]; cbn [dbind with_ex]; try (split; first [reflexivity|exact I]).
      destruct (_ <? fnum); [cbn [with_ex]; split; [reflexivity|apply upd_len]|].
      destruct (fnum <=? last); [cbn [with_ex]; split; first [reflexivity|exact I]|].
      unfold slide. destruct (_ <? _)%nat; cbn [with_ex]; [split; first [reflexivity|exact I]|].
      destruct e; [cbn [with_ex]; split; first [reflexivity|exact I]|].
      destruct (negb _); [cbn [with_ex]; split; first [reflexivity|exact I]|].
      destruct (type_to_typ3 _ _ _) as [tw| | |]; cbn [eget with_ex]; try (split; first [reflexivity|exact I]).
      destruct (negb _); [cbn [with_ex]; split; first [reflexivity|exact I]|].
      destruct (dec _ _ _ _ _ _) as [v m2 e| |]; cbn [dbind with_ex]; try (split; first [reflexivity|exact I]).
      unfold slide. destruct (_ <? _)%nat; cbn [with_ex]; [split; first [reflexivity|exact I]|]. rewrite upd_app by exact Hi. split; [reflexivity|apply upd_len].
  Qed.
  Lemma decode_fields_frame dec ex : forall a l bz last n, Forall (fun f => (fi_index f < length l)%nat) a ->
    decode_fields env c dec a (l ++ ex) bz last n = with_ex ex (decode_fields env c dec a l bz last n).
  Proof.
    induction a as [|f a IH]; intros l bz last n H; cbn [decode_fields]; [reflexivity|].
    apply Forall_cons_iff in H. destruct H as [Hf Ha]. destruct (decode_field_frame dec f l ex bz last n Hf) as [-> L].
    destruct (decode_field env c dec f l bz last n) as [[[l' bz'] last'] n' e| |]; cbn [dbind with_ex]; try reflexivity.
    destruct e; [reflexivity|]. apply IH. rewrite L. exact Ha.
  Qed.
  Lemma decode_fields_app dec a b : forall l bz last n, decode_fields env c dec (a ++ b) l bz last n =
    dbind (decode_fields env c dec a l bz last n) (fun st n' e =>
      match e with Some e => DRet st n' (Some e) | None => let '(l', bz', last') := st in decode_fields env c dec b l' bz' last' n' end).
  Proof.
    induction a as [|f a IH]; intros l bz last n; cbn [app decode_fields dbind]; [reflexivity|].
    destruct (decode_field _ _ _ _ _ _ _ _) as [[[l' bz'] last'] n' e| |]; cbn [dbind]; try reflexivity.
    destruct e; [reflexivity|]. apply IH.
  Qed.

  (** Nothing left to read. *)
  Lemma decode_nothing dec : forall gs i num infos l last n, parse_fields env gs i num = EOk infos -> length l = i ->
    (forall g, In g gs -> visible g = true -> known env c (sf_type g) = true) ->
    decode_fields env c dec infos (l ++ map (fun g => zero env (sf_type g)) gs) [] last n
      = DRet (l ++ missing env gs, [], last) n None.
  Proof.
    induction gs as [|g gs IH]; intros i num infos l last n H Hl Hk.
    - cbn in H. apply EOk_inj in H. subst. reflexivity.
    - apply parse_step in H. cbn [map missing]. fold (missing env gs).
      pose proof (visible_opts g (Z.of_nat num + 1)) as Hv. destruct (field_opts _ g) as [o|] eqn:Eo.
      + assert (V : visible g = true) by (destruct (visible g); [reflexivity|]; destruct Hv as [_ Hv]; discriminate (Hv eq_refl)).
        rewrite V. destruct H as (fi & rest & -> & Hx & Ht & Hu & Ho & _ & H). cbn [decode_fields].
        unfold decode_field. cbv zeta. rewrite Ht. specialize (Hk g (or_introl eq_refl) V) as K. unfold known in K.
        destruct (get_type_info env c (sf_type g)) as [info| | |]; try discriminate K. cbn [eget dbind].
        rewrite Hx, <- Hl, upd_mid. rewrite <- absent_eq.
        erewrite IH; [|exact H|rewrite app_length; cbn; lia|intros g' Hg'; apply Hk; right; exact Hg'].
        rewrite <- app_assoc. reflexivity.
      + assert (V : visible g = false) by (apply Hv; reflexivity). rewrite V.
        replace (l ++ zero env (sf_type g) :: map (fun g0 => zero env (sf_type g0)) gs)
          with ((l ++ [zero env (sf_type g)]) ++ map (fun g0 => zero env (sf_type g0)) gs) by (rewrite <- app_assoc; reflexivity).
        erewrite IH; [|exact H|rewrite app_length; cbn; lia|intros g' Hg'; apply Hk; right; exact Hg'].
        rewrite <- app_assoc. reflexivity.
  Qed.
End Frame.

(** ** Unknown fields are skipped *)

Definition payload_ok (q : payload) : Prop := match q with Pvarint u => 0 <= u < 2 ^ 64 | Plen b => zlen b < 2 ^ 63 | _ => True end.

Lemma fixed64_app b rest : length b = 8%nat -> exists z, decode_int64 (b ++ rest) = DRet z 8 None.
Proof.
  intros L. unfold decode_int64, decode_fixed. destruct (Nat.ltb_spec (length (b ++ rest)) 8); [rewrite app_length in *; lia|]. eexists. reflexivity.
Qed.
Lemma fixed32_app b rest : length b = 4%nat -> exists z, decode_int32 (b ++ rest) = DRet z 4 None.
Proof.
  intros L. unfold decode_int32, decode_fixed. destruct (Nat.ltb_spec (length (b ++ rest)) 4); [rewrite app_length in *; lia|]. eexists. reflexivity.
Qed.
Lemma consume_payload q b rest : payload_bytes q b -> payload_ok q ->
  consume_any (wire_type q) (b ++ rest) = DRet tt (length b) None.
Proof.
  intros H Hq. inversion H; subst; cbn [wire_type payload_ok] in *; unfold consume_any; cbn [Z.eqb].
  - change (0 =? Typ3Varint) with true. cbn iota. rewrite (leb_unique b (encode_uvarint u) u H0 (encode_uvarint_leb u Hq)).
    assert (D : decode_varint (encode_uvarint u ++ rest) = DRet (unzigzag u) (length (encode_uvarint u)) None).
    { apply decode_varint_uvarint. exists u. split; [apply decode_uvarint_encode; exact Hq|reflexivity]. }
    rewrite D. cbn [dbind]. rewrite slide_app by reflexivity. reflexivity.
  - change (1 =? Typ3Varint) with false. change (1 =? Typ38Byte) with true. cbn iota.
    destruct (fixed64_app b rest H0) as [z ->]. cbn [dbind]. rewrite slide_app by exact H0. rewrite H0. reflexivity.
  - change (5 =? Typ3Varint) with false. change (5 =? Typ38Byte) with false. change (5 =? Typ3ByteLength) with false. change (5 =? Typ3_4Byte) with true. cbn iota.
    destruct (fixed32_app b rest H0) as [z ->]. cbn [dbind]. rewrite slide_app by exact H0. rewrite H0. reflexivity.
  - change (2 =? Typ3Varint) with false. change (2 =? Typ38Byte) with false. change (2 =? Typ3ByteLength) with true. cbn iota.
    pose proof (zlen_nonneg b0).
    assert (L : l ++ b0 = encode_byte_slice b0).
    { unfold encode_byte_slice. f_equal. apply (leb_unique l _ (zlen b0)); [exact H0|]. apply encode_uvarint_leb. lia. }
    rewrite L. rewrite decode_byte_slice_encode by exact Hq. cbn [dbind]. rewrite slide_app by reflexivity. reflexivity.
Qed.

Fixpoint increasing (last : Z) (es : list entry) : Prop :=
  match es with [] => True | e :: r => last < fst e < 2 ^ 29 /\ 0 < fst e /\ increasing (fst e) r end.

Lemma wire_type_range q : 0 <= wire_type q < 8.
Proof. destruct q; cbn; lia. Qed.

Lemma consume_message es b : message es b -> forall k last n, (length b <= k)%nat -> increasing last es ->
  Forall (fun e => payload_ok (snd e)) es -> consume_rest k b last n = DRet tt (n + length b) None.
Proof.
  induction 1 as [|num q key b es bs Hk Hq Hb IH]; intros k last n Hl Hi Hp.
  - destruct k; cbn; rewrite Nat.add_0_r; reflexivity.
  - cbn [increasing fst] in Hi. destruct Hi as (Hn & Hn0 & Hi). apply Forall_cons_iff in Hp. destruct Hp as [Hq' Hp]. cbn [snd] in Hq'.
    pose proof (wire_type_range q) as Hw.
    assert (K : key = key_bytes num (wire_type q)) by (eapply leb_unique; [exact Hk|apply key_leb; lia]).
    assert (NE : (0 < length key)%nat) by (destruct key; [exfalso; eapply leb_nonnil; [exact Hk|reflexivity]|cbn; lia]).
    rewrite !app_length in *. destruct k as [|k]; [lia|]. cbn [consume_rest].
    destruct (key ++ b ++ bs) as [|x r] eqn:E; [apply (f_equal (@length Z)) in E; rewrite !app_length in E; cbn in E; lia|]. rewrite <- E. clear E x r.
    subst key. rewrite decode_field_key_encode by lia. cbn [dbind]. rewrite slide_app by reflexivity. cbn [fst snd].
    destruct (Z.leb_spec num last); [lia|]. rewrite consume_payload by assumption. cbn [dbind]. rewrite slide_app by reflexivity.
    rewrite IH by (try assumption; lia). f_equal. lia.
Qed.

(** Payloads of typed values are within bounds. *)
Lemma prim_wire_ok p o v q : prim_has p v = true -> prim_wire p o v = Some q -> match q with Pvarint u => 0 <= u < 2 ^ 64 | _ => True end.
Proof.
  assert (P64 : 2 ^ 64 = 18446744073709551616) by reflexivity.
  intros Ht H. destruct p, v; try discriminate H; cbn [prim_wire prim_has] in *; unfold in_int, in_uint in Ht;
    repeat match type of H with context [if ?b then _ else _] => destruct b end; injection H as <-; try exact I; try (apply Z.mod_pos_bound; lia); try lia.
  all: unfold zigzag; destruct (z <? 0) eqn:E; lia.
Qed.

Section Unknown.
  Variable env : tenv.
  Hypothesis We : wf_env env.
  Variable c : codec.
  Hypothesis Hm : marshal_typed env.

  Definition small (q : payload) : Prop := match q with Pvarint u => 0 <= u < 2 ^ 64 | _ => True end.

  Lemma wire_small t o v m q : wire env c t o v m q -> has_type env t v = true -> small q.
  Proof.
    induction 1; intros Ht; try exact I.
    - rewrite (has_type_prim _ _ _ _ H0) in Ht. exact (prim_wire_ok _ _ _ _ Ht H1).
    - apply IHwire. eapply Hm; eassumption.
  Qed.
  Lemma type2_small q : wire_type q = 2 -> small q.
  Proof. destruct q; cbn; intros; try exact I; discriminate. Qed.
  Lemma fields_small num fs l es : fields env c num fs l es -> forall2b (fun f w => has_type env (sf_type f) w) fs l = true ->
    Forall (fun e => small (snd e)) es.
  Proof.
    induction 1; intros Ht; try constructor; cbn [forall2b] in Ht; try (apply andb_true_iff in Ht; destruct Ht as [Hv Ht]); auto.
    - apply Forall_app. split; [|auto]. pose proof (elems_order _ _ _ _ _ _ _ H4) as E. eapply Forall_impl; [|exact E].
      cbn. intros [a q] [_ X]. apply type2_small. exact X.
    - cbn [snd]. eapply wire_small; [eassumption|]. eapply under_typed; eassumption.
  Qed.
  Lemma message_len es b : message es b -> Forall (fun e => match snd e with Plen x => zlen x <= zlen b | _ => True end) es.
  Proof.
    induction 1 as [|num q key b es bs Hk Hq Hb IH]; constructor; cbn [snd].
    - inversion Hq; subst; try exact I. rewrite !zlen_app. pose proof (zlen_nonneg key). pose proof (zlen_nonneg l). pose proof (zlen_nonneg bs). lia.
    - eapply Forall_impl; [|exact IH]. cbn. intros [a x] Hx. cbn [snd] in *. destruct x; try exact I. rewrite !zlen_app.
      pose proof (zlen_nonneg key). pose proof (zlen_nonneg b). lia.
  Qed.
  Lemma payloads_ok num fs l es b : fields env c num fs l es -> forall2b (fun f w => has_type env (sf_type f) w) fs l = true ->
    message es b -> zlen b < 2 ^ 63 -> Forall (fun e => payload_ok (snd e)) es.
  Proof.
    intros Hf Ht Hb Hz. pose proof (fields_small _ _ _ _ Hf Ht) as A. pose proof (message_len _ _ Hb) as B.
    rewrite Forall_forall in *. intros e He. specialize (A e He). specialize (B e He). destruct (snd e); cbn in *; try exact I; lia.
  Qed.

  Lemma increasing_le es : forall a b, a <= b -> increasing b es -> increasing a es.
  Proof. destruct es; intros a b H; cbn; [auto|]. intros (X & Y & Z). split; [lia|]. split; assumption. Qed.

  Lemma fields_increasing mem num fs l es : fields env c num fs l es -> 1 <= num -> regular_fields env mem num fs = true -> single env fs l ->
    increasing (num - 1) es.
  Proof.
    induction 1; intros H1n Hr Hs; inversion Hs as [|? ? ? ? S1 S2]; subst; cbn [regular_fields] in Hr; try (rewrite H in Hr).
    - exact I.
    - auto.
    - apply andb_true_iff in Hr. destruct Hr as [Hr1 Hr]. eapply increasing_le; [|apply IHfields; try assumption]; lia.
    - apply andb_true_iff in Hr. destruct Hr as [Hr1 Hr]. apply andb_true_iff in Hr1. destruct Hr1 as [Hr1 _]. apply Z.ltb_lt in Hr1.
      assert (V : visible f = true).
      { pose proof (visible_opts f num) as Hv. rewrite H in Hv. destruct (visible f); [reflexivity|]. destruct Hv as [_ Hv]. discriminate (Hv eq_refl). }
      specialize (S1 V H0 vs H3). specialize (IHfields ltac:(lia) Hr S2).
      pose proof (elems_order _ _ _ _ _ _ _ H4) as E.
      assert (L : (length es' <= 1)%nat).
      { assert (X : length es' = length vs); [|lia]. clear -H4. induction H4; cbn; [reflexivity| |]; rewrite IHelems; reflexivity. }
      destruct es' as [|e1 [|e2 es']]; cbn in L; try lia; cbn [app].
      + eapply increasing_le; [|exact IHfields]. lia.
      + apply Forall_cons_iff in E. destruct E as [[E _] _]. cbn [increasing]. rewrite E. split; [lia|]. split; [lia|].
        eapply increasing_le; [|exact IHfields]. lia.
    - apply andb_true_iff in Hr. destruct Hr as [Hr1 Hr]. eapply increasing_le; [|apply IHfields; try assumption]; lia.
    - apply andb_true_iff in Hr. destruct Hr as [Hr1 Hr]. apply andb_true_iff in Hr1. destruct Hr1 as [Hr1 _]. apply Z.ltb_lt in Hr1.
      cbn [increasing fst]. split; [lia|]. split; [lia|]. eapply increasing_le; [|apply IHfields; try assumption]; lia.
  Qed.
  Lemma message_key es b last : message es b -> increasing last es -> key_after last b.
  Proof.
    intros H Hi. inversion H; subst; [left; reflexivity|]. cbn [increasing fst] in Hi. destruct Hi as (Hi & Hi0 & _).
    pose proof (wire_type_range q). right. exists num, (wire_type q), (b0 ++ bs). split; [|lia]. f_equal. eapply leb_unique; [eassumption|]. apply key_leb; lia.
  Qed.
End Unknown.

(** ** Whole calls *)

Section Calls.
  Variable env : tenv.
  Hypothesis We : wf_env env.
  Variable c : codec.
  Hypothesis Hc : wf_codec env c.
  Hypothesis Hs : sane_codec env c.
  Hypothesis Hm : marshal_typed env.

  Lemma preamble_prefix t fs info p : resolve env t = RStruct fs -> get_type_info env c t = EOk info -> preamble c t p ->
    prefix_of info = p.
  Proof.
    intros Hr H [(ci & r & Hin & Hty & Hreg & ->)|[Hno ->]].
    - apply (wc_conc _ _ Hc) in Hin. destruct Hin as [Ha Hn]. rewrite Hty in Ha. unfold get_type_info in H. cbv zeta in H.
      assert (D : deref_type t = t) by (destruct t; try reflexivity; discriminate Hr). rewrite D, Ha in H.
      assert (info = TIConc ci) by (destruct t; try (apply EOk_inj in H; congruence); discriminate Hr). subst info. cbn [prefix_of]. rewrite Hreg. reflexivity.
    - destruct info as [ci|ii]; [|reflexivity]. cbn [prefix_of]. destruct (ci_reg ci) as [r|] eqn:Er; [|reflexivity].
      exfalso. assert (D : deref_type t = t) by (destruct t; try reflexivity; discriminate Hr).
      apply (Hno ci); [|rewrite <- D; exact (proj1 (gti_minfo _ _ _ _ Hs H))]. eapply gti_registered; eassumption.
  Qed.

  (** A struct type without methods *)
  Lemma struct_info t fs info : resolve env t = RStruct fs -> has_method env t = false -> get_type_info env c t = EOk info ->
    exists ci, info = TIConc ci /\ ci_type ci = t /\ ci_marshal ci = None /\ ci_unmarshal ci = None /\ parse_fields env fs 0 0 = EOk (ci_fields ci).
  Proof.
    intros Hr Hh H. pose proof (gti_minfo _ _ _ _ Hs H) as Hi.
    assert (D : deref_type t = t) by (destruct t; try reflexivity; discriminate Hr).
    destruct info as [ci|ii]; [|exfalso; destruct Hi as [_ Hi]; rewrite D in Hi; subst t; discriminate Hr].
    destruct Hi as [Hct Hok]. rewrite D in Hct. exists ci. split; [reflexivity|]. split; [exact Hct|].
    pose proof (minfo_method _ _ _ Hct Hok) as M. pose proof (minfo_unmethod _ _ _ Hct Hok) as U.
    unfold has_method in Hh.
    split; [destruct (ci_marshal ci); [|reflexivity]; destruct M as (id & f & -> & M & _); rewrite M in Hh; discriminate Hh|].
    split; [destruct (ci_unmarshal ci); [|reflexivity]; destruct U as (id & f & -> & U & _); rewrite U in Hh; destruct (te_marshal env id); discriminate Hh|].
    destruct (info_ok_parts _ _ Hok) as (_ & Hpf & _). rewrite Hct in Hpf. unfold parse_struct_info in Hpf. rewrite Hr in Hpf. exact Hpf.
  Qed.

  Lemma marshal_struct k t fs l bz : resolve env t = RStruct fs -> has_method env t = false ->
    marshal_bare k env c t (VStruct l) = EOk bz ->
    exists ci k' body, k = S k' /\ get_type_info env c t = EOk (TIConc ci) /\ ci_type ci = t /\ bz = prefix_of (TIConc ci) ++ body /\
      parse_fields env fs 0 0 = EOk (ci_fields ci) /\ encode_fields env c (encode_reflect k' env c) (ci_fields ci) l = EOk body.
  Proof.
    intros Hr Hh H. rewrite marshal_eq in H. cbn [under] in H. einv H. einv H. apply EOk_inj in H. subst bz. rename a into info, a0 into body.
    destruct (struct_info t fs info Hr Hh E) as (ci & -> & Hct & M & U & Hp).
    cbn [ti_type] in E0. rewrite Hct in E0. unfold struct_like in E0. rewrite Hr in E0. cbn [negb] in E0.
    destruct k as [|k]; [discriminate E0|]. exists ci, k, body. split; [reflexivity|]. split; [exact E|]. split; [exact Hct|]. split; [reflexivity|]. split; [exact Hp|].
    cbn [encode_reflect] in E0. destruct ci as [ct cf cm cu cr]. cbn [ci_type ci_fields ci_marshal ci_unmarshal] in *. subst ct cm cu.
    unfold encode_switch in E0. cbn [ti_type ci_type] in E0. rewrite Hr in E0. unfold encode_struct in E0. cbn [ci_type ci_fields] in E0. rewrite Hr in E0.
    einv E0. apply EOk_inj in E0. cbn [finish] in E0. subst a. exact E1.
  Qed.

  Lemma unmarshal_struct fd t fs ci bz v : resolve env t = RStruct fs -> has_method env t = false ->
    get_type_info env c t = EOk (TIConc ci) ->
    (exists st, decode_fields env c (decode_reflect fd env c) (ci_fields ci) (map (fun f => zero env (sf_type f)) fs) bz 0 0 = st /\
       match st with DRet (l, bz', last) n None => consume_rest (length bz') bz' last n = DRet tt (length bz) None /\ v = VStruct l | _ => False end) ->
    unmarshal_bare (S fd) env c (prefix_of (TIConc ci) ++ bz) t (zero env t) = URet v None.
  Proof.
    intros Hr Hh H (st & Hst & Hv). destruct (struct_info t fs _ Hr Hh H) as (ci' & X & Hct & M & U & Hp). inversion X; subst ci'; clear X.
    rewrite (unmarshal_prefixed _ _ _ _ _ _ _ Hs H). unfold um_body. cbn [ti_type]. rewrite Hct. rewrite <- struct_like_eq. unfold struct_like. rewrite Hr. cbn [negb andb].
    assert (D : decode_reflect (S fd) env c bz (TIConc ci) t (zero env t) top_opts true = DRet v (length bz) None).
    { destruct t as [| | | | | | | | |id]; try discriminate Hr. cbn [decode_reflect base_of]. rewrite (zero_struct _ _ _ We Hr).
      destruct ci as [ct cf cm cu cr]. cbn [ci_type ci_fields ci_marshal ci_unmarshal] in *. subst ct cm cu.
      unfold decode_switch. cbn [ti_type ci_type]. rewrite Hr. unfold decode_struct, enter. cbn [ci_type ci_fields]. rewrite Hr.
      rewrite Hst. destruct st as [[[l bz'] last] n [e|]| |]; try contradiction. destruct Hv as [Hcr ->].
      cbn [dbind]. rewrite Hcr. cbn [dbind dmap rebuild wrap_ptrs]. reflexivity. }
    rewrite D. unfold um_finish. rewrite Nat.eqb_refl. reflexivity.
  Qed.

  Lemma norm_struct k t fs l v' : resolve env t = RStruct fs -> has_method env t = false -> norm (S k) env c t top_opts (VStruct l) = Some v' ->
    exists l', v' = VStruct l' /\ norm_fields env c (blank k env) (fixed_width k env) (norm k env c) 1 fs l = Some l'.
  Proof.
    intros Hr Hh H. destruct t as [| | | | | | | | |id]; try discriminate Hr. cbn [norm] in H. unfold has_method in Hh.
    destruct (te_marshal env id); [discriminate Hh|]. destruct (te_unmarshal env id); [discriminate Hh|]. rewrite Hr in H.
    unfold option_map in H. destruct (norm_fields _ _ _ _ _ _ _ _) as [l'|] eqn:E; [|discriminate H]. injection H as <-. exists l'. auto.
  Qed.

  Lemma old_to_new k fd t1 t2 fs gs l bz l' p1 p2 : (2 * k <= fd)%nat ->
    resolve env t1 = RStruct fs -> resolve env t2 = RStruct (fs ++ gs) ->
    has_method env t1 = false -> has_method env t2 = false -> known env c t2 = true ->
    (forall g, In g gs -> visible g = true -> known env c (sf_type g) = true) ->
    has_type env t1 (VStruct l) = true -> marshal_bare k env c t1 (VStruct l) = EOk bz -> zlen bz < 2 ^ 63 ->
    norm k env c t1 top_opts (VStruct l) = Some (VStruct l') ->
    preamble c t1 p1 -> preamble c t2 p2 ->
    exists b, bz = p1 ++ b /\
      unmarshal_bare fd env c (p2 ++ b) t2 (zero env t2) = URet (VStruct (l' ++ missing env gs)) None.
  Proof.
    intros Hfd R1 R2 M1 M2 K2 Kg Ht H Hz Hn P1 P2.
    destruct (marshal_struct k t1 fs l bz R1 M1 H) as (ci1 & k' & body & -> & G1 & C1 & -> & F1 & E).
    unfold known in K2. destruct (get_type_info env c t2) as [info2| | |] eqn:G2; try discriminate K2. clear K2.
    destruct (struct_info t2 _ info2 R2 M2 G2) as (ci2 & -> & C2 & _ & _ & F2).
    pose proof (preamble_prefix t1 fs _ p1 R1 G1 P1) as X1. pose proof (preamble_prefix t2 _ _ p2 R2 G2 P2) as X2. rewrite X1 in *.
    exists body. split; [reflexivity|]. rewrite <- X2.
    destruct (norm_struct k' t1 fs l _ R1 M1 Hn) as (l2 & X & Nf). inversion X; subst l2; clear X.
    destruct fd as [|[|fd]]; [lia|lia|].
    destruct (parse_app _ _ _ _ _ _ F2) as (a & b & Ef & Fa & num' & Fb & Hnum). rewrite F1 in Fa. apply EOk_inj in Fa. subst a. cbn [Nat.add] in Fb.
    rewrite zlen_app in Hz. pose proof (zlen_nonneg p1).
    cbn [has_type] in Ht. rewrite R1 in Ht.
    destruct (fields_rt env We c Hs _ _ _ _ (encode_lead env We c Hs Hm k') (decode_reflect (S fd) env c) (decode_reflect fd env c)
      (encode_decode env We c Hc Hs Hm k' (S fd) ltac:(lia)) (encode_decode env We c Hc Hs Hm k' fd ltac:(lia)) (decode_list_unfold env c fd) (blank_num env k')
      fs 0%nat 0%nat (ci_fields ci1) [] l body l' [] 0 0%nat [] F1 eq_refl Ht E ltac:(lia) Nf eq_refl ltac:(lia) (or_introl eq_refl)) as [_ (last' & _ & D)].
    cbn [app Nat.add] in D. rewrite app_nil_r in D.
    apply (unmarshal_struct (S fd) t2 (fs ++ gs) ci2 body _ R2 M2 G2). eexists. split; [reflexivity|].
    rewrite Ef, decode_fields_app, map_app, decode_fields_frame by (rewrite map_length; exact (parse_index env fs 0%nat 0%nat _ F1)).
    rewrite D. cbn [with_ex dbind].
    assert (Ll : length l' = length fs).
    { clear -Nf. revert Nf. generalize 1. revert l l'. induction fs as [|f fs IH]; intros [|v l] l' z N; cbn [norm_fields] in N; try discriminate N; [injection N as <-; reflexivity|].
      destruct (field_opts _ _).
      - destruct (_ <=? _); [discriminate N|]. destruct (norm_field _ _ _ _ _ _ _ _); [|discriminate N].
        destruct (norm_fields _ _ _ _ _ _ _ _) eqn:E; [|discriminate N]. injection N as <-. cbn. f_equal. eapply IH. exact E.
      - unfold option_map in N. destruct (norm_fields _ _ _ _ _ _ _ _) eqn:E; [|discriminate N]. injection N as <-. cbn. f_equal. eapply IH. exact E. }
    rewrite (decode_nothing env c _ gs (length fs) num' b l' last' (length body) Fb Ll Kg). cbn [consume_rest length]. split; reflexivity.
  Qed.

  Lemma forall2b_app {A B} (p : A -> B -> bool) : forall a b l, forall2b p (a ++ b) l = true ->
    exists l1 l2, l = l1 ++ l2 /\ length l1 = length a /\ forall2b p a l1 = true /\ forall2b p b l2 = true.
  Proof.
    induction a as [|x a IH]; intros b l H; [exists [], l; auto|]. destruct l as [|y l]; [discriminate H|]. cbn [app forall2b] in H.
    apply andb_true_iff in H. destruct H as [H1 H]. destruct (IH _ _ H) as (l1 & l2 & -> & L & A1 & A2). exists (y :: l1), l2.
    cbn. rewrite L, H1, A1. auto.
  Qed.

  Lemma new_to_old mem k fd t1 t2 fs gs l1 l2 bz l' p1 p2 : regular env c mem -> (2 * k <= fd)%nat ->
    resolve env t1 = RStruct fs -> resolve env t2 = RStruct (fs ++ gs) ->
    has_method env t1 = false -> has_method env t2 = false -> known env c t1 = true ->
    mem t2 = true -> length l1 = length fs -> single env gs l2 ->
    has_type env t2 (VStruct (l1 ++ l2)) = true -> marshal_bare k env c t2 (VStruct (l1 ++ l2)) = EOk bz -> zlen bz < 2 ^ 63 ->
    norm k env c t1 top_opts (VStruct l1) = Some (VStruct l') ->
    preamble c t1 p1 -> preamble c t2 p2 ->
    exists b, bz = p2 ++ b /\
      unmarshal_bare fd env c (p1 ++ b) t1 (zero env t1) = URet (VStruct l') None.
  Proof.
    intros Hreg Hfd R1 R2 M1 M2 K1 Hmem Ll Hsi Ht H Hz Hn P1 P2.
    destruct (marshal_struct k t2 _ _ bz R2 M2 H) as (ci2 & k' & body & -> & G2 & C2 & -> & F2 & E).
    unfold known in K1. destruct (get_type_info env c t1) as [info1| | |] eqn:G1; try discriminate K1. clear K1.
    destruct (struct_info t1 _ info1 R1 M1 G1) as (ci1 & -> & C1 & _ & _ & F1).
    pose proof (preamble_prefix t1 fs _ p1 R1 G1 P1) as X1. pose proof (preamble_prefix t2 _ _ p2 R2 G2 P2) as X2. rewrite X2 in *.
    exists body. split; [reflexivity|]. rewrite <- X1.
    destruct (norm_struct k' t1 fs l1 _ R1 M1 Hn) as (lx & X & Nf). inversion X; subst lx; clear X.
    destruct fd as [|[|fd]]; [lia|lia|].
    destruct (parse_app _ _ _ _ _ _ F2) as (a & b & Ef & Fa & num' & Fb & Hnum). rewrite F1 in Fa. apply EOk_inj in Fa. subst a. cbn [Nat.add] in Fb.
    rewrite zlen_app in Hz. pose proof (zlen_nonneg p2).
    cbn [has_type] in Ht. rewrite R2 in Ht. destruct (forall2b_app _ _ _ _ Ht) as (x1 & x2 & Ex & Lx & T1 & T2).
    assert (x1 = l1 /\ x2 = l2) as [-> ->].
    { clear -Ex Lx Ll. assert (L : length l1 = length x1) by congruence. clear Lx Ll. revert x1 Ex L. induction l1 as [|y l1 IH]; intros [|z x1] E L; try discriminate L; [auto|].
      cbn in E, L. injection E as -> E. injection L as L. destruct (IH _ E L) as [-> ->]. auto. }
    rewrite Ef, encode_fields_app in E. einv E. einv E. apply EOk_inj in E. subst body. rename a into b1, a0 into b2.
    rewrite encode_fields_frame in E0 by (rewrite Ll; exact (parse_index env fs 0%nat 0%nat _ F1)).
    rewrite zlen_app in Hz. pose proof (zlen_nonneg b1). pose proof (zlen_nonneg b2).
    pose proof (Hreg t2 Hmem) as Rt. unfold regular_type in Rt.
    assert (Rg : regular_fields env mem 1 (fs ++ gs) = true).
    { unfold has_method in M2. destruct t2 as [| | | | | | | | |id]; try discriminate R2. destruct (te_marshal env id); [discriminate M2|]. rewrite R2 in Rt. exact Rt. }
    assert (Rg2 : regular_fields env mem (Z.of_nat num' + 1) gs = true).
    { rewrite Hnum. clear -Rg. cbn [Z.of_nat]. rewrite Z.add_0_l. revert Rg. replace (live fs + 1) with (1 + live fs) by lia. generalize 1.
      induction fs as [|f fs IH]; intros z Rg; [change (live []) with 0; rewrite Z.add_0_r; exact Rg|]. cbn [app regular_fields] in Rg. rewrite (live_cons f fs z).
      destruct (field_opts z f); [|apply IH; exact Rg]. apply andb_true_iff in Rg. destruct Rg as [_ Rg]. replace (z + (live fs + 1)) with (z + 1 + live fs) by lia. apply IH. exact Rg. }
    destruct (fields_wire env We c Hs mem k' (encode_wire env We c Hc Hs Hm mem Hreg k') gs (length fs) num' b l1 l2 b2 Fb Ll T2 Rg2 E1 ltac:(lia)) as (es & Hf & Hb).
    pose proof (payloads_ok env We c Hm _ _ _ _ _ Hf T2 Hb ltac:(lia)) as Po.
    pose proof (fields_increasing env c mem _ _ _ _ Hf ltac:(lia) Rg2 Hsi) as Inc. replace (Z.of_nat num' + 1 - 1) with (Z.of_nat num') in Inc by lia.
    rewrite Hnum in Inc. cbn [Z.of_nat] in Inc. rewrite Z.add_0_l in Inc. pose proof (live_nonneg fs) as Lv.
    destruct (fields_rt env We c Hs _ _ _ _ (encode_lead env We c Hs Hm k') (decode_reflect (S fd) env c) (decode_reflect fd env c)
      (encode_decode env We c Hc Hs Hm k' (S fd) ltac:(lia)) (encode_decode env We c Hc Hs Hm k' fd ltac:(lia)) (decode_list_unfold env c fd) (blank_num env k')
      fs 0%nat 0%nat (ci_fields ci1) [] l1 b1 l' [] 0 0%nat b2 F1 eq_refl T1 E0 ltac:(lia) Nf eq_refl ltac:(lia) (message_key _ _ _ Hb Inc)) as [_ (last' & Hlast & D)].
    cbn [app Nat.add] in D. cbn [Z.of_nat] in Hlast.
    apply (unmarshal_struct (S fd) t1 fs ci1 _ _ R1 M1 G1). eexists. split; [reflexivity|]. rewrite D. split; [|reflexivity].
    assert (C0 : forall last, last <= live fs -> consume_rest (length b2) b2 last (length b1) = DRet tt (length b1 + length b2) None).
    { clear -Hb Inc Po. intros last Hl. apply (consume_message es b2 Hb); try assumption; [lia|]. eapply increasing_le; [|exact Inc]. exact Hl. }
    rewrite C0 by lia. rewrite app_length. reflexivity.
  Qed.

  (** The old fields of a value of the new type can be written on their own. *)
  Lemma marshal_old k t1 t2 fs gs l1 l2 bz : resolve env t1 = RStruct fs -> resolve env t2 = RStruct (fs ++ gs) ->
    has_method env t1 = false -> has_method env t2 = false -> known env c t1 = true -> length l1 = length fs ->
    marshal_bare k env c t2 (VStruct (l1 ++ l2)) = EOk bz ->
    exists b1, marshal_bare k env c t1 (VStruct l1) = EOk b1.
  Proof.
    intros R1 R2 M1 M2 K1 Ll H.
    destruct (marshal_struct k t2 _ _ bz R2 M2 H) as (ci2 & k' & body & -> & G2 & C2 & -> & F2 & E).
    unfold known in K1. destruct (get_type_info env c t1) as [info1| | |] eqn:G1; try discriminate K1. clear K1.
    destruct (struct_info t1 _ info1 R1 M1 G1) as (ci1 & -> & C1 & Mm & Mu & F1).
    destruct (parse_app _ _ _ _ _ _ F2) as (a & b & Ef & Fa & num' & Fb & Hnum). rewrite F1 in Fa. apply EOk_inj in Fa. subst a. cbn [Nat.add] in Fb.
    rewrite Ef, encode_fields_app in E. einv E. einv E. apply EOk_inj in E. subst body. rename a into b1, a0 into b2.
    rewrite encode_fields_frame in E0 by (rewrite Ll; exact (parse_index env fs 0%nat 0%nat _ F1)).
    exists (prefix_of (TIConc ci1) ++ b1). rewrite marshal_eq. cbn [under]. rewrite G1. cbn [ebind ti_type]. rewrite C1. unfold struct_like. rewrite R1. cbn [negb].
      cbn [encode_reflect]. destruct ci1 as [ct cf cm cu cr]. cbn [ci_type ci_fields ci_marshal ci_unmarshal] in *. subst ct cm cu.
      unfold encode_switch. cbn [ti_type ci_type]. rewrite R1. unfold encode_struct. cbn [ci_type ci_fields]. rewrite R1, E0. reflexivity.
  Qed.
End Calls.
