(** What the encoder writes is the wire format of SpecProto.v. *)
From Coq Require Import ZArith String List Bool Lia.
From Coq Require Import ZifyBool ZifyNat.
From Verif Require Import Base Prims SpecWire PrimFacts PrimProps Types Codec BinEnc BinDec Amino FuelFacts Registry SpecRegistry RegistryFacts Sane Typing DecSafe
  SpecNorm EncFacts FrameFacts SpecProto.
Import ListNotations.
Local Open Scope Z_scope.

(** ** Payloads *)

Lemma leb_zero : leb128_min [0] 0.
Proof. exists [], 0. splits; [reflexivity|constructor|unfold digit128; lia|reflexivity|left; reflexivity]. Qed.
Lemma leb_nonnil b u : leb128_min b u -> b <> [].
Proof. intros (ds & x & -> & _). destruct ds; discriminate. Qed.
Lemma pay_empty : payload_bytes (Plen []) [0].
Proof. apply (pb_len [0] []). exact leb_zero. Qed.
Lemma pay_slice b : zlen b < 2 ^ 63 -> payload_bytes (Plen b) (encode_byte_slice b).
Proof. intros H. apply pb_len. apply encode_uvarint_leb. unfold zlen in *. lia. Qed.
Lemma pay_uvarint u : 0 <= u < 2 ^ 64 -> payload_bytes (Pvarint u) (encode_uvarint u).
Proof. intros H. constructor. apply encode_uvarint_leb. exact H. Qed.
Lemma pay_le64 u : 0 <= u < 2 ^ 64 -> payload_bytes (P64 u) (put_le 8 u).
Proof. intros H. rewrite <- (put_le_val 8 u) at 1 by exact H. constructor; [apply put_le_length|]. exact (put_le_ok 8 u). Qed.
Lemma pay_le32 u : 0 <= u < 2 ^ 32 -> payload_bytes (P32 u) (put_le 4 u).
Proof. intros H. rewrite <- (put_le_val 4 u) at 1 by exact H. constructor; [apply put_le_length|]. exact (put_le_ok 4 u). Qed.

(** A payload is a single zero byte exactly when it is zero. *)
Lemma leb_zero_inv b u : leb128_min b u -> (b = [0] <-> u = 0).
Proof.
  intros (ds & x & -> & Hd & Hx & -> & Hm). split.
  - destruct ds as [|d ds]; cbn [map app val128]; [intros H; inversion H; lia|]. intros H. inversion H. destruct ds; discriminate.
  - intros H. destruct Hm as [->|Hm]; [cbn [map app val128] in *; f_equal; lia|]. exfalso. clear -H Hd Hx Hm. unfold digit128 in Hx.
    assert (P : forall ds, Forall digit128 ds -> 0 < val128 (ds ++ [x])).
    { clear H Hd ds. induction 1 as [|d ds H _ IH]; cbn [app val128]; [lia|]. unfold digit128 in H. lia. }
    specialize (P ds Hd). lia.
Qed.
Lemma pay_zero q b : payload_bytes q b -> (b = [0] <-> zero_payload q = true).
Proof.
  intros H. destruct H as [u b H|b L _|b L _|l b H]; cbn [zero_payload].
  - rewrite (leb_zero_inv _ _ H). lia.
  - split; [intros ->; discriminate|discriminate].
  - split; [intros ->; discriminate|discriminate].
  - split.
    + destruct b as [|x b]; [reflexivity|]. intros E. destruct l as [|y l]; [exfalso; exact (leb_nonnil _ _ H eq_refl)|].
      cbn in E. inversion E. destruct l; discriminate.
    + destruct b as [|x b]; [|discriminate]. intros _. rewrite app_nil_r. apply (leb_zero_inv _ _ H). reflexivity.
Qed.

Lemma u64_mod z : u64 z = z mod 2 ^ 64.
Proof. reflexivity. Qed.
Lemma prim_payload p o v bz : prim_has p v = true -> zlen bz < 2 ^ 63 -> encode_prim p v o = EOk bz ->
  exists q, prim_wire p o v = Some q /\ payload_bytes q bz.
Proof.
  intros Hp Hz H.
  assert (M : forall z, 0 <= z mod 2 ^ 64 < 2 ^ 64) by (intros z; apply Z.mod_pos_bound; reflexivity).
  assert (M4 : forall z, 0 <= z mod 2 ^ 32 < 2 ^ 32) by (intros z; apply Z.mod_pos_bound; reflexivity).
  assert (U : forall u b, 0 <= u < 2 ^ 64 -> EOk (encode_uvarint u) = EOk b -> payload_bytes (Pvarint u) b).
  { intros u b Hu X. apply EOk_inj in X. subst b. apply pay_uvarint. exact Hu. }
  assert (V : forall w i b, 8 <= w <= 16 -> in_int w i = true -> EOk (encode_varint (iwrap w i)) = EOk b -> payload_bytes (Pvarint (zigzag i)) b).
  { intros w i b Hw Hi X. apply EOk_inj in X. subst b. unfold in_int in Hi.
    assert (B : 2 ^ (w - 1) <= 2 ^ 15) by (apply Z.pow_le_mono_r; lia).
    rewrite iwrap_small by lia. constructor. unfold encode_varint. change (put_uvarint 10) with encode_uvarint.
    rewrite put_varint_u_zigzag by lia. apply encode_uvarint_leb. apply zigzag_range. lia. }
  destruct p, v; cbn [prim_has] in Hp; try discriminate; cbn [encode_prim prim_wire] in *; eexists; (split; [reflexivity|]).
  all: try (apply U; [try apply M; unfold in_uint in Hp; lia|exact H]).
  - destruct b; cbn [encode_bool] in H; apply U; try lia; exact H.
  - apply (V 8); try lia; assumption.
  - apply (V 16); try lia; assumption.
  - destruct (fo_fixed32 o); [|apply U; [apply M|exact H]]. apply EOk_inj in H. subst bz. unfold encode_int32.
    unfold in_int in Hp. rewrite i32_small by lia. apply pay_le32. apply M4.
  - destruct (fo_fixed64 o); [|apply U; [apply M|exact H]]. apply EOk_inj in H. subst bz. unfold encode_int64. apply pay_le64. apply M.
  - apply U; [unfold in_uint in Hp; lia|]. unfold encode_uint8, uwrap in H. rewrite Z.mod_small in H by (unfold in_uint in Hp; lia). exact H.
  - apply U; [unfold in_uint in Hp; lia|]. unfold encode_uint16, uwrap in H. rewrite Z.mod_small in H by (unfold in_uint in Hp; lia). exact H.
  - unfold in_uint in Hp. destruct (fo_fixed32 o); [|apply U; [lia|exact H]]. apply EOk_inj in H. subst bz. rewrite u32_small by lia. apply pay_le32. lia.
  - unfold in_uint in Hp. destruct (fo_fixed64 o); [|apply U; [lia|exact H]]. apply EOk_inj in H. subst bz. apply pay_le64. lia.
  - destruct (fo_unsafe o); [|discriminate]. apply EOk_inj in H. subst bz. apply pay_le32. change (f32conv bits) with (quiet32 bits).
    unfold in_uint in Hp. apply f32conv_range. lia.
  - destruct (fo_unsafe o); [|discriminate]. apply EOk_inj in H. subst bz. apply pay_le64. unfold in_uint in Hp. lia.
  - apply EOk_inj in H. subst bz. apply pay_slice. pose proof (zlen_byte_slice s). unfold encode_string in Hz. lia.
Qed.

(** ** Messages *)

Lemma message_app es1 b1 : message es1 b1 -> forall es2 b2, message es2 b2 -> message (es1 ++ es2) (b1 ++ b2).
Proof.
  induction 1 as [|num q key b es bs Hk Hq _ IH]; intros es2 b2 H2; [exact H2|].
  rewrite <- !app_assoc. cbn [app]. constructor; auto.
Qed.
Lemma key_leb num z : 0 <= num < 2 ^ 29 -> 0 <= z < 8 -> leb128_min (key_bytes num z) (num * 8 + z).
Proof. intros. apply encode_uvarint_leb. lia. Qed.
Lemma message_one num q b : 0 <= num < 2 ^ 29 -> payload_bytes q b -> message [(num, q)] (key_bytes num (wire_type q) ++ b).
Proof.
  intros Hn Hq. replace (key_bytes num (wire_type q) ++ b) with (key_bytes num (wire_type q) ++ b ++ []) by (rewrite app_nil_r; reflexivity).
  constructor; [|exact Hq|constructor]. apply key_leb; [exact Hn|destruct q; cbn; lia].
Qed.

Lemma time_message s ns : time_ok s ns ->
  message (time_entries s ns) ((if s =? 0 then [] else key_bytes 1 0 ++ encode_uvarint (u64 s)) ++ (if ns =? 0 then [] else key_bytes 2 0 ++ encode_uvarint ns)).
Proof.
  unfold time_ok, max_nanos. intros [_ Hns]. apply message_app.
  - destruct (s =? 0); [constructor|]. apply (message_one 1 (Pvarint (s mod 2 ^ 64))); [lia|]. apply pay_uvarint. apply Z.mod_pos_bound. reflexivity.
  - destruct (ns =? 0); [constructor|]. apply (message_one 2 (Pvarint ns)); [lia|]. apply pay_uvarint. lia.
Qed.

(** ** Types *)

Lemma typ3_wire env t o z : type_to_typ3 env t o = EOk z -> (forall a b, resolve env t <> RMap a b) -> type_wire env t o = Some z.
Proof.
  unfold type_to_typ3, type_wire. intros H Hm. destruct (resolve env t) as [p| |n e|e|e|a e| | |i|fs|]; try discriminate.
  - destruct p; try (destruct (fo_fixed64 o)); try (destruct (fo_fixed32 o)); apply EOk_inj in H; subst z; reflexivity.
  - apply EOk_inj in H; subst z; reflexivity.
  - apply EOk_inj in H; subst z; reflexivity.
  - apply EOk_inj in H; subst z; reflexivity.
  - exfalso. exact (Hm a e eq_refl).
  - apply EOk_inj in H; subst z; reflexivity.
  - apply EOk_inj in H; subst z; reflexivity.
Qed.
Lemma type_wire_typ3 env t o z w : type_to_typ3 env t o = EOk z -> type_wire env t o = Some w -> z = w.
Proof.
  intros H1 H2. rewrite (typ3_wire env t o z H1) in H2; [congruence|]. intros a b X. unfold type_wire in H2. rewrite X in H2. discriminate.
Qed.
Lemma delimited_wire env e o w : delimited env e = true -> type_wire env (deref_type e) o = Some w -> w = 2.
Proof.
  unfold delimited, type_wire. destruct (resolve env (deref_type e)) as [p| | | | | | | | | |]; try discriminate; try congruence.
  destruct p; try discriminate. congruence.
Qed.
Lemma list_elem_of env t e : elem_type env t = Some e -> list_of env t e.
Proof.
  unfold elem_type, list_of. destruct (resolve env t); try discriminate; intros H; inversion H; subst; eauto.
Qed.
Lemma list_items v l : list_elems v = Some l -> items v l.
Proof. destruct v as [| | | | | |l0|[l0|]| | | | | | |]; try discriminate; intros H; inversion H; subst; constructor. Qed.
Lemma bytes_items env e l : is_uint8 env e = true -> forallb (has_type env e) l = true -> l = map VUint (val_bytes l).
Proof.
  unfold is_uint8. destruct (resolve env e) as [p| | | | | | | | | |] eqn:Er; try discriminate. destruct p; try discriminate. intros _.
  induction l as [|v l IH]; [reflexivity|]. cbn [forallb]. intros H. apply andb_true_iff in H. destruct H as [Hv Hl].
  cbn [val_bytes map]. f_equal; [|exact (IH Hl)]. rewrite (has_type_prim _ _ _ _ Er) in Hv. destruct v; try discriminate. reflexivity.
Qed.

Lemma default_some v : defaultv v = false -> exists w, under v = Some w.
Proof.
  intros H. rewrite <- default_eq in H. unfold is_default_value in H. rewrite deref_pointers_under in H. destruct (under v); [eauto|discriminate].
Qed.

(** ** The encoder *)

Section Main.
  Variable env : tenv.
  Hypothesis We : wf_env env.
  Variable c : codec.
  Hypothesis Hc : wf_codec env c.
  Hypothesis Hs : sane_codec env c.
  Hypothesis Hm : marshal_typed env.
  Variable mem : gotype -> bool.
  Hypothesis Hreg : regular env c mem.

  Definition wire_ok (k : nat) : Prop := forall info t v o bare bz, minfo env c info t -> deref_type t = t -> mem t = true ->
    has_type env t v = true -> 0 <= fo_num o -> encode_reflect k env c info v o bare = EOk bz -> zlen bz < 2 ^ 63 ->
    exists m q, wire env c t o v m q /\ (if bare && m then q = Plen bz else payload_bytes q bz) /\ type_wire env t o = Some (wire_type q).

  Lemma encode_invalid k info o bare bz : encode_reflect k env c info VInvalid o bare = EOk bz -> False.
  Proof. destruct k; discriminate. Qed.

  Section Step.
  Variable k : nat.
  Hypothesis IH : wire_ok k.

  Lemma packed_wire e einfo o l : forall buf, 0 <= fo_num o -> minfo env c einfo e -> mem (deref_type e) = true ->
    forallb (has_type env e) l = true -> encode_packed env (encode_reflect k env c) e einfo l o = EOk buf -> zlen buf < 2 ^ 63 ->
    packed env c e o l buf.
  Proof.
    induction l as [|v l IHl]; intros buf Hnum Hi Hme Hl H Hz; cbn [encode_packed] in H.
    - apply EOk_inj in H. subst. constructor.
    - einv H. einv H. apply EOk_inj in H. subst buf. rewrite zlen_app in Hz. pose proof (zlen_nonneg a). pose proof (zlen_nonneg a0).
      cbn [forallb] in Hl. apply andb_true_iff in Hl. destruct Hl as [Hv Hl].
      rewrite deref_zero_under in E. apply (packed_typed env We) in Hv.
      destruct (IH _ _ _ _ _ _ (minfo_deref _ _ _ _ Hi) (deref_idem e) Hme Hv Hnum E ltac:(lia)) as (m & q & Hw & Hq & _).
      cbn [andb] in Hq. econstructor; [exact Hw|exact Hq|]. apply IHl; auto. lia.
  Qed.

  Lemma elems_wire e einfo o l : forall buf, 0 <= fo_num o -> minfo env c einfo e -> mem (deref_type e) = true -> delimited env e = true ->
    forallb (has_type env e) l = true -> encode_unpacked env (encode_reflect k env c) e einfo l o = EOk buf -> zlen buf < 2 ^ 63 ->
    exists es, elems env c (fo_num o) e o l es /\ message es buf.
  Proof.
    induction l as [|v l IHl]; intros buf Hnum Hi Hme Hd Hl H Hz; cbn [encode_unpacked] in H.
    - apply EOk_inj in H. subst. exists []. split; constructor.
    - einv H. rewrite default_pair in H. einv H. einv H. apply EOk_inj in H. subst buf. rewrite !zlen_app in Hz.
      pose proof (zlen_nonneg a). pose proof (zlen_nonneg a0). pose proof (zlen_nonneg a1).
      apply key_ok_inv in E; [|assumption|unfold Typ3ByteLength; lia]. destruct E as [Hn2 ->].
      cbn [forallb] in Hl. apply andb_true_iff in Hl. destruct Hl as [Hv Hl].
      destruct (IHl a1 Hnum Hi Hme Hd Hl E1 ltac:(lia)) as (es & He & Hes).
      destruct (defaultv v) eqn:Ed.
      + destruct (_ && _ && _); [discriminate|]. apply EOk_inj in E0. subst a0. exists ((fo_num o, Plen []) :: es). split.
        * apply el_default; assumption.
        * constructor; [apply (key_leb (fo_num o) 2); lia|exact pay_empty|exact Hes].
      + destruct (default_some _ Ed) as [w Hw]. rewrite Hw in E0.
        pose proof (under_typed _ We _ _ _ Hv Hw) as Hwt.
        destruct (IH _ _ _ _ _ _ (minfo_deref _ _ _ _ Hi) (deref_idem e) Hme Hwt (Z.le_0_1 : 0 <= fo_num (set_num 1 o)) E0 ltac:(lia)) as (m & q & Hq & Hb & Ht).
        cbn [andb] in Hb. exists ((fo_num o, q) :: es). split.
        * eapply el_cons; try eassumption. exact (delimited_wire _ _ _ _ Hd Ht).
        * constructor; [|exact Hb|exact Hes]. rewrite (delimited_wire _ _ _ _ Hd Ht). apply (key_leb (fo_num o) 2); lia.
  Qed.

  Lemma list_wire info t v o bare bz : minfo env c info t -> deref_type t = t -> has_type env t v = true -> 0 <= fo_num o ->
    (forall e, elem_type env t = Some e -> mem (deref_type e) = true) ->
    encode_list env c (encode_reflect k env c) info v o bare = EOk bz -> zlen bz < 2 ^ 63 ->
    exists e l buf, elem_type env t = Some e /\ is_uint8 env e = false /\ list_elems v = Some l /\ bz = finish bare buf /\
      if delimited env e then exists es, elems env c (fo_num o) e o l es /\ message es buf else packed env c e o l buf.
  Proof.
    intros Hi Hd Ht Hn Hme H Hz. apply encode_list_inv in H. destruct H as (e & einfo & l & buf & He & Hu & Hg & Hl & -> & [z Hz3] & H).
    pose proof (minfo_type _ _ _ _ Hi) as Ety. rewrite Hd in Ety. rewrite Ety in He.
    specialize (H z Hz3). pose proof (gti_minfo _ _ _ _ Hs Hg) as Hei. rewrite (typ3_elem _ _ _ _ _ _ Hei Hz3) in H.
    pose proof (elem_typed _ _ _ _ _ He Ht Hl) as Hte. specialize (Hme _ He).
    assert (Hzb : zlen buf < 2 ^ 63) by (destruct bare; cbn [finish] in Hz; [exact Hz|pose proof (zlen_byte_slice buf); lia]).
    exists e, l, buf. splits; try assumption; try reflexivity.
    destruct (delimited env e) eqn:Ed; [eapply elems_wire; eassumption|eapply packed_wire; eassumption].
  Qed.

  Lemma fields_wire : forall fs i num infos pre l buf, parse_fields env fs i num = EOk infos -> length pre = i ->
    forall2b (fun f w => has_type env (sf_type f) w) fs l = true -> regular_fields env mem (Z.of_nat num + 1) fs = true ->
    encode_fields env c (encode_reflect k env c) infos (pre ++ l) = EOk buf -> zlen buf < 2 ^ 63 ->
    exists es, fields env c (Z.of_nat num + 1) fs l es /\ message es buf.
  Proof.
    induction fs as [|f fs IHf]; intros i num infos pre l buf Hp Hpre Ht Hrf H Hz.
    - cbn [parse_fields] in Hp. apply EOk_inj in Hp. subst infos. cbn [encode_fields] in H. apply EOk_inj in H. subst buf.
      destruct l; [|discriminate]. exists []. split; constructor.
    - destruct l as [|v l]; [discriminate|]. cbn [forall2b] in Ht. apply andb_true_iff in Ht. destruct Ht as [Hv Hl].
      apply parse_step in Hp. cbn [regular_fields] in Hrf.
      assert (A : pre ++ v :: l = (pre ++ [v]) ++ l) by (rewrite <- app_assoc; reflexivity).
      assert (Lp : length (pre ++ [v]) = S i) by (rewrite app_length; cbn; lia).
      destruct (field_opts (Z.of_nat num + 1) f) as [o|] eqn:Eo.
      + destruct Hp as (fi & rest & -> & Hix & Hty & Hup & Hop & _ & Hrest). cbn [encode_fields] in H. einv H. einv H.
        apply EOk_inj in H. subst buf. rewrite Hix, app_nth2, <- Hpre, Nat.sub_diag in E by lia. cbn [nth] in E.
        rewrite A in E0. rewrite zlen_app in Hz. pose proof (zlen_nonneg a). pose proof (zlen_nonneg a0).
        apply andb_true_iff in Hrf. destruct Hrf as [Hrf Hrfs]. apply andb_true_iff in Hrf. destruct Hrf as [Hnm Hrf].
        replace (Z.of_nat num + 1 + 1) with (Z.of_nat (S num) + 1) in Hrfs by lia.
        destruct (IHf _ _ _ (pre ++ [v]) l a0 Hrest Lp Hl Hrfs E0 ltac:(lia)) as (es & Hf & Hes).
        replace (Z.of_nat (S num) + 1) with (Z.of_nat num + 1 + 1) in Hf by lia.
        assert (Ho : fi_opts fi = o /\ fo_num o = Z.of_nat num + 1).
        { rewrite Hop. unfold field_opts in Eo. destruct (sf_exported f); [|discriminate]. destruct (parse_field_options f) as [o0|]; [|discriminate].
          cbn [option_map] in Eo. inversion Eo; subst o. rewrite set_num_set, u32_small by lia. split; reflexivity. }
        destruct Ho as [Ho Hon]. assert (Hon0 : 0 <= fo_num o) by lia. unfold encode_field in E. einv E. rewrite default_pair, Ho, Hup in E.
        rewrite Hty in E1. pose proof (gti_minfo _ _ _ _ Hs E1) as Hi.
        destruct (defaultv v && negb (fo_write_empty o)) eqn:Edef.
        { apply EOk_inj in E. subst a. exists es. split; [|exact Hes]. apply andb_true_iff in Edef. destruct Edef as [Ed1 Ed2].
          eapply fl_default; try eassumption. destruct (fo_write_empty o); [discriminate|reflexivity]. }
        destruct (entries env (sf_type f)) eqn:Een.
        * destruct (entries_elem env _ Een) as (e & He & Hde & _). pose proof (elem_nonptr env _ _ He) as Hnp.
          rewrite (under_nonptr _ _ _ Hv Hnp We) in E.
          assert (Hme : forall e, elem_type env (sf_type f) = Some e -> mem (deref_type e) = true).
          { intros e' He'. unfold elem_type in He'. destruct (resolve env (sf_type f)); try discriminate; inversion He'; subst; exact Hrf. }
          destruct (list_wire _ _ _ _ _ _ Hi (deref_nonptr _ Hnp) Hv Hon0 Hme E ltac:(lia)) as (e' & l' & buf & He' & _ & Hle & -> & W).
          rewrite He in He'. inversion He'; subst e'. rewrite Hde in W. destruct W as (es' & We' & Wm). cbn [finish] in *.
          exists (es' ++ es). split; [|apply message_app; assumption]. rewrite Hon in We'.
          eapply fl_list; try eassumption; [apply list_elem_of; exact He|apply list_items; exact Hle].
        * unfold write_field in E. einv E. einv E. einv E. rewrite (minfo_type _ _ _ _ Hi) in E2.
          pose proof (key_ok_inv _ _ _ Hon0 (typ3_range _ _ _ _ E2) E3) as [Hn2 ->].
          destruct (under v) as [w|] eqn:Eu; [|exfalso; eapply encode_invalid; eassumption].
          pose proof (under_typed _ We _ _ _ Hv Eu) as Hwt. rewrite (val_ptr_typed _ _ _ We Hv) in E.
          assert (La : zlen a4 < 2 ^ 63).
          { destruct (negb _ && beqb a4 [0]) eqn:Eb; [apply andb_true_iff in Eb; destruct Eb as [_ Eb]; apply beqb_eq in Eb; subst a4; reflexivity|].
            apply EOk_inj in E. subst a. rewrite zlen_app in Hz. pose proof (zlen_nonneg (key_bytes (fo_num o) a2)). lia. }
          destruct (IH _ _ _ _ _ _ (minfo_deref _ _ _ _ Hi) (deref_idem _) Hrf Hwt Hon0 E4 La) as (m & q & Hq & Hb & Htw).
          cbn [andb] in Hb. rewrite (type_wire_typ3 _ _ _ _ _ E2 Htw), Hon in *. pose proof (pay_zero _ _ Hb) as PZ.
          destruct (negb _ && beqb a4 [0]) eqn:Eb; apply EOk_inj in E; subst a.
          -- apply andb_true_iff in Eb. destruct Eb as [Eb1 Eb2]. apply beqb_eq in Eb2. apply PZ in Eb2.
             apply negb_true_iff, orb_false_iff in Eb1. destruct Eb1 as [Ew Ep].
             exists es. split; [|exact Hes]. eapply fl_zero; eassumption.
          -- exists ((Z.of_nat num + 1, q) :: es). split.
             ++ eapply fl_one; try eassumption. destruct (fo_write_empty o || is_ptr (sf_type f)) eqn:Ew; [reflexivity|]. cbn [orb negb andb] in *.
                destruct (zero_payload q) eqn:Ez; [|reflexivity]. rewrite (proj2 PZ eq_refl) in Eb. discriminate.
             ++ apply (message_app [(Z.of_nat num + 1, q)]); [|exact Hes]. apply message_one; [lia|exact Hb].
      + rewrite A in H. destruct (IHf _ _ _ (pre ++ [v]) l buf Hp Lp Hl Hrf H Hz) as (es & Hf & Hes).
        exists es. split; [|exact Hes]. apply fl_skip; assumption.
  Qed.
  End Step.

  Lemma gti_registered t ci r : get_type_info env c t = EOk (TIConc ci) -> ci_reg ci = Some r -> In ci (cd_concretes c).
  Proof.
    unfold get_type_info. cbv zeta. intros H Hr.
    assert (G : forall rt, match assoc gotype_eqb rt (cd_types c) with
      | Some ci => EOk (TIConc ci) | None => ebind (new_type_info env rt) (fun ci => EOk (TIConc ci)) end = EOk (TIConc ci) -> In ci (cd_concretes c)).
    { intros rt X. destruct (assoc gotype_eqb rt (cd_types c)) as [ci'|] eqn:Ea.
      - apply EOk_inj in X. inversion X; subst ci'. destruct (wc_types _ _ Hc _ _ Ea) as [Et _]. apply (wc_conc _ _ Hc). rewrite Et. split; [exact Ea|]. rewrite Hr. discriminate.
      - einv X. apply EOk_inj in X. inversion X; subst a. apply new_type_info_spec in E. destruct E as (_ & _ & E). congruence. }
    destruct (deref_type t); try (apply (G _ H)). destruct (find_iface i (cd_ifaces c)); discriminate.
  Qed.

  Lemma ambiguous_need ii r : In ii (cd_ifaces c) ->
    (ii_always ii || (1 <? length (impls_of ii (ri_prefix r)))%nat = true <-> ambiguous env c (ii_id ii) (ri_prefix r)).
  Proof.
    intros Hin. rewrite (wc_impls _ _ Hc _ _ Hin). set (P := fun ci => _).
    assert (PI : forall ci, In ci (filter P (cd_concretes c)) <-> implementer env c (ii_id ii) (ri_prefix r) ci).
    { intros ci. rewrite filter_In. unfold P, implementer, implements. rewrite andb_true_iff, beqb_eq. split.
      - intros (H1 & H2 & H3). splits; try assumption. pose proof (proj2 (sa_conc _ _ Hs _ H1)) as Hr. unfold ci_prefix in H3. destruct (ci_reg ci); [eauto|congruence].
      - intros (H1 & H2 & r' & H3 & H4). splits; try assumption. unfold ci_prefix. rewrite H3. exact H4. }
    assert (ND : NoDup (map ci_type (filter P (cd_concretes c)))).
    { pose proof (wc_nodup _ _ Hc) as N. revert N. clear. induction (cd_concretes c) as [|x l IHl]; cbn [map filter]; [constructor|].
      intros N. inversion N as [|? ? N1 N2]; subst. destruct (P x); [|exact (IHl N2)]. cbn [map]. constructor; [|exact (IHl N2)].
      intros X. apply N1. apply in_map_iff in X. destruct X as (y & Ey & Hy). apply filter_In in Hy. apply in_map_iff. exists y. tauto. }
    rewrite orb_true_iff. unfold ambiguous. split.
    - intros [H|H]; [left; eauto|right]. apply Nat.ltb_lt in H. destruct (filter P (cd_concretes c)) as [|a [|b l]]; cbn [length] in H; [lia|lia|].
      exists a, b. splits; [apply PI; left; reflexivity|apply PI; right; left; reflexivity|]. cbn [map] in ND. inversion ND as [|? ? N1 N2]; subst.
      intros X. apply N1. left. symmetry. exact X.
    - intros [(ii' & H1 & H2 & H3)|(a & b & Ha & Hb & Hab)].
      + left. replace ii with ii'; [exact H3|]. apply (nodup_key ii_id (cd_ifaces c)); try assumption. exact (wc_ifids _ _ Hc).
      + right. apply PI in Ha. apply PI in Hb. apply Nat.ltb_lt. destruct (filter P (cd_concretes c)) as [|x [|y l]]; cbn [length]; try lia.
        * destruct Ha.
        * destruct Ha as [<-|[]]. destruct Hb as [<-|[]]. congruence.
  Qed.

  Theorem encode_wire : forall k, wire_ok k.
  Proof.
    induction k as [|k IH]; intros info t v o bare bz Hi Hd Hmem Ht Hnum H Hz; [discriminate|].
    pose proof (minfo_type _ _ _ _ Hi) as Ety. rewrite Hd in Ety.
    pose proof (Hreg t Hmem) as Hrt. unfold regular_type in Hrt.
    apply encode_reflect_inv in H.
    assert (FIN : forall buf, zlen (finish bare buf) < 2 ^ 63 -> if bare && true then Plen buf = Plen (finish bare buf) else payload_bytes (Plen buf) (finish bare buf)).
    { intros buf Hb. destruct bare; cbn [finish andb] in *; [reflexivity|]. apply pay_slice. pose proof (zlen_byte_slice buf). lia. }
    assert (SW : plain env t -> (match t with TNamed id => te_marshal env id | _ => None end) = None ->
      encode_switch env c (encode_reflect k env c) (S k) info v o bare = EOk bz ->
      exists m q, wire env c t o v m q /\ (if bare && m then q = Plen bz else payload_bytes q bz) /\ type_wire env t o = Some (wire_type q)).
    { clear H. intros Hpl Hnm H. rewrite Hnm in Hrt. unfold encode_switch in H. rewrite Ety in H.
      assert (LST : forall e, elem_type env t = Some e -> is_uint8 env e = false -> is_list_kind env e = false ->
        is_uint8 env e = true \/ (is_list env e = false /\ mem (deref_type e) = true) ->
        encode_list env c (encode_reflect k env c) info v o bare = EOk bz ->
        exists m q, wire env c t o v m q /\ (if bare && m then q = Plen bz else payload_bytes q bz) /\ type_wire env t o = Some (wire_type q)).
      { intros e He Hu Hlk HR HL. destruct HR as [HR|[_ HR]]; [congruence|].
        assert (Hme : forall e, elem_type env t = Some e -> mem (deref_type e) = true) by (intros e' He'; rewrite He in He'; inversion He'; subst; exact HR).
        destruct (list_wire k IH _ _ _ _ _ _ Hi Hd Ht Hnum Hme HL Hz) as (e' & l & buf & He' & _ & Hl & -> & W).
        rewrite He in He'. inversion He'; subst e'. exists true, (Plen buf). splits.
        - destruct (delimited env e) eqn:Ed.
          + destruct W as (es & W1 & W2). eapply w_list; try eassumption; [apply list_elem_of; exact He|apply list_items; exact Hl].
          + eapply w_packed; try eassumption; [apply list_elem_of; exact He|apply list_items; exact Hl].
        - apply FIN. exact Hz.
        - unfold type_wire, elem_type in *. destruct (resolve env t); try discriminate; reflexivity. }
      assert (BYT : forall e l, elem_type env t = Some e -> is_uint8 env e = true -> list_elems v = Some l ->
        EOk (encode_byte_slice (val_bytes l)) = EOk bz ->
        exists m q, wire env c t o v m q /\ (if bare && m then q = Plen bz else payload_bytes q bz) /\ type_wire env t o = Some (wire_type q)).
      { intros e l He Hu Hl X. apply EOk_inj in X. subst bz. exists false, (Plen (val_bytes l)). rewrite andb_false_r. splits.
        - eapply w_bytes; [exact Hpl|apply list_elem_of; exact He|exact Hu|]. rewrite <- (bytes_items _ _ _ Hu (elem_typed _ _ _ _ _ He Ht Hl)).
          apply list_items. exact Hl.
        - apply pay_slice. pose proof (zlen_byte_slice (val_bytes l)). lia.
        - unfold type_wire, elem_type in *. destruct (resolve env t); try discriminate; reflexivity. }
      destruct (resolve env t) as [p| |n e|e|e|kt e| | |i|fs|] eqn:Er; try discriminate.
      - assert (Hp : prim_has p v = true) by (rewrite <- (has_type_prim _ _ _ _ Er); exact Ht).
        destruct (prim_payload p o v bz Hp Hz H) as (q & Hq & Hb). exists false, q. rewrite andb_false_r. splits; [eapply w_prim; eassumption|exact Hb|].
        unfold type_wire. rewrite Er. clear -Hq. unfold prim_wire in Hq.
        destruct p, v; try discriminate; inversion Hq; try destruct (fo_fixed32 o); try destruct (fo_fixed64 o); reflexivity.
      - destruct info as [ci|]; [|discriminate]. cbn [ti_type] in Ety. unfold encode_struct in H. rewrite Ety, Er in H.
        destruct v; try discriminate. einv H. destruct a as [buf [err|]]; [discriminate|]. apply EOk_inj in H. subst bz.
        cbn [has_type] in Ht. rewrite Er in Ht.
        assert (TK : time_ok s ns).
        { unfold time_ok. destruct (Z_lt_le_dec s min_seconds); [rewrite encode_time_bad_seconds in E by lia; discriminate|].
          destruct (Z_lt_le_dec s max_seconds); [|rewrite encode_time_bad_seconds in E by lia; discriminate].
          unfold max_nanos. lia. }
        rewrite encode_time_ok in E by assumption. apply EOk_inj in E. apply (f_equal fst) in E. cbn [fst] in E.
        exists true, (Plen buf). splits; [|apply FIN; exact Hz|unfold type_wire; rewrite Er; reflexivity].
        eapply w_time; try eassumption. rewrite <- E. apply time_message. exact TK.
      - assert (He : elem_type env t = Some e) by (unfold elem_type; rewrite Er; reflexivity).
        destruct (is_uint8 env e) eqn:Eu; [destruct v; try discriminate; eapply BYT; try eassumption; reflexivity|].
        destruct (is_list_kind env e) eqn:El;
          [|apply (LST e He Eu El); [right; destruct Hrt as [X|X]; [discriminate X|exact X]|exact H]].
        exfalso. destruct Hrt as [Hrt|[Hrt _]]; [discriminate Hrt|]. change (is_list env e) with (is_list_kind env e) in Hrt. congruence.
      - assert (He : elem_type env t = Some e) by (unfold elem_type; rewrite Er; reflexivity).
        destruct (is_uint8 env e) eqn:Eu; [destruct v as [| | | | | | |[l|]| | | | | | |]; try discriminate|].
        + eapply (BYT e l); try eassumption; reflexivity.
        + eapply (BYT e []); try eassumption; reflexivity.
        + destruct (is_list_kind env e) eqn:El;
          [|apply (LST e He Eu El); [right; destruct Hrt as [X|X]; [discriminate X|exact X]|exact H]].
          exfalso. destruct Hrt as [Hrt|[Hrt _]]; [discriminate Hrt|]. change (is_list env e) with (is_list_kind env e) in Hrt. congruence.
      - destruct info as [|ii]; [discriminate|]. destruct Hi as [Hin Hi]. rewrite Hd in Hi. subst t. unfold encode_interface in H.
        destruct v as [| | | | | | | | | |[[ct cv]|]| | | |]; try discriminate.
        + rewrite deref_pointers_under in H. destruct (under cv) as [w|] eqn:Eu; [|discriminate].
          assert (H' : ebind (get_type_info env c (deref_type ct)) (fun info0 =>
                match info0 with
                | TIConc ci =>
                    match ci_reg ci with
                    | None => EErr "cannot encode unregistered concrete type"%string
                    | Some r =>
                        let need := ii_always ii ||
                          (1 <? length match assoc beqb (ri_prefix r) (ii_impls ii) with
                                       | Some l => l | None => [] end)%nat in
                        ebind (encode_reflect k env c info0 w o true) (fun body =>
                        EOk (finish bare ((if need then 0 :: ri_disamb r else []) ++ ri_prefix r ++ body)))
                    end
                | TIFace _ => EErr "cannot encode unregistered concrete type"%string
                end) = EOk bz) by (destruct w; try discriminate; exact H).
          clear H. einv H'. destruct a as [ci|]; [|discriminate]. destruct (ci_reg ci) as [r|] eqn:Erg; [|discriminate]. cbv zeta in H'.
          einv H'. apply EOk_inj in H'.
          pose proof (gti_registered _ _ _ E Erg) as Hci. pose proof (gti_minfo _ _ _ _ Hs E) as Mi. cbn [minfo] in Mi. rewrite deref_idem in Mi.
          cbn [has_type] in Ht. rewrite Er in Ht. apply andb_true_iff in Ht. destruct Ht as [_ Ht].
          assert (Hcv : has_type env ct cv = true) by (destruct ct; try discriminate; exact Ht).
          pose proof (under_typed _ We _ _ _ Hcv Eu) as Hwt.
          assert (Hmc : mem (deref_type ct) = true) by (rewrite <- (proj1 Mi); apply Hrt; exact Hci).
          remember (if ii_always ii || _ then 0 :: ri_disamb r else []) as dis eqn:Edis. rewrite app_assoc in H'.
          assert (Hbody : zlen a < 2 ^ 63).
          { assert (zlen a <= zlen bz); [|lia]. subst bz. destruct bare; cbn [finish]; [|pose proof (zlen_byte_slice ((dis ++ ri_prefix r) ++ a))];
            rewrite zlen_app in *; pose proof (zlen_nonneg (dis ++ ri_prefix r)); lia. }
          assert (Mi' : minfo env c (TIConc ci) (deref_type ct)) by (cbn [minfo]; rewrite deref_idem; exact Mi).
          destruct (IH _ _ _ _ _ _ Mi' (deref_idem ct) Hmc Hwt Hnum E0 Hbody) as (m & q & Hw & Hq & _).
          exists true, (Plen ((dis ++ ri_prefix r) ++ a)). splits.
          * eapply w_iface; [exact Eu| |exact Hw|exact Hq]. exists ci, r. splits; try assumption; [exact (proj1 Mi)|].
            subst dis. pose proof (ambiguous_need ii r Hin) as AN. fold (impls_of ii (ri_prefix r)).
            destruct (_ || _); [left|right]; (split; [|reflexivity]); [apply AN; reflexivity|intros X; apply AN in X; discriminate].
          * rewrite <- H' in *. apply FIN. exact Hz.
          * unfold type_wire. rewrite Er. reflexivity.
        + apply EOk_inj in H. subst bz. exists false, (Plen []). rewrite andb_false_r. splits; [constructor|exact pay_empty|]. unfold type_wire. rewrite Er. reflexivity.
      - destruct info as [ci|]; [|discriminate]. cbn [ti_type] in Ety. unfold encode_struct in H. rewrite Ety, Er in H.
        destruct v; try discriminate. einv H. apply EOk_inj in H. subst bz.
        cbn [has_type] in Ht. rewrite Er in Ht.
        destruct Hi as [_ Hi]. destruct (info_ok_parts _ _ Hi) as (_ & Hpf & _). unfold parse_struct_info in Hpf. rewrite Ety, Er in Hpf.
        assert (Ha : zlen a < 2 ^ 63) by (destruct bare; cbn [finish] in Hz; [exact Hz|pose proof (zlen_byte_slice a); lia]).
        destruct (fields_wire k IH fs 0 0 _ [] l a Hpf eq_refl Ht Hrt E Ha) as (es & Hf & Hes).
        exists true, (Plen a). splits; [eapply w_struct; eassumption|apply FIN; exact Hz|unfold type_wire; rewrite Er; reflexivity]. }
    destruct info as [ci|ii].
    - pose proof Hi as [Hi1 Hi2]. rewrite Hd in Hi1. pose proof (minfo_method _ _ _ Hi1 Hi2) as M.
      destruct (ci_marshal ci) as [r|].
      + destruct H as (w & rinfo & Hw & Hr & H). destruct M as (id & f & -> & Hmm & Hdr).
        rewrite Hi1 in Hw. unfold to_repr in Hw. rewrite Hmm in Hw, Hrt. destruct Hrt as [Hmr Htw].
        destruct (IH _ _ _ _ _ _ (gti_minfo _ _ _ _ Hs Hr) Hdr Hmr (Hm _ _ _ _ _ Hmm Ht Hw) Hnum H Hz) as (m & q & I1 & I2 & I3).
        exists m, q. splits; [eapply w_method; eassumption|exact I2|rewrite <- Htw; exact I3].
      + apply SW; [exact M| |exact H]. destruct t; try reflexivity. apply M. reflexivity.
    - pose proof Hi as [_ Hi']. rewrite Hd in Hi'. apply SW; [|rewrite Hi'; reflexivity|exact H]. intros id X. congruence.
  Qed.
End Main.

(** ** The schema-less reader *)

Lemma take_varint_leb b u rest : leb128_min b u -> take_varint (b ++ rest) = Some (u, rest).
Proof.
  intros (ds & x & -> & Hd & Hx & -> & _). unfold digit128 in *. induction Hd as [|d ds Hd _ IH]; cbn [map app take_varint val128].
  - destruct (Z.ltb_spec x 128); [|lia]. f_equal. f_equal. lia.
  - destruct (Z.ltb_spec (d + 128) 128); [lia|]. rewrite IH. f_equal. f_equal. lia.
Qed.
Lemma take_bytes_app b rest : take_bytes (zlen b) (b ++ rest) = Some (b, rest).
Proof.
  unfold take_bytes. rewrite zlen_app. pose proof (zlen_nonneg rest). destruct (Z.ltb_spec (zlen b + zlen rest) (zlen b)); [lia|].
  unfold zlen. rewrite Nat2Z.id, firstn_app_exact, skipn_app_exact by reflexivity. reflexivity.
Qed.
Lemma take_payload_ok q b rest : payload_bytes q b -> take_payload (wire_type q) (b ++ rest) = Some (q, rest).
Proof.
  intros H. destruct H as [u b H|b L _|b L _|l b H]; cbn [wire_type take_payload]; unfold take_payload; cbn [Z.eqb].
  - rewrite (take_varint_leb _ _ _ H). reflexivity.
  - change 8 with (Z.of_nat 8). rewrite <- L. fold (zlen b). rewrite take_bytes_app. reflexivity.
  - change 4 with (Z.of_nat 4). rewrite <- L. fold (zlen b). rewrite take_bytes_app. reflexivity.
  - rewrite <- app_assoc, (take_varint_leb _ _ _ H), take_bytes_app. reflexivity.
Qed.
Lemma read_message_ok es b : message es b -> forall k, (length b <= k)%nat -> read_message k b = Some es.
Proof.
  induction 1 as [|num q key b es bs Hk Hq _ IH]; intros k Hl; [destruct k; reflexivity|].
  pose proof (leb_nonnil _ _ Hk) as Hn. rewrite !app_length in Hl.
  destruct key as [|x key]; [congruence|]. destruct k as [|k]; [cbn in Hl; lia|].
  assert (E : read_message (S k) ((x :: key) ++ b ++ bs) =
      match take_varint ((x :: key) ++ b ++ bs) with
      | None => None
      | Some (key, r) =>
          match take_payload (key mod 8) r with
          | None => None
          | Some (q, r') =>
              match read_message k r' with Some es => Some ((key / 8, q) :: es) | None => None end
          end
      end) by reflexivity.
  rewrite E, (take_varint_leb _ _ _ Hk).
  assert (W : 0 <= wire_type q < 8) by (destruct q; cbn; lia).
  replace ((num * 8 + wire_type q) mod 8) with (wire_type q) by (rewrite Z.add_comm, Z.mod_add by lia; symmetry; apply Z.mod_small; lia).
  replace ((num * 8 + wire_type q) / 8) with num by (rewrite Z.add_comm, Z.div_add by lia; rewrite Z.div_small by lia; lia).
  rewrite (take_payload_ok _ _ _ Hq), IH by (cbn in Hl; lia). reflexivity.
Qed.

(** ** Order *)

Lemma elems_order env c num e o l es : elems env c num e o l es -> Forall (fun x => fst x = num /\ wire_type (snd x) = 2) es.
Proof. induction 1; constructor; cbn; auto. Qed.
Lemma same_ordered num es : Forall (fun x => fst x = num /\ wire_type (snd x) = 2) es -> ordered es.
Proof.
  induction 1 as [|x es Hx H IH]; cbn [ordered]; [exact I|]. split; [|exact IH]. eapply Forall_impl; [|exact H]. cbn. intros y [H1 H2]. right. intuition congruence.
Qed.
Lemma ordered_app a b num : ordered a -> ordered b -> Forall (fun x => fst x <= num) a -> Forall (fun x : entry => num < fst x) b -> ordered (a ++ b).
Proof.
  intros Ha Hb Fa Fb. induction a as [|x a IH]; [exact Hb|]. cbn [app ordered] in *. inversion Fa as [|? ? F1 F2]; subst. destruct Ha as [A1 A2].
  split; [|auto]. apply Forall_app. split; [exact A1|]. eapply Forall_impl; [|exact Fb]. cbn. intros y Hy. left. lia.
Qed.
Lemma fields_order env c num fs l es : fields env c num fs l es -> ordered es /\ Forall (fun x => num <= fst x) es.
Proof.
  assert (W : forall num es, Forall (fun x : entry => num + 1 <= fst x) es -> Forall (fun x => num <= fst x) es /\ Forall (fun x => num < fst x) es).
  { intros n es' H. split; (eapply Forall_impl; [|exact H]); cbn; intros; lia. }
  induction 1 as [| | |num f fs v l o e vs es' es H1 H2 H3 H4 H5 H6 _ [IH1 IH2]| |num f fs v w l o m q es H1 H2 H3 H4 H5 H6 _ [IH1 IH2]].
  - split; constructor.
  - assumption.
  - destruct IHfields as [I1 I2]. apply W in I2. tauto.
  - apply W in IH2. apply elems_order in H6. split.
    + apply (ordered_app _ _ num); [eapply same_ordered; exact H6|exact IH1| |tauto]. eapply Forall_impl; [|exact H6]. cbn. intros; lia.
    + apply Forall_app. split; [|tauto]. eapply Forall_impl; [|exact H6]. cbn. intros; lia.
  - destruct IHfields as [I1 I2]. apply W in I2. tauto.
  - apply W in IH2. split; [|constructor; [cbn; lia|tauto]]. cbn [ordered]. split; [|exact IH1]. eapply Forall_impl; [|apply IH2]. cbn. intros; lia.
Qed.

(** ** The format leaves no choice *)

Lemma leb_unique b b' u : leb128_min b u -> leb128_min b' u -> b = b'.
Proof.
  intros (ds & x & -> & Hd & Hx & Hv & Hm) (ds' & x' & -> & Hd' & Hx' & Hv' & Hm').
  assert (L : length ds = length ds') by
    (apply Nat.le_antisymm; [apply (digits_shortest ds x ds' x')|apply (digits_shortest ds' x' ds x)]; try assumption; congruence).
  destruct (digits_unique ds ds' x x') as [-> ->]; try assumption; try congruence.
Qed.
Lemma val256_inj b : forall b', length b = length b' -> Forall digit256 b -> Forall digit256 b' -> val256 b = val256 b' -> b = b'.
Proof.
  induction b as [|x b IH]; intros [|y b'] L Hb Hb' V; try discriminate L; [reflexivity|].
  inversion Hb; inversion Hb'; subst. cbn [val256] in V. unfold digit256 in *. f_equal; [lia|]. apply IH; try assumption; [cbn in L; lia|lia].
Qed.
Lemma payload_unique q b b' : payload_bytes q b -> payload_bytes q b' -> b = b'.
Proof.
  intros H H'. destruct H as [u b H|b L H|b L H|l b H]; inversion H' as [? ? X|? X1 X2 X3|? X1 X2 X3|? ? X]; subst.
  - eapply leb_unique; eassumption.
  - apply val256_inj; try assumption; congruence.
  - apply val256_inj; try assumption; congruence.
  - f_equal. eapply leb_unique; eassumption.
Qed.
Lemma message_unique es b : message es b -> forall b', message es b' -> b = b'.
Proof.
  induction 1 as [|num q key b es bs Hk Hq _ IH]; intros b' H'; inversion H'; subst; [reflexivity|].
  f_equal; [eapply leb_unique; eassumption|]. f_equal; [eapply payload_unique; eassumption|auto].
Qed.
Lemma items_unique v l l' : items v l -> items v l' -> l = l'.
Proof. intros H H'. destruct H; inversion H'; reflexivity. Qed.
Lemma list_of_unique env t e e' : list_of env t e -> list_of env t e' -> e = e'.
Proof. intros [H|[n H]] [H'|[n' H']]; congruence. Qed.
Lemma vuint_inj (a : list Z) : forall b, map VUint a = map VUint b -> a = b.
Proof. induction a as [|x a IH]; intros [|y b] H; try discriminate; [reflexivity|]. cbn in H. inversion H. f_equal. auto. Qed.

Scheme wire_mind := Minimality for wire Sort Prop
  with packed_mind := Minimality for packed Sort Prop
  with elems_mind := Minimality for elems Sort Prop
  with fields_mind := Minimality for fields Sort Prop.
Combined Scheme wire_mutind from wire_mind, packed_mind, elems_mind, fields_mind.

Section Unique.
  Variable env : tenv.
  Variable c : codec.
  Hypothesis Hc : wf_codec env c.

  Lemma announces_unique i t a b : announces env c i t a -> announces env c i t b -> a = b.
  Proof.
    intros (ci & r & H1 & H2 & H3 & H4) (ci' & r' & H1' & H2' & H3' & H4').
    assert (ci = ci') by (apply (nodup_key ci_type (cd_concretes c)); [exact (wc_nodup _ _ Hc)| | |congruence]; assumption). subst ci'.
    rewrite H3 in H3'. inversion H3'; subst r'. destruct H4 as [[A ->]|[A ->]], H4' as [[B ->]|[B ->]]; tauto.
  Qed.

  Ltac same_list := match goal with
    | H : list_of _ ?t ?e, H' : list_of _ ?t ?e' |- _ => pose proof (list_of_unique _ _ _ _ H H'); subst e'; clear H'
    end.
  Ltac same_items := match goal with
    | H : items ?v ?l, H' : items ?v ?l' |- _ => pose proof (items_unique _ _ _ H H'); clear H'
    end.
  Ltac clash := exfalso; try same_list;
    repeat match goal with
    | H : list_of _ _ _ |- _ => let n := fresh in destruct H as [H|[n H]]
    end;
    match goal with
    | H : plain _ (TNamed ?id), E : te_marshal _ ?id = Some _ |- _ => rewrite (H id eq_refl) in E; discriminate
    | H : resolve _ _ = _, H' : resolve _ _ = _ |- _ => rewrite H in H'; discriminate
    | H : resolve _ (TIface _) = _ |- _ => discriminate H
    | H : ?x = true, H' : ?x = false |- _ => congruence
    end.

  Theorem wire_unique :
    (forall t o v m q, wire env c t o v m q -> forall m' q', wire env c t o v m' q' -> m' = m /\ q' = q) /\
    (forall e o l b, packed env c e o l b -> forall b', packed env c e o l b' -> b' = b) /\
    (forall num e o l es, elems env c num e o l es -> forall es', elems env c num e o l es' -> es' = es) /\
    (forall num fs l es, fields env c num fs l es -> forall es', fields env c num fs l es' -> es' = es).
  Proof.
    apply wire_mutind.
    - intros t o v p q Hp Hr Hq m' q' H'. inversion H'; subst; try clash; try discriminate. split; [reflexivity|]. congruence.
    - intros t o s ns b Hp Hr Hb m' q' H'. inversion H'; subst; try clash; try discriminate. split; [reflexivity|]. f_equal. eapply message_unique; eassumption.
    - intros t e o v b Hp Hl Hu Hi m' q' H'. inversion H'; subst; try clash. same_items.
      match goal with X : map VUint _ = map VUint _ |- _ => apply vuint_inj in X; subst end. split; reflexivity.
    - intros t e o v l b Hp Hl Hu Hd Hi _ IH m' q' H'. inversion H'; subst; try clash. same_list. same_items. subst. split; [reflexivity|]. f_equal. auto.
    - intros t e o v l es b Hp Hl Hu Hd Hi _ IH Hb m' q' H'. inversion H'; subst; try clash. same_list. same_items. subst. split; [reflexivity|]. f_equal.
      match goal with X : elems _ _ _ _ _ _ _ |- _ => apply IH in X; subst end. eapply message_unique; eassumption.
    - intros t fs o l es b Hp Hr _ IH Hb m' q' H'. inversion H'; subst; try clash; try discriminate.
      match goal with X : resolve env t = RStruct ?y |- _ => assert (y = fs) by congruence; subst y end.
      match goal with X : fields _ _ _ _ _ _ |- _ => apply IH in X; subst end. split; [reflexivity|]. f_equal. eapply message_unique; eassumption.
    - intros i o m' q' H'. inversion H'; subst; try clash. split; reflexivity.
    - intros i o ct cv w m q tag body Hu Ha _ IH Hb m' q' H'. inversion H'; subst; try clash.
      match goal with X : under cv = Some ?y |- _ => assert (y = w) by congruence; subst y end.
      match goal with X : wire _ _ _ _ _ _ _ |- _ => apply IH in X; destruct X; subst end.
      match goal with X : announces _ _ _ _ ?y |- _ => assert (y = tag) by (eapply announces_unique; eassumption); subst y end.
      split; [reflexivity|]. f_equal. f_equal. destruct m; [congruence|]. eapply payload_unique; eassumption.
    - intros id r f o v w m q He Hf _ IH m' q' H'. inversion H'; subst; try clash. 
      match goal with X : te_marshal env id = Some (MOk ?a ?b) |- _ => assert (a = r /\ b = f) as [? ?] by (split; congruence); subst a b end.
      match goal with X : f v = EOk ?a |- _ => assert (a = w) by congruence; subst a end. auto.
    - intros e o b' H'. inversion H'. reflexivity.
    - intros e o v l m q b bs _ IH Hq _ IHl b' H'. inversion H'; subst.
      match goal with X : wire _ _ _ _ _ _ _ |- _ => apply IH in X; destruct X; subst end. f_equal; [eapply payload_unique; eassumption|auto].
    - intros num e o es' H'. inversion H'. reflexivity.
    - intros num e o v l es Hd _ IH es' H'. inversion H'; subst; [|congruence]. f_equal. auto.
    - intros num e o v w l m q es Hd Hu _ IH _ _ IHl es' H'. inversion H'; subst; [congruence|].
      match goal with X : under v = Some ?y |- _ => assert (y = w) by congruence; subst y end.
      match goal with X : wire _ _ _ _ _ _ _ |- _ => apply IH in X; destruct X; subst end. f_equal. auto.
    - intros num es' H'. inversion H'. reflexivity.
    - intros num f fs v l es Ho _ IH es' H'. inversion H'; subst; try congruence. auto.
    - intros num f fs v l o es Ho Hd Hw _ IH es' H'.
      assert (G : defaultv v && negb (fo_write_empty o) = true) by (rewrite Hd, Hw; reflexivity).
      inversion H'; subst; try congruence; auto;
        match goal with X : field_opts num f = Some ?y |- _ => assert (y = o) by congruence; subst y end; auto; congruence.
    - intros num f fs v l o e vs es1 es Ho He Hd Hl Hi _ IH1 _ IH es' H'. inversion H'; subst; try congruence;
        match goal with X : field_opts num f = Some ?y |- _ => assert (y = o) by congruence; subst y end; try congruence.
      + match goal with X : defaultv v = true, Y : fo_write_empty o = false |- _ => rewrite X, Y in Hd; discriminate end.
      + same_list. same_items. subst. f_equal; auto.
    - intros num f fs v w l o m q es Ho He Hd Hw Hp Hu _ IHw Hz _ IH es' H'. inversion H'; subst; try congruence;
        match goal with X : field_opts num f = Some ?y |- _ => assert (y = o) by congruence; subst y end; try congruence; auto.
      exfalso. match goal with X : under v = Some ?y |- _ => assert (y = w) by congruence; subst y end.
      match goal with X : wire _ _ _ _ _ _ _ |- _ => apply IHw in X; destruct X; subst end.
      match goal with X : _ || _ || _ = true |- _ => rewrite Hw, Hp, Hz in X; discriminate end.
    - intros num f fs v w l o m q es Ho He Hd Hu _ IHw Hz _ IH es' H'. inversion H'; subst; try congruence;
        match goal with X : field_opts num f = Some ?y |- _ => assert (y = o) by congruence; subst y end; try congruence; auto.
      + match goal with X : defaultv v = true, Y : fo_write_empty o = false |- _ => rewrite X, Y in Hd; discriminate end.
      + exfalso. match goal with X : under v = Some ?y |- _ => assert (y = w) by congruence; subst y end.
        match goal with X : wire _ _ _ _ _ _ _ |- _ => apply IHw in X; destruct X; subst end.
        match goal with X : fo_write_empty o = false, Y : is_ptr _ = false, Z : zero_payload _ = true |- _ => rewrite X, Y, Z in Hz; discriminate end.
      + match goal with X : under v = Some ?y |- _ => assert (y = w) by congruence; subst y end.
        match goal with X : wire _ _ _ _ _ _ _ |- _ => apply IHw in X; destruct X; subst end. f_equal; auto.
  Qed.
End Unique.
