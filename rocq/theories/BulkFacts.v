(** The length of what is written. *)
From Coq Require Import ZArith String List Bool Lia.
From Coq Require Import ZifyBool ZifyNat.
From Verif Require Import Base Prims SpecWire PrimFacts PrimProps Types Codec BinEnc BinDec Amino FuelFacts DecFacts
  ValueInd Typing Registry SpecRegistry RegistryFacts Sane DecSafe SpecNorm EncFacts Json SpecBulk.
Import ListNotations.
Local Open Scope Z_scope.
Local Open Scope amino_scope.

Definition parts (f : value -> nat) (l : list value) : nat := list_sum (map f l).
Lemma parts_cons f x l : parts f (x :: l) = (f x + parts f l)%nat.
Proof. reflexivity. Qed.

Lemma put_uvarint_length : forall k u, (length (put_uvarint k u) <= k)%nat.
Proof. induction k as [|k IH]; intros u; cbn [put_uvarint]; [cbn; lia|]. destruct (_ <? _); cbn [length]; [lia|]. specialize (IH (Z.shiftr u 7)). lia. Qed.
Lemma uvarint_short u : (length (encode_uvarint u) <= 10)%nat.
Proof. apply put_uvarint_length. Qed.
Lemma put_uvarint_small : forall k j u, 0 <= u < 128 ^ Z.of_nat (S j) -> (length (put_uvarint k u) <= S j)%nat.
Proof.
  induction k as [|k IH]; intros j u H; cbn [put_uvarint]; [cbn; lia|]. destruct (Z.ltb_spec u 128); cbn [length]; [lia|].
  destruct j as [|j]; [change (Z.of_nat 1) with 1 in H; lia|]. apply le_n_S, IH. rewrite Z.shiftr_div_pow2 by lia. change (2 ^ 7) with 128.
  rewrite Nat2Z.inj_succ, Z.pow_succ_r in H by lia. split; [apply Z.div_pos; lia|]. apply Z.div_lt_upper_bound; lia.
Qed.
Lemma key_short num typ key : 0 <= num -> 0 <= typ < 8 -> encode_field_key num typ = EOk key -> (length key <= 5)%nat.
Proof.
  intros Hn Ht H. destruct (key_ok_inv _ _ _ Hn Ht H) as [L ->]. apply put_uvarint_small. change (128 ^ Z.of_nat 5) with (2 ^ 35). lia.
Qed.
Lemma put_le_length : forall n v, length (put_le n v) = n.
Proof. induction n as [|n IH]; intros v; cbn [put_le length]; [reflexivity|]. rewrite IH. reflexivity. Qed.
Lemma slice_short b : (length (encode_byte_slice b) <= 10 + length b)%nat.
Proof. unfold encode_byte_slice. rewrite app_length. pose proof (uvarint_short (zlen b)). lia. Qed.
Lemma finish_short bare b : (length (finish bare b) <= 10 + length b)%nat.
Proof. destruct bare; cbn [finish]; [lia|apply slice_short]. Qed.

Lemma prim_short m p v o bz : encode_prim p v o = EOk bz -> (length bz <= bulk m v)%nat.
Proof.
  pose proof uvarint_short as U. unfold encode_uvarint in U.
  destruct p, v; cbn [encode_prim]; intros H; try discriminate;
    try (destruct (_ o)); try discriminate; apply EOk_inj in H; subst bz; cbn [bulk];
    try (etransitivity; [apply U|lia]); try (unfold encode_int64, encode_int32, encode_uint64, encode_uint32, encode_float64, encode_float32; rewrite put_le_length; lia);
    try apply slice_short.
  - destruct b; cbn; lia.
  - unfold encode_float32, encode_uint32. rewrite put_le_length. lia.
  - unfold encode_float64, encode_uint64. rewrite put_le_length. lia.
Qed.
Lemma time_short s ns buf e : encode_time s ns = EOk (buf, e) -> (length buf <= 22)%nat.
Proof.
  unfold encode_time.
  assert (N : forall bz, (if i32 ns =? 0 then EOk (bz, None)
    else if (i32 ns <? 0) || (max_nanos <? i32 ns) then EOk (bz, Some "invalid time: nanoseconds"%string)
    else ebind (encode_field_key 2 Typ3Varint) (fun k => EOk (bz ++ k ++ encode_uvarint (u64 (i32 ns)), None))) = EOk (buf, e) ->
    (length buf <= length bz + 11)%nat).
  { intros bz. destruct (_ =? 0); [|destruct (_ || _)]; intros H.
    1,2: apply EOk_inj, (f_equal fst) in H; cbn [fst] in H; subst; lia.
    einv H. apply EOk_inj, (f_equal fst) in H; cbn [fst] in H; subst. cbn in E. apply EOk_inj in E. subst a.
    rewrite !app_length. pose proof (uvarint_short (u64 (i32 ns))). cbn [length]. lia. }
  destruct (s =? 0); intros H; [specialize (N [] H); cbn in N; lia|].
  destruct ((s <? _) || _); [apply EOk_inj, (f_equal fst) in H; cbn [fst] in H; subst; cbn; lia|].
  einv H. apply N in H. cbn in E. apply EOk_inj in E. subst a. pose proof (uvarint_short (u64 s)). rewrite app_length in H. cbn [length] in H. lia.
Qed.

Lemma bulk_under m v w : under v = Some w -> bulk m w = bulk m v.
Proof. induction v using value_ind'; cbn [under bulk]; intros U; try (injection U as <-; reflexivity); try discriminate; auto. Qed.
Lemma bulk_nil m v : under v = None -> bulk m v = (10 + m)%nat.
Proof. induction v using value_ind'; cbn [under bulk]; intros U; try discriminate; auto. Qed.
Lemma bulk_default m v : defaultv v = true -> (1 <= bulk m v)%nat.
Proof. induction v using value_ind'; cbn [defaultv bulk]; intros D; try discriminate; try lia; auto. Qed.
Lemma val_bytes_length l : length (val_bytes l) = length l.
Proof. apply map_length. Qed.
Lemma parts_many f n l : (forall x, n <= f x)%nat -> (n * length l <= parts f l)%nat.
Proof. intros H. induction l as [|x l IH]; [cbn; lia|]. rewrite parts_cons. cbn [length]. specialize (H x). lia. Qed.

Section Bulk.
  Variable env : tenv.
  Hypothesis We : wf_env env.
  Variable c : codec.
  Hypothesis Hs : sane_codec env c.
  Variable m : nat.
  Hypothesis Hg : repr_nogrow env m.

  Definition well (info : tinfo) : Prop := match info with TIConc ci => info_ok env ci | TIFace _ => True end.
  Lemma gti_well t info : get_type_info env c t = EOk info -> well info /\ ti_type info = deref_type t.
  Proof.
    intros H. pose proof (gti_minfo _ _ _ _ Hs H) as M. split; [|apply (minfo_type _ _ _ _ M)]. destruct info; cbn in *; tauto.
  Qed.

  Section Step.
    Variable rec : tinfo -> value -> fopts -> bool -> eres bytes.
    Hypothesis IH : forall info v o bare bz, well info -> 0 <= fo_num o -> rec info v o bare = EOk bz -> (length bz <= bulk m v)%nat.
    Hypothesis Hinv : forall info o bare bz, rec info VInvalid o bare <> EOk bz.

    Lemma packed_short e einfo o z : well einfo -> ti_type einfo = deref_type e -> type_to_typ3 env (ti_type einfo) o = EOk z ->
      z <> Typ3ByteLength -> 0 <= fo_num o ->
      forall l buf, encode_packed env rec e einfo l o = EOk buf -> (length buf <= parts (fun x => 5 + bulk m x) l)%nat.
    Proof.
      intros W Te T3 Nz No. induction l as [|v l IHl]; intros buf H; cbn [encode_packed] in H.
      - apply EOk_inj in H. subst. cbn. lia.
      - einv H. einv H. apply EOk_inj in H. subst buf. rewrite app_length, parts_cons. specialize (IHl _ E0).
        apply IH in E; [|assumption|assumption]. rewrite deref_zero_under in E. destruct (under v) as [w|] eqn:U.
        + rewrite (bulk_under m _ _ U) in E. lia.
        + pose proof (bulk_nil m _ U) as B.
          assert (Z10 : bulk m (zero env (deref_type e)) = (10 + m)%nat).
          { rewrite Te in T3. unfold type_to_typ3 in T3. pose proof (has_type_zero env (deref_type e) We) as HT.
            destruct (resolve env (deref_type e)) as [p| | | | | | | | | |] eqn:R; try discriminate T3; try (apply EOk_inj in T3; congruence).
            rewrite (has_type_prim _ _ _ _ R) in HT. destruct p, (zero env (deref_type e)); try discriminate HT; try reflexivity.
            apply EOk_inj in T3. congruence. }
          lia.
    Qed.
    Lemma unpacked_short e einfo o : well einfo -> 0 <= fo_num o ->
      forall l buf, encode_unpacked env rec e einfo l o = EOk buf -> (length buf <= parts (fun x => 5 + bulk m x) l)%nat.
    Proof.
      intros W No. induction l as [|v l IHl]; intros buf H; cbn [encode_unpacked] in H.
      - apply EOk_inj in H. subst. cbn. lia.
      - einv H. rewrite default_pair in H. einv H. einv H. apply EOk_inj in H. subst buf. rewrite !app_length, parts_cons.
        specialize (IHl _ E1). apply key_short in E; [|assumption|unfold Typ3ByteLength; lia].
        assert (A0 : (length a0 <= bulk m v)%nat); [|lia].
        destruct (defaultv v) eqn:D.
        + destruct (_ && _); [discriminate|]. apply EOk_inj in E0. subst a0. change (length (encode_byte 0)) with 1%nat.
          apply bulk_default, D.
        + destruct (under v) as [w|] eqn:U; [|exfalso; eapply Hinv; exact E0].
          apply IH in E0; [|assumption|cbn; lia]. rewrite (bulk_under m _ _ U) in E0. exact E0.
    Qed.
    Lemma list_short info v o bare bz : 0 <= fo_num o -> encode_list env c rec info v o bare = EOk bz -> (length bz <= bulk m v)%nat.
    Proof.
      intros No H. destruct (encode_list_inv _ _ _ _ _ _ _ _ H) as (e & einfo & l & buf & _ & _ & G & L & -> & [z T3] & B).
      destruct (gti_well _ _ G) as [W Te]. specialize (B z T3).
      assert (X : (length buf <= parts (fun x => 5 + bulk m x) l)%nat).
      { destruct (Z.eqb_spec z Typ3ByteLength); [eapply unpacked_short; eassumption|eapply packed_short; eassumption]. }
      pose proof (finish_short bare buf). unfold parts in X.
      destruct v as [| | | | | |l0|[l0|]| | | | | | |]; cbn [list_elems] in L; try discriminate; injection L as <-; cbn [bulk] in *; cbn [map] in X; try (change (list_sum []) with 0%nat in X); lia.
    Qed.
    Lemma field_short f v b : 0 <= fo_num (fi_opts f) -> encode_field env c rec f v = EOk b -> (length b <= 5 + bulk m v)%nat /\ (v = VInvalid -> b = []).
    Proof.
      intros No H. unfold encode_field in H. einv H. destruct (gti_well _ _ E) as [W Te]. rewrite default_pair in H.
      destruct (_ && _); [apply EOk_inj in H; subst; cbn; split; [lia|reflexivity]|].
      destruct (fi_unpacked f).
      - split.
        + destruct (under v) as [w|] eqn:U; [apply list_short in H; [rewrite (bulk_under m _ _ U) in H; lia|assumption]|].
          destruct (encode_list_inv _ _ _ _ _ _ _ _ H) as (? & ? & ? & ? & _ & _ & _ & L & _). discriminate L.
        + intros ->. destruct (encode_list_inv _ _ _ _ _ _ _ _ H) as (? & ? & ? & ? & _ & _ & _ & L & _). discriminate L.
      - unfold write_field in H. einv H. einv H. einv H. split.
        + destruct (under v) as [w|] eqn:U; [|exfalso; eapply Hinv; eassumption]. apply IH in E2; [|assumption|assumption].
          rewrite (bulk_under m _ _ U) in E2. apply key_short in E1; [|assumption|eapply typ3_range; eassumption].
          destruct (_ && _); apply EOk_inj in H; subst b; [cbn; lia|]. rewrite app_length. lia.
        + intros ->. exfalso. eapply Hinv. exact E2.
    Qed.
    Lemma fields_short : forall fs i num infos pre l buf, parse_fields env fs i num = EOk infos -> length pre = i ->
      encode_fields env c rec infos (pre ++ l) = EOk buf -> (length buf <= parts (fun x => 5 + bulk m x) l)%nat.
    Proof.
      induction fs as [|f fs IHf]; intros i num infos pre l buf Hp Hpre H.
      - cbn [parse_fields] in Hp. apply EOk_inj in Hp. subst infos. cbn [encode_fields] in H. apply EOk_inj in H. subst buf. cbn. lia.
      - apply parse_step in Hp.
        destruct l as [|x l].
        + (* past the end: nothing is there *)
          assert (G : forall infos' i' num', (length pre <= i')%nat -> forall fs', parse_fields env fs' i' num' = EOk infos' -> forall buf', encode_fields env c rec infos' pre = EOk buf' -> buf' = []).
          { intros infos' i' num' Hle fs'. revert infos' i' num' Hle. induction fs' as [|g fs' IHg]; intros infos' i' num' Hle Hq buf' Hb.
            - cbn [parse_fields] in Hq. apply EOk_inj in Hq. subst infos'. cbn in Hb. apply EOk_inj in Hb. auto.
            - apply parse_step in Hq. destruct (field_opts _ g) as [o|]; [|exact (IHg infos' _ _ (le_S _ _ Hle) Hq buf' Hb)].
              destruct Hq as (fi & rest & -> & Hix & _ & _ & Hop & _ & Hrest). cbn [encode_fields] in Hb. einv Hb. einv Hb. apply EOk_inj in Hb. subst buf'.
              rewrite nth_overflow in E by lia.
              rewrite (proj2 (field_short fi VInvalid a ltac:(rewrite Hop; cbn [fo_num set_num]; apply u32_range) E) eq_refl).
              exact (IHg rest _ _ (le_S _ _ Hle) Hrest a0 E0). }
          rewrite app_nil_r in H. destruct (field_opts _ f) as [o|].
          * destruct Hp as (fi & rest & -> & Hix & _ & _ & Hop & _ & Hrest). cbn [encode_fields] in H. einv H. einv H. apply EOk_inj in H. subst buf.
            rewrite nth_overflow in E by lia.
            rewrite (proj2 (field_short fi VInvalid a ltac:(rewrite Hop; cbn [fo_num set_num]; apply u32_range) E) eq_refl).
            rewrite (G rest (S i) (S num) ltac:(lia) fs Hrest a0 E0). cbn. lia.
          * rewrite (G infos (S i) num ltac:(lia) fs Hp buf H). cbn. lia.
        + assert (Ap : pre ++ x :: l = (pre ++ [x]) ++ l) by (rewrite <- app_assoc; reflexivity).
          assert (Lp : length (pre ++ [x]) = S i) by (rewrite app_length; cbn [length]; lia).
          rewrite parts_cons. destruct (field_opts _ f) as [o|].
          * destruct Hp as (fi & rest & -> & Hix & _ & _ & Hop & _ & Hrest). cbn [encode_fields] in H. einv H. einv H. apply EOk_inj in H. subst buf.
            rewrite Hix, app_nth2, <- Hpre, Nat.sub_diag in E by lia. cbn [nth] in E. rewrite Ap in E0.
            apply field_short in E; [|rewrite Hop; cbn [fo_num set_num]; apply u32_range]. specialize (IHf _ _ _ _ _ _ Hrest Lp E0).
            rewrite app_length. lia.
          * rewrite Ap in H. specialize (IHf _ _ _ _ _ _ Hp Lp H). lia.
    Qed.
  End Step.

  Theorem encode_short : forall k info v o bare bz, well info -> 0 <= fo_num o -> encode_reflect k env c info v o bare = EOk bz ->
    (length bz <= bulk m v)%nat.
  Proof.
    induction k as [|k IH]; intros info v o bare bz W No H; [discriminate|].
    assert (Hinv : forall info o bare bz, encode_reflect k env c info VInvalid o bare <> EOk bz) by (intros; destruct k; discriminate).
    apply encode_reflect_inv in H.
    assert (SW : encode_switch env c (encode_reflect k env c) (S k) info v o bare = EOk bz -> (length bz <= bulk m v)%nat).
    { clear H. intros H. unfold encode_switch in H.
      assert (BYT : forall l, (length (encode_byte_slice (val_bytes l)) <= 10 + list_sum (map (fun x => 5 + bulk m x) l))%nat).
      { intros l. pose proof (slice_short (val_bytes l)) as L. rewrite val_bytes_length in L.
        pose proof (parts_many (fun x => 5 + bulk m x)%nat 1 l ltac:(intros; cbn beta; lia)) as P. unfold parts in P. lia. }
      destruct (resolve env (ti_type info)) as [p| |n e|e|e|kt e| | |i|fs|] eqn:Er; try discriminate.
      - eapply prim_short, H.
      - destruct info as [ci|]; [|discriminate]. cbn [ti_type] in Er. unfold encode_struct in H. rewrite Er in H.
        destruct v; try discriminate. einv H. destruct a as [buf [err|]]; [discriminate|]. apply EOk_inj in H. subst bz.
        apply time_short in E. pose proof (finish_short bare buf). cbn [bulk]. lia.
      - destruct (is_uint8 env e); [|destruct (is_list_kind env e)].
        + destruct v; try discriminate. apply EOk_inj in H. subst bz. apply BYT.
        + destruct (multidim_bytes _ _ _) as [[|]|]; try discriminate H. apply EOk_inj in H. subst bz. cbn. lia.
        + eapply list_short; eassumption.
      - destruct (is_uint8 env e); [|destruct (is_list_kind env e)].
        + destruct v as [| | | | | | |[l|]| | | | | | |]; try discriminate; apply EOk_inj in H; subst bz; [apply BYT|cbn; lia].
        + destruct (multidim_bytes _ _ _) as [[|]|]; try discriminate H. apply EOk_inj in H. subst bz. cbn. lia.
        + eapply list_short; eassumption.
      - destruct info as [|ii]; [discriminate|]. unfold encode_interface in H.
        destruct v as [| | | | | | | | | |[[ct cv]|]| | | |]; try discriminate; [|apply EOk_inj in H; subst bz; cbn; lia].
        rewrite deref_pointers_under in H. destruct (under cv) as [crv|] eqn:U; [|discriminate].
        assert (H' : ebind (get_type_info env c (deref_type ct)) (fun info0 =>
                match info0 with
                | TIConc ci =>
                    match ci_reg ci with
                    | None => EErr "cannot encode unregistered concrete type"%string
                    | Some r =>
                        let need := ii_always ii ||
                          (1 <? length match assoc beqb (ri_prefix r) (ii_impls ii) with
                                       | Some l => l | None => [] end)%nat in
                        ebind (encode_reflect k env c info0 crv o true) (fun body =>
                        EOk (finish bare ((if need then 0 :: ri_disamb r else []) ++ ri_prefix r ++ body)))
                    end
                | TIFace _ => EErr "cannot encode unregistered concrete type"%string
                end) = EOk bz) by (destruct crv; try discriminate; exact H).
        einv H'. destruct a as [ci|]; [|discriminate]. destruct (ci_reg ci) as [r|] eqn:Erg; [|discriminate]. cbv zeta in H'.
        einv H'. apply EOk_inj in H'. destruct (gti_well _ _ E) as [Wc _]. destruct (reg_shape _ _ _ Wc Erg) as (L3 & L4 & _).
        apply IH in E0; [|exact Wc|exact No]. rewrite (bulk_under m _ _ U) in E0. subst bz.
        match goal with |- (length (finish _ ?b) <= _)%nat => pose proof (finish_short bare b) as F end.
        rewrite !app_length, L4 in F. cbn [bulk]. destruct (_ || _); cbn [length] in F; lia.
      - destruct info as [ci|]; [|discriminate]. cbn [ti_type] in Er. unfold encode_struct in H. rewrite Er in H.
        destruct v; try discriminate. einv H. apply EOk_inj in H. subst bz.
        destruct (info_ok_parts _ _ W) as (_ & Hpf & _). unfold parse_struct_info in Hpf. rewrite Er in Hpf.
        pose proof (fields_short _ IH Hinv fs 0 0 _ [] l a Hpf eq_refl E) as L. pose proof (finish_short bare a). unfold parts in L. cbn [bulk]. lia. }
    destruct info as [ci|ii]; [|exact (SW H)]. pose proof (minfo_method _ _ _ eq_refl W) as M.
    destruct (ci_marshal ci) as [r|]; [|exact (SW H)]. destruct H as (w & rinfo & Hw & Hr & H). destruct M as (id & f & Et & Hmm & Hdr).
    rewrite Et in Hw. unfold to_repr in Hw. rewrite Hmm in Hw. apply IH in H; [|apply (gti_well _ _ Hr)|exact No].
    pose proof (Hg _ _ _ _ _ Hmm Hw). lia.
  Qed.

  Theorem marshal_short k t v bz : marshal_bare k env c t v = EOk bz -> (length bz <= 9 + bulk m v)%nat.
  Proof.
    unfold marshal_bare. rewrite deref_pointers_under. destruct (under v) as [w|] eqn:U; [|discriminate]. intros H. einv H. einv H.
    destruct (gti_well _ _ E) as [W _].
    assert (A : (length a0 <= 5 + bulk m v)%nat).
    { rewrite <- (bulk_under m _ _ U). destruct (negb (is_struct_or_repeated_struct _ _)).
      - einv E0. unfold write_field in E0. einv E0. einv E0. einv E0. apply encode_short in E4; [|exact W|cbn; lia].
        apply key_short in E3; [|lia|eapply typ3_range; eassumption].
        destruct (_ && _); apply EOk_inj in E0; subst a0; [cbn; lia|]. rewrite app_length. lia.
      - apply encode_short in E0; [lia|exact W|cbn; lia]. }
    destruct a as [ci|ii]; [|apply EOk_inj in H; subst; lia]. destruct ci as [ty fs mm u [r|]]; apply EOk_inj in H; subst bz; [|lia].
    destruct (reg_shape _ _ r W eq_refl) as (_ & L4 & _). rewrite app_length, L4. lia.
  Qed.
End Bulk.
