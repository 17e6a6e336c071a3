(** A decoder for proofs only: [decode_reflect], but when it reads a struct
    it also makes sure that a reader which has only the first fields of the struct
    could skip the rest. *)
From Coq Require Import ZArith String List Bool Lia.
From Coq Require Import ZifyBool ZifyNat.
From Verif Require Import Base Prims SpecWire PrimFacts PrimProps Types Codec BinEnc BinDec Amino FuelFacts DecFacts
  ValueInd Typing Registry SpecRegistry RegistryFacts Sane DecSafe SpecNorm EncFacts RoundTrip TopFacts SpecProto ProtoFacts
  SpecStruct SkipFacts SpecVersion VersionFacts SpecKin.
Import ListNotations.
Local Open Scope Z_scope.

Definition common (A B : tenv) (t : gotype) : nat :=
  match resolve A t, resolve B t with
  | RStruct fa, RStruct fb => Nat.min (length fa) (length fb)
  | _, _ => 0%nat
  end.

Section Careful.
  Variables A B : tenv.
  Variable c : codec.

  Definition early (ci : cinfo) : list finfo := filter (fun f => (fi_index f <? common A B (ci_type ci))%nat) (ci_fields ci).
  Definition late (ci : cinfo) : list finfo := filter (fun f => negb (fi_index f <? common A B (ci_type ci))%nat) (ci_fields ci).

  Definition careful_struct (rec : bytes -> tinfo -> gotype -> value -> fopts -> bool -> dres value)
             (bz : bytes) (ci : cinfo) (v0 : value) (bare : bool) : dres value :=
    enter v0 bare bz (fun bz n0 =>
    match resolve A (ci_type ci), v0 with
    | RTime, _ =>
        dbind (decode_time bz) (fun t n e =>
        slide bz n (fun _ =>
        match e with
        | Some e => DRet v0 (n0 + n)%nat (Some e)
        | None => DRet (VTime (fst t) (snd t)) (n0 + n)%nat None
        end))
    | RStruct _, VStruct l0 =>
        match decode_fields A c rec (early ci) l0 bz 0 n0 with
        | DRet (l, bz', last) n None =>
            match decode_fields A c rec (late ci) l bz' last n, consume_rest (length bz') bz' last n with
            | DRet (l2, [], _) n2 None, DRet _ n3 None => if (n2 =? n3)%nat then DRet (VStruct l2) n2 None else DFuel
            | _, _ => DFuel
            end
        | _ => DFuel
        end
    | _, _ => DPanic "reflect: call on wrong kind"%string
    end).

  Definition careful_switch (rec : bytes -> tinfo -> gotype -> value -> fopts -> bool -> dres value)
             (bz : bytes) (info : tinfo) (v0 : value) (o : fopts) (bare : bool) : dres value :=
    match resolve A (ti_type info) with
    | RStruct _ | RTime =>
        match info with
        | TIConc ci => careful_struct rec bz ci v0 bare
        | TIFace _ => DPanic "unreachable"%string
        end
    | _ => decode_switch A c rec bz info v0 o bare
    end.
End Careful.

Fixpoint careful (fuel : nat) (A B : tenv) (c : codec) (bz : bytes) (info : tinfo) (t : gotype)
         (v0 : value) (o : fopts) (bare : bool) : dres value :=
  match fuel with
  | O => DFuel
  | S k =>
      match info, t with
      | TIFace _, TPtr _ => DPanic "should not happen"%string
      | _, _ =>
          dmap (rebuild t)
            (let w0 := base_of A t v0 in
             match info with
             | TIConc {| ci_type := ct; ci_unmarshal := Some r |} =>
                 eget (get_type_info A c r) (fun e => DRet w0 0 (Some e)) (fun rinfo =>
                 dbind (careful k A B c bz rinfo r (zero A r) o bare) (fun rv n e =>
                 slide bz n (fun _ =>
                 match e with
                 | Some e => DRet w0 n (Some e)
                 | None => eget (from_repr A ct w0 rv) (fun e => DRet w0 n (Some e))
                                (fun r => DRet (fst r) n (snd r))
                 end)))
             | _ => careful_switch A B c (careful k A B c) bz info w0 o bare
             end)
      end
  end.

(** ** Declarations *)

Section Decl.
  Variables A B : tenv.
  Hypothesis K : kin A B.

  Lemma kin_resolve t : resolve A t = resolve B t \/
    exists fs ga gb, resolve A t = RStruct (fs ++ ga) /\ resolve B t = RStruct (fs ++ gb) /\ (ga = [] \/ gb = []).
  Proof.
    destruct t; try (left; reflexivity). cbn [resolve]. destruct (kin_def _ _ K id) as [E|(fs & gs & [[E1 E2]|[E1 E2]])].
    - left. rewrite E. reflexivity.
    - right. rewrite E1, E2. exists fs, [], gs. rewrite app_nil_r. auto.
    - right. rewrite E1, E2. exists fs, gs, []. rewrite app_nil_r. auto.
  Qed.
  (** The shape of a struct type in the two versions. *)
  Lemma kin_struct t fa : resolve A t = RStruct fa -> exists fs ga gb, fa = fs ++ ga /\ resolve B t = RStruct (fs ++ gb) /\
    (ga = [] \/ gb = []) /\ common A B t = length fs.
  Proof.
    intros H. unfold common. rewrite H. destruct (kin_resolve t) as [E|(fs & ga & gb & E1 & E2 & D)].
    - rewrite <- E, H. exists fa, [], []. rewrite app_nil_r. splits; auto. apply Nat.min_id.
    - rewrite H in E1. inversion E1; subst fa. rewrite E2. exists fs, ga, gb. splits; auto.
      rewrite !app_length. destruct D; subst; cbn; lia.
  Qed.
End Decl.

Lemma split_infos A B ci fs ga a b : ci_fields ci = a ++ b -> common A B (ci_type ci) = length fs ->
  parse_fields A fs 0 0 = EOk a -> (exists num, parse_fields A ga (length fs) num = EOk b) ->
  early A B ci = a /\ late A B ci = b.
Proof.
  intros E C Pa (num & Pb). unfold early, late. rewrite E, C, !filter_app.
  pose proof (parse_index _ _ _ _ _ Pa) as Ia. cbn [Nat.add] in Ia.
  assert (Ib : forall gs i num infos, parse_fields A gs i num = EOk infos -> Forall (fun f => (i <= fi_index f)%nat) infos).
  { clear. induction gs as [|g gs IH]; intros i num infos H; [cbn in H; apply EOk_inj in H; subst; constructor|].
    apply parse_step in H. destruct (field_opts _ g) as [o|].
    - destruct H as (fi & rest & -> & Hx & _ & _ & _ & _ & H). constructor; [lia|]. eapply Forall_impl; [|exact (IH _ _ _ H)]. cbn. intros; lia.
    - eapply Forall_impl; [|exact (IH _ _ _ H)]. cbn. intros; lia. }
  specialize (Ib _ _ _ _ Pb).
  assert (Fall : forall (p : finfo -> bool) l, Forall (fun f => p f = true) l -> filter p l = l).
  { clear. intros p l H. induction H as [|x l Hx Hl IH]; cbn; [reflexivity|]. rewrite Hx, IH. reflexivity. }
  assert (Fnone : forall (p : finfo -> bool) l, Forall (fun f => p f = false) l -> filter p l = []).
  { clear. intros p l H. induction H as [|x l Hx Hl IH]; cbn; [reflexivity|]. rewrite Hx. exact IH. }
  split.
  - rewrite Fall, Fnone, app_nil_r; [reflexivity| |].
    + eapply Forall_impl; [|exact Ib]. cbn. intros f Hf. apply Nat.ltb_ge. exact Hf.
    + eapply Forall_impl; [|exact Ia]. cbn. intros f Hf. apply Nat.ltb_lt. exact Hf.
  - rewrite Fnone, Fall; [reflexivity| |].
    + eapply Forall_impl; [|exact Ib]. cbn. intros f Hf. apply negb_true_iff. apply Nat.ltb_ge. exact Hf.
    + eapply Forall_impl; [|exact Ia]. cbn. intros f Hf. apply negb_false_iff. apply Nat.ltb_lt. exact Hf.
Qed.

Lemma norm_fields_app env c bl fw nm : forall fs gs z l1 l2 l', length l1 = length fs -> norm_fields env c bl fw nm z (fs ++ gs) (l1 ++ l2) = Some l' ->
  exists m1 m2, l' = m1 ++ m2 /\ length m1 = length fs /\ norm_fields env c bl fw nm z fs l1 = Some m1 /\ norm_fields env c bl fw nm (z + live fs) gs l2 = Some m2.
Proof.
  induction fs as [|f fs IH]; intros gs z l1 l2 l' L N.
  - destruct l1; [|discriminate L]. exists [], l'. change (live []) with 0. rewrite Z.add_0_r. auto.
  - destruct l1 as [|v l1]; [discriminate L|]. cbn [app norm_fields] in N |- *. rewrite (live_cons f fs z). cbn [length] in L. apply Nat.succ_inj in L.
    destruct (field_opts z f) as [o|].
    + destruct (_ <=? _); [discriminate N|]. destruct (norm_field _ _ _ _ _ _ _ _) as [w|]; [|discriminate N].
      destruct (norm_fields env c bl fw nm (z + 1) (fs ++ gs) (l1 ++ l2)) as [r|] eqn:E; [|discriminate N]. inversion N; subst l'.
      destruct (IH _ _ _ _ _ L E) as (m1 & m2 & -> & L1 & N1 & N2). rewrite N1. exists (w :: m1), m2.
      replace (z + (live fs + 1)) with (z + 1 + live fs) by lia. cbn [length]. splits; auto; lia.
    + unfold option_map in *. destruct (norm_fields env c bl fw nm z (fs ++ gs) (l1 ++ l2)) as [r|] eqn:E; [|discriminate N]. inversion N; subst l'.
      destruct (IH _ _ _ _ _ L E) as (m1 & m2 & -> & L1 & N1 & N2). rewrite N1. eexists (_ :: m1), m2. cbn [length app]. splits; eauto; lia.
Qed.

(** ** What is written can be read carefully *)

Section CRT.
  Variables A B : tenv.
  Hypothesis WA : wf_env A.
  Variable c : codec.
  Hypothesis Hc : wf_codec A c.
  Hypothesis Hs : sane_codec A c.
  Hypothesis Hm : marshal_typed A.
  Hypothesis K : kin A B.
  Variable mem : gotype -> bool.
  Hypothesis Hreg : regular A c mem.
  Hypothesis Hdrop : forall t g, dropped A B t g -> mem t = true /\ (visible g = true -> entries A (sf_type g) = false).

  Lemma careful_list_unfold k bz info t v0 o bare : minfo A c info t -> entries A t = true -> has_method A t = false ->
    careful (S k) A B c bz info t v0 o bare =
    match resolve A t with
    | RArray _ e => decode_array A c (careful k A B c) bz e v0 o bare
    | RSlice e => decode_slice A c (careful k A B c) bz e v0 o bare
    | _ => DFuel
    end.
  Proof.
    clear - WA. intros Hi He Hme. pose proof (minfo_type _ _ _ _ Hi) as Ety.
    pose proof (entries_elem _ _ He) as (e & Ee & _ & Eu). pose proof (elem_nonptr _ _ _ Ee) as Np.
    rewrite (deref_nonptr _ Np) in Ety.
    assert (DM : forall r : dres value, dmap (rebuild t) r = r).
    { intros [v n er| |]; try reflexivity. cbn. unfold rebuild. rewrite <- ptrs_wrap, ptrs_nonptr by (apply deref_nonptr; exact Np). reflexivity. }
    assert (SW : careful_switch A B c (careful k A B c) bz info v0 o bare =
      match resolve A t with
      | RArray _ e => decode_array A c (careful k A B c) bz e v0 o bare
      | RSlice e => decode_slice A c (careful k A B c) bz e v0 o bare
      | _ => DFuel
      end).
    { unfold careful_switch, decode_switch. rewrite Ety. unfold elem_type in Ee. destruct (resolve A t); try discriminate; inversion Ee; subst; rewrite Eu; reflexivity. }
    rewrite <- SW, <- DM. cbn [careful]. destruct info as [ci|ii].
    - destruct Hi as [Hct Hok]. rewrite (deref_nonptr _ Np) in Hct.
      pose proof (minfo_unmethod _ _ _ Hct Hok) as M. destruct ci as [ct cf cm cu cr]. cbn [ci_unmarshal ci_type] in *.
      assert (cu = None).
      { destruct cu as [r|]; [|reflexivity]. destruct M as (id & g & -> & M & _). unfold has_method in Hme. rewrite M in Hme.
        destruct (te_marshal A id); discriminate. }
      subst cu. destruct t; try discriminate Np; reflexivity.
    - destruct t; try discriminate Np; reflexivity.
  Qed.

  Lemma regular_tail fs gs : forall z, regular_fields A mem z (fs ++ gs) = true -> regular_fields A mem (z + live fs) gs = true.
  Proof.
    clear. induction fs as [|f fs IH]; intros z Rg; [change (live []) with 0; rewrite Z.add_0_r; exact Rg|]. cbn [app regular_fields] in Rg. rewrite (live_cons f fs z).
    destruct (field_opts z f); [|apply IH; exact Rg]. apply andb_true_iff in Rg. destruct Rg as [_ Rg]. replace (z + (live fs + 1)) with (z + 1 + live fs) by lia. apply IH. exact Rg.
  Qed.

  Lemma careful_struct_rt k fd info ci t fs l l' buf bare rest :
    rt_ok A c (encode_reflect k A c) (norm k A c) (careful (S fd) A B c) ->
    rt_ok A c (encode_reflect k A c) (norm k A c) (careful fd A B c) ->
    info = TIConc ci -> ci_type ci = t -> info_ok A ci -> resolve A t = RStruct fs -> (forall id, t = TNamed id -> te_marshal A id = None) ->
    has_type A t (VStruct l) = true ->
    encode_fields A c (encode_reflect k A c) (ci_fields ci) l = EOk buf -> zlen buf < 2 ^ 63 ->
    norm_fields A c (blank k A) (fixed_width k A) (norm k A c) 1 fs l = Some l' ->
    (bare = true -> rest = []) ->
    careful_struct A B c (careful (S fd) A B c) (finish bare buf ++ rest) ci (zero A t) bare = DRet (VStruct l') (length (finish bare buf)) None.
  Proof.
    intros IH1 IH0 -> Hct Hok Er Hmm Ht E Zb Nf Hr.
    pose proof (encode_lead A WA c Hs Hm k) as Hlead.
    unfold careful_struct. rewrite (zero_struct _ _ _ WA Er).
    edestruct (@enter_finish value) as (n0 & rest' & -> & Hn0 & R1 & R2); [exact Zb|]. rewrite Hct, Er.
    assert (rest' = []) by (destruct bare; [rewrite R2 by reflexivity|]; auto). subst rest'. rewrite app_nil_r.
    destruct (info_ok_parts _ _ Hok) as (_ & Hpf & _). rewrite Hct in Hpf. unfold parse_struct_info in Hpf. rewrite Er in Hpf.
    destruct (kin_struct A B K t fs Er) as (f0 & ga & gb & -> & Eb & Dab & Cm).
    destruct (parse_app _ _ _ _ _ _ Hpf) as (a & b & Ef & Fa & num' & Fb & Hnum). cbn [Nat.add] in Fb.
    rewrite <- Hct in Cm. destruct (split_infos A B ci f0 ga a b Ef Cm Fa (ex_intro _ _ Fb)) as [-> ->]. rewrite Hct in Cm.
    cbn [has_type] in Ht. rewrite Er in Ht. destruct (forall2b_app _ _ _ _ Ht) as (l1 & l2 & -> & L1 & T1 & T2).
    destruct (norm_fields_app _ _ _ _ _ _ _ _ _ _ _ L1 Nf) as (m1 & m2 & -> & Lm & N1 & N2).
    rewrite Ef, encode_fields_app in E. einv E. einv E. apply EOk_inj in E. subst buf. rename a0 into b1, a1 into b2.
    pose proof (parse_index A f0 0%nat 0%nat _ Fa) as Ia.
    rewrite encode_fields_frame in E0 by (rewrite L1; exact Ia).
    rewrite zlen_app in Zb. pose proof (zlen_nonneg b1). pose proof (zlen_nonneg b2).
    pose proof (live_nonneg f0) as Lv.
    assert (Z0 : Z.of_nat num' = live f0) by (cbn [Z.of_nat] in Hnum; lia).
    (* the fields which the other version lacks *)
    assert (KA : key_after (live f0) b2 /\ forall last n, last <= live f0 -> consume_rest (length b2) b2 last n = DRet tt (n + length b2) None).
    { destruct ga as [|g0 ga].
      - cbn [parse_fields] in Fb. apply EOk_inj in Fb. subst b. cbn [encode_fields] in E1. apply EOk_inj in E1. subst b2.
        split; [left; reflexivity|]. intros last n _. cbn [length consume_rest]. rewrite Nat.add_0_r. reflexivity.
      - destruct Dab as [X| ->]; [discriminate X|]. rewrite app_nil_r in Eb.
        assert (Dr : forall g, In g (g0 :: ga) -> dropped A B t g) by (intros g Hg; exists f0, (g0 :: ga); auto).
        destruct (Hdrop t g0 (Dr g0 (or_introl eq_refl))) as [Hmem _].
        pose proof (Hreg t Hmem) as Rt. unfold regular_type in Rt.
        assert (Rg : regular_fields A mem 1 (f0 ++ g0 :: ga) = true).
        { destruct t as [| | | | | | | | |id]; try discriminate Er. rewrite (Hmm id eq_refl), Er in Rt. exact Rt. }
        apply regular_tail in Rg. replace (1 + live f0) with (Z.of_nat num' + 1) in Rg by lia.
        destruct (fields_wire A WA c Hs mem k (encode_wire A WA c Hc Hs Hm mem Hreg k) (g0 :: ga) (length f0) num' b l1 l2 b2 Fb L1 T2 Rg E1 ltac:(lia)) as (es & Hf & Hb).
        pose proof (payloads_ok A WA c Hm _ _ _ _ _ Hf T2 Hb ltac:(lia)) as Po.
        assert (Hsi : single A (g0 :: ga) l2).
        { unfold single. clear - T2 Dr Hdrop. revert l2 T2 Dr. generalize (g0 :: ga). induction l as [|g gs IH]; intros [|v l2] T Dr; try discriminate T; [constructor|].
          cbn [forall2b] in T. apply andb_true_iff in T. destruct T as [_ T]. constructor.
          - intros V En. destruct (Hdrop t g (Dr g (or_introl eq_refl))) as [_ X]. rewrite (X V) in En. discriminate En.
          - apply IH; [exact T|]. intros g' Hg'. apply Dr. right. exact Hg'. }
        pose proof (fields_increasing A c mem _ _ _ _ Hf ltac:(lia) Rg Hsi) as Inc. replace (Z.of_nat num' + 1 - 1) with (live f0) in Inc by lia.
        split; [exact (message_key _ _ _ Hb Inc)|]. intros last n Hl. apply (consume_message es b2 Hb); try assumption; [lia|]. eapply increasing_le; [|exact Inc]. exact Hl. }
    destruct KA as [KA CR].
    destruct (fields_rt A WA c Hs _ _ _ _ Hlead (careful (S fd) A B c) (careful fd A B c) IH1 IH0 (careful_list_unfold fd) (blank_num A k)
      f0 0%nat 0%nat a [] l1 b1 m1 [] 0 n0 b2 Fa eq_refl T1 E0 ltac:(lia) N1 eq_refl ltac:(lia) KA) as [_ (last' & Hlast & D)].
    cbn [app Z.of_nat] in D, Hlast. rewrite Z.add_0_l in Hlast.
    rewrite map_app, decode_fields_frame by (rewrite map_length; exact Ia). rewrite D. cbn [with_ex].
    destruct (fields_rt A WA c Hs _ _ _ _ Hlead (careful (S fd) A B c) (careful fd A B c) IH1 IH0 (careful_list_unfold fd) (blank_num A k)
      ga (length f0) num' b l1 l2 b2 m2 m1 last' (n0 + length b1)%nat [] Fb L1 T2 E1 ltac:(lia)
      ltac:(replace (Z.of_nat num' + 1) with (1 + live f0) by lia; exact N2) Lm ltac:(lia) (or_introl eq_refl)) as [_ (last2 & _ & D2)].
    rewrite app_nil_r in D2. rewrite D2, CR by lia. rewrite Nat.eqb_refl. rewrite <- Hn0, app_length. f_equal. lia.
  Qed.

  Theorem encode_careful : forall k fd, (2 * k <= fd)%nat -> rt_ok A c (encode_reflect k A c) (norm k A c) (careful fd A B c).
  Proof.
    induction k as [|k IH]; intros fd Hfd info t v o bare bz v' rest tt w0 Hi Hd Ht Hnum H Hz Hn Hr Htt Hpi Hbase; [discriminate|].
    destruct fd as [|[|fd]]; [lia|lia|].
    pose proof (IH (S fd) ltac:(lia)) as IH1. pose proof (IH fd ltac:(lia)) as IH0. clear IH.
    pose proof (encode_lead A WA c Hs Hm k) as Hlead.
    pose proof (minfo_type _ _ _ _ Hi) as Ety. rewrite Hd in Ety.
    apply encode_reflect_inv in H.
    set (dec := careful (S fd) A B c) in *.
    assert (SW : forall pl, (forall id, t = TNamed id -> te_marshal A id = None) -> encode_switch A c (encode_reflect k A c) (S k) info v o bare = EOk bz ->
      match resolve A t, v with
        | RPrim PFloat32, VFloat b => Some (VFloat (quiet32 b))
        | RPrim _, _ | RTime, _ => Some v
        | RArray _ e, VArr l =>
            if is_uint8 A e then (if gotype_eqb e (TPrim PUint8) then Some v else None)
            else if is_list A e then None
            else norm_list A c (blank k A) (fixed_width k A) (norm k A c) t o v
        | RSlice e, VSlice ol =>
            if is_uint8 A e then
              match ol with
              | None | Some [] => Some (VSlice None)
              | _ => if gotype_eqb e (TPrim PUint8) then Some v else None
              end
            else if is_list A e then None
            else norm_list A c (blank k A) (fixed_width k A) (norm k A c) t o v
        | RStruct fs, VStruct l =>
            option_map VStruct (norm_fields A c (blank k A) (fixed_width k A) (norm k A c) 1 fs l)
        | RIface i, VIface (Some (ct, cv)) => norm_iface A c (norm k A c) i o ct cv
        | _, _ => None
        end = Some pl ->
      careful_switch A B c dec (bz ++ rest) info (zero A t) o bare = DRet pl (length bz) None).
    { clear Hn v'. intros pl Hmm H' Hn. unfold encode_switch in H'. unfold careful_switch, decode_switch. rewrite Ety in *.
      destruct (resolve A t) as [p| |len e|e| | | | |i|fs|] eqn:Er; try discriminate.
      - rewrite (has_type_prim _ _ _ _ Er) in Ht. rewrite (prim_rt _ _ _ _ (zero A t) rest Ht Hz H').
        destruct p, v; try discriminate; inversion Hn; reflexivity.
      - destruct info as [ci|ii]; [|discriminate]. destruct Hi as [Hct Hok]. unfold encode_struct in H'. rewrite Hct, Hd, Er in H'.
        destruct v; try discriminate. inversion Hn; subst pl; clear Hn. einv H'. destruct a as [buf [er|]]; [discriminate|]. apply EOk_inj in H'. subst bz.
        unfold careful_struct. rewrite (zero_time_eq _ _ WA Er).
        assert (TK : time_ok s ns).
        { unfold time_ok. cbn [has_type] in Ht. rewrite Er in Ht. destruct (Z_lt_le_dec s min_seconds); [rewrite encode_time_bad_seconds in E by lia; discriminate|].
          destruct (Z_lt_le_dec s max_seconds); [|rewrite encode_time_bad_seconds in E by lia; discriminate].
          unfold max_nanos. lia. }
        assert (Zb : zlen buf < 2 ^ 63).
        { destruct bare; [exact Hz|]. cbn [finish] in Hz. pose proof (zlen_byte_slice buf). lia. }
        edestruct (@enter_finish value) as (n0 & rest' & -> & Hn0 & R1 & R2); [exact Zb|]. rewrite Hct, Hd, Er.
        assert (rest' = []) by (destruct bare; [rewrite R2 by reflexivity|]; auto). subst rest'. rewrite app_nil_r.
        rewrite (decode_time_encode s ns buf TK E).
        cbn [dbind]. rewrite slide_le by lia. cbn [fst snd]. rewrite Hn0. reflexivity.
      - destruct v; try discriminate. cbn [has_type] in Ht. rewrite Er in Ht. pose proof Ht as Ht'. apply andb_true_iff in Ht'. destruct Ht' as [Hlen Hte].
        destruct (is_uint8 A e) eqn:Eu.
        + destruct (gotype_eqb e (TPrim PUint8)) eqn:Eg; [|discriminate]. inversion Hn; subst pl. apply EOk_inj in H'. subst bz.
          apply Nat.eqb_eq in Hlen. subst len. eapply byte_array_rt; try eassumption. reflexivity.
        + unfold is_list in Hn. unfold is_list_kind in H'.
          assert (H2 : encode_list A c (encode_reflect k A c) info (VArr l) o bare = EOk bz) by (destruct (resolve A e); try discriminate; exact H').
          assert (Hn2 : norm_list A c (blank k A) (fixed_width k A) (norm k A c) t o (VArr l) = Some pl) by (destruct (resolve A e); try discriminate; exact Hn).
          pose proof (list_rt A WA c Hs _ _ _ _ Hlead dec IH1 info t (VArr l) o bare bz pl rest Hi Hd) as R. rewrite Er in R. apply R; try assumption.
          * cbn [has_type]. rewrite Er. exact Ht.
          * intros X. left. auto.
      - destruct v as [| | | | | | |ol| | | | | | |]; try discriminate. cbn [has_type] in Ht. rewrite Er in Ht.
        destruct (is_uint8 A e) eqn:Eu.
        + assert (X : exists l, bz = encode_byte_slice (val_bytes l) /\ pl = slice_of l /\ forallb (has_type A e) l = true /\ (l <> [] -> gotype_eqb e (TPrim PUint8) = true)).
          { destruct ol as [l|]; apply EOk_inj in H'; subst bz.
            - exists l. split; [reflexivity|]. destruct l; [inversion Hn; splits; [reflexivity|reflexivity|contradiction]|].
              destruct (gotype_eqb e (TPrim PUint8)); [|discriminate]. inversion Hn. splits; [reflexivity|exact Ht|reflexivity].
            - exists []. inversion Hn. splits; [reflexivity|reflexivity|reflexivity|contradiction]. }
          destruct X as (l & -> & -> & X1 & X2). eapply byte_slice_rt; eassumption.
        + unfold is_list in Hn. unfold is_list_kind in H'.
          assert (H2 : encode_list A c (encode_reflect k A c) info (VSlice ol) o bare = EOk bz) by (destruct (resolve A e); try discriminate; exact H').
          assert (Hn2 : norm_list A c (blank k A) (fixed_width k A) (norm k A c) t o (VSlice ol) = Some pl) by (destruct (resolve A e); try discriminate; exact Hn).
          pose proof (list_rt A WA c Hs _ _ _ _ Hlead dec IH1 info t (VSlice ol) o bare bz pl rest Hi Hd) as R. rewrite Er in R. apply R; try assumption.
          * cbn [has_type]. rewrite Er. exact Ht.
          * intros X. left. auto.
      - destruct info as [ci|ii]; [discriminate|]. destruct Hi as [Hin Hct]. rewrite Hd in Hct. subst t. cbn [zero].
        apply (iface_rt A WA c Hc _ _ dec IH1 ii (TIface (ii_id ii)) v o bare bz pl rest Hin eq_refl Ht Hnum H' Hz); [|exact Hr].
        cbn [resolve] in Er. inversion Er; subst i. exact Hn.
      - destruct info as [ci|ii]; [|discriminate]. destruct Hi as [Hct Hok]. unfold encode_struct in H'. rewrite Hct, Hd, Er in H'.
        destruct v as [| | | | | | | | |l| | | | |]; try discriminate. einv H'. rename a into buf. apply EOk_inj in H'. subst bz.
        unfold option_map in Hn. destruct (norm_fields _ _ _ _ _ _ _ _) as [l'|] eqn:Enf; [|discriminate]. inversion Hn; subst pl; clear Hn.
        assert (Zb : zlen buf < 2 ^ 63).
        { destruct bare; [exact Hz|]. cbn [finish] in Hz. pose proof (zlen_byte_slice buf). lia. }
        rewrite Hd in Hct. eapply (careful_struct_rt k fd (TIConc ci) ci t fs l); eauto. }
    assert (ND : match info, tt with TIFace _, TPtr _ => False | _, _ => True end).
    { destruct info as [|ii]; [exact I|]. destruct tt; try exact I. cbn [is_ptr] in Hpi. destruct Hi as [_ Hi]. rewrite Hd in Hi. rewrite Hi in Hpi. discriminate. }
    assert (GO : dmap (rebuild tt)
            (match info with
             | TIConc {| ci_type := ct; ci_unmarshal := Some r |} =>
                 eget (get_type_info A c r) (fun e => DRet (zero A t) 0 (Some e)) (fun rinfo =>
                 dbind (dec (bz ++ rest) rinfo r (zero A r) o bare) (fun rv n e =>
                 slide (bz ++ rest) n (fun _ =>
                 match e with
                 | Some e => DRet (zero A t) n (Some e)
                 | None => eget (from_repr A ct (zero A t) rv) (fun e => DRet (zero A t) n (Some e))
                                (fun r => DRet (fst r) n (snd r))
                 end)))
             | _ => careful_switch A B c dec (bz ++ rest) info (zero A t) o bare
             end) = DRet (ptrs tt v') (length bz) None).
    { assert (G : forall r, r = DRet v' (length bz) None -> dmap (rebuild tt) r = DRet (ptrs tt v') (length bz) None).
      { intros r ->. cbn. unfold rebuild. rewrite <- ptrs_wrap. reflexivity. }
      apply G. clear G. cbn [norm] in Hn. destruct info as [ci|ii].
      - destruct Hi as [Hct Hok]. rewrite Hd in Hct.
        pose proof (minfo_method _ _ _ Hct Hok) as M. pose proof (minfo_unmethod _ _ _ Hct Hok) as U.
        destruct ci as [ct cf cm cu cr]. cbn [ci_unmarshal ci_type ci_marshal] in *. subst ct.
        destruct cm as [r|].
        + destruct M as (id & f & Et & M & Mr). destruct H as (w & rinfo & Hw & Hri & H).
          clear Hpi ND Hbase SW Htt. subst t. cbv beta iota zeta in Hn.
          rewrite M in Hn. cbn [to_repr] in Hw. rewrite M in Hw. rewrite Hw in Hn.
          destruct (te_unmarshal A id) as [[|r' g]|] eqn:Eun; try discriminate.
          destruct (gotype_eqb r r') eqn:Err; [|discriminate]. apply gotype_eqb_eq in Err. subst r'.
          destruct cu as [r'|]; [|specialize (U id eq_refl); congruence]. destruct U as (id' & g' & X & U & _). inversion X; subst id'.
          rewrite Eun in U. inversion U; subst r' g'; clear U X.
          destruct (norm k A c r o w) as [w'|] eqn:Enk; [|discriminate].
          destruct (g (zero A (TNamed id)) w') as [[v1 [er|]]| | |] eqn:Eg; try discriminate. inversion Hn; subst v1; clear Hn.
          rewrite Hri. cbn [eget].
          assert (D : dec (bz ++ rest) rinfo r (zero A r) o bare = DRet (ptrs r w') (length bz) None).
          { eapply (IH1 rinfo r w o bare bz w' rest r); try assumption.
            - apply (gti_minfo _ _ _ _ Hs Hri).
            - eapply Hm; eassumption.
            - rewrite <- Mr. rewrite deref_is_ptr. reflexivity.
            - rewrite base_zero, Mr. reflexivity. }
          rewrite D, (ptrs_nonptr _ _ Mr). cbn [dbind]. rewrite slide_app by reflexivity. cbn [from_repr]. rewrite Eun, Eg. reflexivity.
        + assert (cu = None).
          { destruct cu as [r|]; [|reflexivity]. destruct U as (id & g & -> & U & _). specialize (M id eq_refl). rewrite M, U in Hn. discriminate. }
          subst cu. apply SW; [exact M|exact H|]. destruct t; try exact Hn. rewrite (M id eq_refl), (U id eq_refl) in Hn. exact Hn.
      - destruct Hi as [_ Hi]. rewrite Hd in Hi. subst t. apply SW; [discriminate|exact H|exact Hn]. }
    change (careful (S (S fd)) A B c (bz ++ rest) info tt w0 o bare = DRet (ptrs tt v') (length bz) None).
    cbn [careful]. fold dec. rewrite Hbase. destruct info as [ci|ii]; [exact GO|]. destruct tt; try exact GO. contradiction.
  Qed.
End CRT.
