(** Facts for C97: a value that is not a struct is written as the struct with it as only field. *)
From Coq Require Import ZArith String List Bool Lia.
From Coq Require Import ZifyBool ZifyNat.
From Verif Require Import Base Prims PrimFacts Types Codec BinEnc BinDec Amino ValueInd Typing Registry SpecRegistry RegistryFacts Sane DecSafe SpecNorm EncFacts
  SpecStruct SkipFacts RoundTrip TopFacts ConcatFacts SpecArray ArrayFacts SpecRename RenameFacts FuelFacts SpecLone.
Import ListNotations.
Local Open Scope Z_scope.
Local Open Scope amino_scope.

(** ** Options that differ in names only *)
Lemma same_field_refl f : same_field f f.
Proof. split; reflexivity. Qed.
Lemma Forall2_same {A} (R : A -> A -> Prop) l : (forall x, R x x) -> Forall2 R l l.
Proof. intros H. induction l; constructor; auto. Qed.
Lemma renamed_refl env : renamed env env.
Proof. split; try reflexivity. intros id. unfold same_def. destruct (te_def env id); [apply Forall2_same, same_field_refl|reflexivity]. Qed.
Lemma clike_refl ci : clike ci ci.
Proof. split; try reflexivity. apply Forall2_same. intros f. split; try reflexivity. apply olike_refl. Qed.
Lemma ilike_refl ii : ilike ii ii.
Proof. split; try reflexivity. apply Forall2_same. intros x. split; [reflexivity|]. apply Forall2_same, clike_refl. Qed.
Lemma tlike_refl i : tlike i i.
Proof. destruct i; [apply clike_refl|apply ilike_refl]. Qed.
Lemma dlike_refl c : dlike c c.
Proof. split; try reflexivity; apply Forall2_same; try apply ilike_refl; try apply clike_refl; intros x; (split; [reflexivity|apply clike_refl]). Qed.

Section Lone.
  Variable env : tenv.
  Variable c : codec.
  Hypothesis Hs : sane_codec env c.
  Notation Enc k := (encode_reflect k env c).

  Lemma enc_names k i v o o' b : olike o o' -> Enc k i v o' b = Enc k i v o b.
  Proof. intros Ho. apply (encode_like env env (renamed_refl env) c c (dlike_refl c)); [apply tlike_refl|exact Ho]. Qed.
  Lemma list_names k i v o o' b : olike o o' -> encode_list env c (Enc k) i v o' b = encode_list env c (Enc k) i v o b.
  Proof.
    intros Ho. apply (enc_list_like env env (renamed_refl env) c c (dlike_refl c)); [|apply tlike_refl|exact Ho].
    intros j j' w p p' z Hj Hp. apply (encode_like env env (renamed_refl env) c c (dlike_refl c)); assumption.
  Qed.

  (** ** The only field *)
  Lemma parse_hidden fs : (forall g, In g fs -> visible g = false) -> forall i n, parse_fields env fs i n = EOk [].
  Proof.
    induction fs as [|f fs IH]; intros H i n; [reflexivity|]. cbn [parse_fields]. rewrite (hidden_none f) by (apply H; left; reflexivity). apply IH. intros g Hg. apply H. right. exact Hg.
  Qed.
  Lemma parse_lone t v fs l : holds_only t v fs l -> exists i o, nth_error l i = Some v /\ olike (set_num 1 no_opts) o /\
    ((exists up nm, unpacked_list env t o = EOk up /\ check_unsafe env t o = EOk tt /\ parse_fields env fs 0 0 = EOk [{| fi_name := nm; fi_index := i; fi_type := t; fi_unpacked := up; fi_opts := o |}]) \/
     ((forall up, unpacked_list env t o <> EOk up) \/ check_unsafe env t o <> EOk tt) /\ forall r, parse_fields env fs 0 0 <> EOk r).
  Proof.
    intros (i & f & Nf & Nl & V & T & B & A & H). 
    assert (X : exists o, parse_field_options f = Some o /\ olike (set_num 1 no_opts) (set_num 1 o)).
    { unfold visible in V. unfold parse_field_options. destruct (beqb (sf_json f) (bs "-")); [rewrite andb_false_r in V; discriminate V|]. eexists. split; [reflexivity|].
      rewrite A, B. split; reflexivity. }
    destruct X as (o & Po & Ho). exists i, (set_num 1 o). split; [exact Nl|]. split; [exact Ho|].
    assert (G : forall fs i d, nth_error fs i = Some f -> (forall j g, nth_error fs j = Some g -> j <> i -> visible g = false) -> parse_fields env fs d 0 =
      ebind (unpacked_list env t o) (fun up => ebind (check_unsafe env t (set_num 1 o)) (fun _ => EOk [{| fi_name := sf_name f; fi_index := (d + i)%nat; fi_type := t; fi_unpacked := up; fi_opts := set_num 1 o |}]))).
    { clear -T Po V. induction fs as [|g fs IH]; intros i d N H; [destruct i; discriminate N|]. cbn [parse_fields]. destruct i as [|i].
      - injection N as ->. unfold visible in V. destruct (sf_exported f); [|discriminate V]. cbn [negb]. rewrite Po, T. cbv zeta. change (u32 (Z.of_nat 0 + 1)) with 1.
        rewrite (parse_hidden fs). { rewrite Nat.add_0_r. reflexivity. }
        intros g Hg. apply In_nth_error in Hg. destruct Hg as [j Hg]. apply (H (S j)); [exact Hg|discriminate].
      - rewrite (hidden_none g) by (apply (H 0%nat); [reflexivity|discriminate]). rewrite (IH i (S d)); [|exact N|intros j g' Hj Ne; apply (H (S j)); [exact Hj|lia]].
        replace (S d + i)%nat with (d + S i)%nat by lia. reflexivity. }
    rewrite (G fs i 0%nat Nf H). cbn [Nat.add].
    assert (U : unpacked_list env t (set_num 1 o) = unpacked_list env t o) by reflexivity. rewrite U.
    destruct (unpacked_list env t o) as [up| | |]; cbn [ebind]; try (right; split; [left; discriminate|discriminate]).
    destruct (check_unsafe env t (set_num 1 o)) as [[]| | |]; cbn [ebind]; try (right; split; [right; discriminate|discriminate]).
    left. exists up, (sf_name f). splits; reflexivity.
  Qed.

  (** ** Lone values *)
  Lemma packed_names k k' e l o o' : match resolve env e with RPrim PString => False | RPrim _ => True | _ => False end -> has_method env e = false ->
    forall info, get_type_info env c e = EOk info -> fo_fixed32 o' = fo_fixed32 o -> fo_fixed64 o' = fo_fixed64 o -> fo_unsafe o' = fo_unsafe o ->
    encode_packed env (Enc (S k)) e info l o' = encode_packed env (Enc (S k')) e info l o.
  Proof.
    intros R M info G F3 F6 Un. assert (D : deref_type e = e) by (destruct e; try reflexivity; contradiction R). assert (I : is_iface e = false) by (destruct e; try reflexivity; contradiction R).
    destruct (plain_info env c Hs e [] D I M) as (ci & G' & Tc & Mc & _). { unfold parse_struct_info. destruct (resolve env e); try contradiction R; reflexivity. }
    rewrite G in G'. injection G' as ->. induction l as [|v l IH]; [reflexivity|]. cbn [encode_packed]. rewrite IH. f_equal.
    destruct ci as [ty fs m u r]; cbn in Tc, Mc; subst. cbn [encode_reflect]. unfold encode_switch. cbn [ti_type ci_type]. destruct (resolve env e) as [p| | | | | | | | | |]; try contradiction R.
    assert (encode_prim p (deref_pointers_zero env e v) o' = encode_prim p (deref_pointers_zero env e v) o) as -> by (unfold encode_prim; rewrite F3, F6, Un; reflexivity). reflexivity.
  Qed.
  (** Options without effect on numbers. *)
  Definition bland (o : fopts) : Prop := fo_fixed32 o = false /\ fo_fixed64 o = false /\ fo_unsafe o = false.
  Lemma bland_prim p v o : bland o -> encode_prim p v o = encode_prim p v no_opts.
  Proof. intros (A & B & C). unfold encode_prim. rewrite A, B, C. reflexivity. Qed.
  Lemma bland_like o : olike (set_num 1 no_opts) o -> bland o.
  Proof. intros [A B _ C _ _]. repeat split; assumption. Qed.
  Lemma bland_no : bland no_opts.
  Proof. repeat split. Qed.

  (** What is written for a value that is neither a struct nor a list of structs. *)
  Definition written (info : tinfo) (v : value) (bares : bool -> Prop) (E : eres bytes) : Prop :=
    (forall j o b, bland o -> bares b -> Enc (S (S j)) info v o b = E) /\ is_default_value v = (v, snd (is_default_value v)) /\ (snd (is_default_value v) = true -> E = EOk [0]).
  Lemma prim_written t p ci v : resolve env t = RPrim p -> ci_type ci = t -> ci_marshal ci = None -> has_type env t v = true -> written (TIConc ci) v (fun _ => True) (encode_prim p v no_opts).
  Proof.
    intros R T M H. destruct ci as [ty fs m u r]; cbn in T, M; subst. split; [|split].
    - intros j o b O _. destruct v; cbn [has_type] in H; rewrite R in H; destruct p; try discriminate H;
        cbn [encode_reflect]; unfold encode_switch; cbn [ti_type ci_type]; rewrite R; apply bland_prim, O.
    - destruct v; cbn [has_type] in H; rewrite R in H; destruct p; try discriminate H; reflexivity.
    - intros D. destruct v; cbn [has_type] in H; rewrite R in H; destruct p; try discriminate H; cbn in D; try discriminate D; try (apply Z.eqb_eq in D; subst; reflexivity).
      destruct s; [reflexivity|discriminate D].
  Qed.
  Lemma list_written t e ci v : (resolve env t = RSlice e \/ exists n, resolve env t = RArray n e) -> match resolve env e with RPrim PString => False | RPrim _ => True | _ => False end ->
    has_method env e = false -> ci_type ci = t -> ci_marshal ci = None -> has_type env t v = true ->
    written (TIConc ci) v (fun b => b = false) (Enc 2 (TIConc ci) v no_opts false).
  Proof.
    intros R Re Me T M H.
    assert (V : (exists l, v = VArr l /\ exists n, resolve env t = RArray n e) \/ v = VSlice None /\ resolve env t = RSlice e \/ exists l, v = VSlice (Some l) /\ resolve env t = RSlice e).
    { destruct R as [R|[n R]]; destruct v as [| | | | | |l|[l|]| | | | | | |]; cbn [has_type] in H; rewrite R in H; try discriminate H; eauto 6. }
    destruct (plain_info env c Hs e []) as (ce & Ge & Te & Mce & _).
    { destruct e; try reflexivity; contradiction Re. } { destruct e; try reflexivity; contradiction Re. } { exact Me. }
    { unfold parse_struct_info. destruct (resolve env e); try contradiction Re; reflexivity. }
    assert (L3 : forall o, bland o -> exists z, type_to_typ3 env (ti_type (TIConc ce)) o = EOk z /\ (z =? Typ3ByteLength) = false).
    { intros o (A & B & _). cbn [ti_type]. rewrite Te. unfold type_to_typ3. rewrite A, B. destruct (resolve env e) as [p| | | | | | | | | |]; try contradiction Re; destruct p; try contradiction Re; eexists; split; reflexivity. }
    assert (Lk : is_list_kind env e = false) by (unfold is_list_kind; destruct (resolve env e); try contradiction Re; reflexivity).
    assert (EL : forall j j' o, bland o -> encode_list env c (Enc (S j)) (TIConc ci) v o false = encode_list env c (Enc (S j')) (TIConc ci) v no_opts false).
    { intros j j' o O. unfold encode_list. cbn [ti_type]. rewrite T.
      assert (Q : forall ll, (if is_uint8 env e then EPanic "should not happen"%string else elet einfo := get_type_info env c e in elet typ3 := type_to_typ3 env (ti_type einfo) o in
          match ll with None => EPanic "reflect: call on wrong kind"%string | Some l => elet buf := (if negb (typ3 =? Typ3ByteLength) then encode_packed env (Enc (S j)) e einfo l o else encode_unpacked env (Enc (S j)) e einfo l o) in EOk (finish false buf) end) =
        (if is_uint8 env e then EPanic "should not happen"%string else elet einfo := get_type_info env c e in elet typ3 := type_to_typ3 env (ti_type einfo) no_opts in
          match ll with None => EPanic "reflect: call on wrong kind"%string | Some l => elet buf := (if negb (typ3 =? Typ3ByteLength) then encode_packed env (Enc (S j')) e einfo l no_opts else encode_unpacked env (Enc (S j')) e einfo l no_opts) in EOk (finish false buf) end)).
      { intros ll. destruct (is_uint8 env e); [reflexivity|]. rewrite Ge. cbn [ebind]. destruct (L3 o O) as (z & -> & Z). destruct (L3 no_opts bland_no) as (z' & -> & Z'). cbn [ebind]. rewrite Z, Z'. cbn [negb].
        destruct ll as [l|]; [|reflexivity]. destruct O as (A & B & C). rewrite (packed_names j j' e l no_opts o Re Me _ Ge A B C). reflexivity. }
      destruct R as [R|[n R]]; rewrite R; apply Q. }
    assert (Vp : match v with VPtr _ | VInvalid => False | _ => True end) by (destruct V as [(l & -> & _)|[[-> _]|(l & -> & _)]]; exact I).
    assert (ES : forall j o, bland o -> Enc (S (S j)) (TIConc ci) v o false = encode_switch env c (Enc (S j)) (S (S j)) (TIConc ci) v o false).
    { intros j o _. destruct ci as [ty fs m u r]; cbn in T, M; subst. cbn [encode_reflect]. destruct v; try contradiction Vp; reflexivity. }
    assert (SW : forall j j' o, bland o -> encode_switch env c (Enc (S j)) (S (S j)) (TIConc ci) v o false = encode_switch env c (Enc (S j')) (S (S j')) (TIConc ci) v no_opts false).
    { intros j j' o O. unfold encode_switch. cbn [ti_type]. rewrite T. pose proof (EL j j' o O) as X. destruct R as [R|[n R]]; rewrite R; (destruct (is_uint8 env e); [reflexivity|]); rewrite Lk; exact X. }
    split; [|split].
    - intros j o b O ->. rewrite ES by exact O. rewrite (ES 0%nat no_opts bland_no). apply SW, O.
    - destruct V as [(l & -> & _)|[[-> _]|(l & -> & _)]]; reflexivity.
    - intros D. rewrite (ES 0%nat no_opts bland_no). unfold encode_switch. cbn [ti_type]. rewrite T.
      assert (El : list_elems v = Some [] /\ resolve env t = RSlice e /\ (v = VSlice None \/ v = VSlice (Some []))).
      { destruct V as [(l & -> & _)|[[-> Rs]|(l & -> & Rs)]]; [discriminate D|auto|]. destruct l; [auto|discriminate D]. }
      destruct El as (El & Rs & Vv). rewrite Rs, Lk. destruct (is_uint8 env e) eqn:U8; [destruct Vv; subst; reflexivity|].
      unfold encode_list. cbn [ti_type]. rewrite T, Rs, U8, Ge. cbn [ebind]. destruct (L3 no_opts bland_no) as (z & -> & Z). cbn [ebind]. rewrite El, Z. reflexivity.
  Qed.

  (** What one side writes in the end. *)
  Definition outcome (num typ3 : Z) (E : eres bytes) : eres bytes := elet key := encode_field_key num typ3 in elet b := E in if beqb b [0] then EOk [] else EOk (key ++ b).
  Lemma enc_ok_more k info v o b z : Enc k info v o b = EOk z -> Enc (S (S k)) info v o b = EOk z.
  Proof. intros H. pose proof (encode_fuel_mono env c k (S (S k)) info v o b ltac:(lia)) as X. unfold ele in X. rewrite H in X. destruct X as [X|X]; [discriminate X|]. congruence. Qed.
  Lemma written_top info v bares E typ3 bare : written info v bares E -> bares bare -> type_to_typ3 env (ti_type info) no_opts = EOk typ3 ->
    forall bz, (exists k, write_field env (Enc k) 1 info no_opts v false bare = EOk bz) <-> outcome 1 typ3 E = EOk bz.
  Proof.
    intros (W & _ & _) B T bz. unfold write_field, outcome. rewrite T. cbn [ebind negb andb]. split.
    - intros [k H]. einv H. einv H. rewrite E0. cbn [ebind]. rewrite <- (W k no_opts bare bland_no B), (enc_ok_more _ _ _ _ _ _ E1). exact H.
    - intros H. exists 2%nat. rewrite (W 0%nat no_opts bare bland_no B). exact H.
  Qed.
  Lemma written_field info v bares E typ3 f : written info v bares E -> bares false -> get_type_info env c (fi_type f) = EOk info -> fi_unpacked f = false -> olike (set_num 1 no_opts) (fi_opts f) ->
    val_is_ptr v = false -> type_to_typ3 env (ti_type info) no_opts = EOk typ3 ->
    (exists key, encode_field_key 1 typ3 = EOk key) ->
    forall bz, (exists k, encode_field env c (Enc k) f v = EOk bz) <-> outcome 1 typ3 E = EOk bz.
  Proof.
    intros (W & D & Z) B G U O P T [key K] bz. pose proof (bland_like _ O) as Bl. pose proof (ol_num _ _ O) as On. pose proof (ol_we _ _ O) as Ow. cbn in On, Ow.
    unfold encode_field. rewrite G, U, Ow. cbn [ebind negb orb]. rewrite D, P, On. unfold outcome. rewrite K. cbn [ebind].
    assert (T' : type_to_typ3 env (ti_type info) (fi_opts f) = EOk typ3) by (rewrite <- T; unfold type_to_typ3; destruct Bl as (-> & -> & _); reflexivity).
    destruct (snd (is_default_value v)) eqn:Ed; cbn [andb].
    - rewrite (Z eq_refl). cbn [ebind]. split; [intros [k H]; exact H|intros H; exists 0%nat; exact H].
    - unfold write_field. rewrite T'. cbn [ebind]. rewrite K. cbn [ebind negb andb]. split.
      + intros [k H]. einv H. rewrite <- (W k (fi_opts f) false Bl B), (enc_ok_more _ _ _ _ _ _ E0). exact H.
      + intros H. exists 2%nat. rewrite (W 0%nat (fi_opts f) false Bl B). exact H.
  Qed.

  (** ** Messages *)
  Lemma key_one typ3 : 0 <= typ3 < 8 -> exists key, encode_field_key 1 typ3 = EOk key.
  Proof. intros H. eexists. apply encode_field_key_ok; lia. Qed.
  (** The message of a value at top level. *)
  Lemma top_flat k t ci v : wf_codec env c -> registered c t = None -> deref_type t = t -> get_type_info env c t = EOk (TIConc ci) -> ci_type ci = t -> val_is_ptr v = false ->
    is_struct_or_repeated_struct env t = false -> marshal_bare k env c t v =
    elet typ3 := type_to_typ3 env t no_opts in write_field env (Enc k) 1 (TIConc ci) no_opts v false (negb (typ3 =? Typ3ByteLength)).
  Proof.
    intros Wc U D G T P S. unfold marshal_bare. assert (deref_pointers v = (v, false)) as -> by (destruct v; try reflexivity; discriminate P). rewrite D, G. cbn [ebind ti_type]. rewrite T, S. cbn [negb].
    pose proof (unregistered env c Hs t _ Wc G D U) as Rg. destruct ci as [ty fs m u r]; cbn in Rg. subst r.
    match goal with |- ebind ?x _ = _ => destruct x; reflexivity end.
  Qed.
  Lemma lone_written t v up f : wf_codec env c -> registered c t = None -> lone env c t = true -> has_type env t v = true ->
    unpacked_list env t (fi_opts f) = EOk up -> fi_unpacked f = up -> fi_type f = t -> olike (set_num 1 no_opts) (fi_opts f) ->
    forall bz, (exists k, marshal_bare k env c t v = EOk bz) <-> (exists k, encode_field env c (Enc k) f v = EOk bz).
  Proof.
    intros Wc U L Ht Up Uf Tf O bz. unfold lone in L. apply andb_prop in L. destruct L as [M L]. apply negb_true_iff in M.
    assert (D : deref_type t = t) by (destruct t; try reflexivity; discriminate L). assert (If : is_iface t = false) by (destruct t; try reflexivity; discriminate L).
    assert (NS : match resolve env t with RStruct _ => False | _ => True end) by (destruct (resolve env t); try exact I; discriminate L).
    destruct (plain_info env c Hs t [] D If M) as (ci & G & Tc & Mc & _). { unfold parse_struct_info. destruct (resolve env t); try reflexivity; contradiction NS. }
    assert (P : val_is_ptr v = false) by (destruct v; try reflexivity; cbn [has_type] in Ht; destruct (resolve env t) as [p| | | | | | | | | |]; try discriminate Ht; try discriminate L; destruct p; discriminate Ht).
    assert (Gf : get_type_info env c (fi_type f) = EOk (TIConc ci)) by (rewrite Tf; exact G).
    assert (Flat : forall bares E typ3, written (TIConc ci) v bares E -> bares false -> bares (negb (typ3 =? Typ3ByteLength)) -> type_to_typ3 env t no_opts = EOk typ3 -> 0 <= typ3 < 8 ->
      up = false -> is_struct_or_repeated_struct env t = false -> (exists k, marshal_bare k env c t v = EOk bz) <-> (exists k, encode_field env c (Enc k) f v = EOk bz)).
    { intros bares E typ3 W B B' T3 R3 -> S. rewrite (written_field _ _ _ _ typ3 f W B Gf Uf O P) by (cbn [ti_type]; try rewrite Tc; try assumption; apply key_one, R3).
      rewrite <- (written_top _ _ _ _ typ3 (negb (typ3 =? Typ3ByteLength)) W B') by (cbn [ti_type]; rewrite Tc; exact T3).
      split; intros [k H]; exists k; rewrite (top_flat k t ci v Wc U D G Tc P S), T3 in *; exact H. }
    assert (ListCase : forall e, (resolve env t = RSlice e \/ exists n, resolve env t = RArray n e) ->
      match resolve env e with RPrim PString => false | RPrim _ => negb (has_method env e) | RStruct _ | RTime => known env c e | _ => false end = true ->
      (exists k, marshal_bare k env c t v = EOk bz) <-> (exists k, encode_field env c (Enc k) f v = EOk bz)).
    { clear L NS. intros e R L.
      assert (De : deref_type e = e) by (destruct e; try reflexivity; discriminate L).
      assert (UL : (if is_uint8 env e then EOk false else elet typ3 := type_to_typ3 env e (fi_opts f) in EOk (typ3 =? Typ3ByteLength)) = EOk up)
        by (rewrite <- Up; unfold unpacked_list; destruct R as [R|[n R]]; rewrite R, De; reflexivity).
      assert (Lists : match resolve env e with RPrim PString => False | RPrim _ => True | _ => False end -> (exists k, marshal_bare k env c t v = EOk bz) <-> (exists k, encode_field env c (Enc k) f v = EOk bz)).
      { intros Re. assert (Me : has_method env e = false) by (apply negb_true_iff; destruct (resolve env e) as [q| | | | | | | | | |]; try contradiction Re; destruct q; try contradiction Re; exact L).
        apply (Flat (fun b => b = false) (Enc 2 (TIConc ci) v no_opts false) Typ3ByteLength); try reflexivity.
        - apply (list_written t e ci v); assumption.
        - unfold type_to_typ3. destruct R as [R|[n R]]; rewrite R; reflexivity.
        - unfold Typ3ByteLength. lia.
        - unfold is_uint8, type_to_typ3 in UL. destruct (bland_like _ O) as (A & B & _). rewrite A, B in UL.
          destruct (resolve env e) as [q| | | | | | | | | |]; try contradiction Re. destruct q; try contradiction Re; cbn in UL; injection UL as <-; reflexivity.
        - unfold is_struct_or_repeated_struct, is_struct. destruct R as [R|[n R]]; rewrite R; destruct (resolve env e); try contradiction Re; reflexivity. }
      assert (Structs : is_struct env e = true -> (exists k, marshal_bare k env c t v = EOk bz) <-> (exists k, encode_field env c (Enc k) f v = EOk bz)).
      { intros Se. assert (Ke : known env c e = true) by (unfold is_struct in Se; destruct (resolve env e); try discriminate Se; exact L).
        assert (U8 : is_uint8 env e = false) by (unfold is_struct in Se; unfold is_uint8; destruct (resolve env e); try discriminate Se; reflexivity).
        assert (Lk : is_list_kind env e = false) by (unfold is_struct in Se; unfold is_list_kind; destruct (resolve env e); try discriminate Se; reflexivity).
        assert (T3 : forall o, type_to_typ3 env e o = EOk Typ3ByteLength) by (intros o; unfold is_struct in Se; unfold type_to_typ3; destruct (resolve env e); try discriminate Se; reflexivity).
        rewrite U8, T3 in UL. cbn in UL. injection UL as <-. assert (Sr : is_struct_or_repeated_struct env t = true) by (unfold is_struct_or_repeated_struct; destruct R as [R|[n R]]; rewrite R; exact Se).
        assert (V : match v with VArr _ | VSlice _ => True | _ => False end)
          by (destruct R as [R|[n R]]; destruct v as [| | | | | | |[]| | | | | | |]; cbn [has_type] in Ht; rewrite R in Ht; try discriminate Ht; exact I).
        assert (Top : forall k, marshal_bare (S k) env c t v = encode_list env c (Enc k) (TIConc ci) v (set_num 1 no_opts) true).
        { intros k. rewrite (marshal_plain env c Hs k t v Wc D U M Sr) by (destruct v; try contradiction V; exact I). rewrite G. cbn [ebind]. unfold encode_switch. cbn [ti_type]. rewrite Tc.
          destruct R as [R|[n R]]; rewrite R, U8, Lk; reflexivity. }
        assert (Fd : forall k, encode_field env c (Enc k) f v = encode_list env c (Enc k) (TIConc ci) v (set_num 1 no_opts) true).
        { intros k. unfold encode_field. rewrite Gf, Uf, (ol_we _ _ O). cbn [ebind set_num no_opts fo_write_empty negb]. rewrite <- (list_names k (TIConc ci) v _ _ true O).
          assert (is_default_value v = (v, match list_elems v, v with Some [], VSlice _ => true | _, _ => false end)) as -> by (destruct v as [| | | | | |[]|[[]|]| | | | | | |]; try contradiction V; reflexivity).
          destruct (match list_elems v, v with Some [], VSlice _ => true | _, _ => false end) eqn:Ed; cbn [andb]; [|reflexivity].
          assert (El : list_elems v = Some []) by (destruct (list_elems v) as [[|]|]; try discriminate Ed; reflexivity).
          unfold known in Ke. destruct (get_type_info env c e) as [ie| | |] eqn:Ge; try discriminate Ke.
          pose proof (minfo_type _ _ _ _ (gti_minfo _ _ _ _ Hs Ge)) as Te. rewrite De in Te.
          unfold encode_list. cbn [ti_type]. rewrite Tc. destruct R as [R|[n R]]; rewrite R, U8, Ge; cbn [ebind]; rewrite Te, T3; cbn [ebind]; rewrite El; reflexivity. }
        split; intros [k H].
        - destruct k as [|k]; [|exists k; rewrite Fd, <- Top; exact H]. exfalso. unfold marshal_bare in H. assert (deref_pointers v = (v, false)) as Dv by (destruct v; try reflexivity; contradiction V).
          rewrite Dv, D, G in H. cbn [ebind ti_type] in H. rewrite Tc, Sr in H. discriminate H.
        - exists (S k). rewrite Top, <- Fd. exact H. }
      unfold is_struct in Structs. destruct (resolve env e) as [q| | | | | | | | |fe|]; try discriminate L; [|apply Structs; reflexivity|apply Structs; reflexivity].
      apply Lists. destruct q; try exact I; discriminate L. }
    destruct (resolve env t) as [p| |n e|e| | | | | | |] eqn:R; try discriminate L; [|apply (ListCase e); eauto|apply (ListCase e); eauto].
    clear ListCase. unfold unpacked_list in Up. rewrite R in Up. injection Up as <-.
    destruct (type_to_typ3 env t no_opts) as [typ3| | |] eqn:T3; try (unfold type_to_typ3 in T3; rewrite R in T3; destruct p; discriminate T3).
    apply (Flat (fun _ => True) (encode_prim p v no_opts) typ3); auto.
    - apply (prim_written t p ci v); assumption.
    - unfold type_to_typ3 in T3. rewrite R in T3. destruct p; cbn in T3; injection T3 as <-; unfold Typ3Varint, Typ38Byte, Typ3ByteLength, Typ3_4Byte; lia.
    - unfold is_struct_or_repeated_struct. rewrite R. reflexivity.
  Qed.
  Theorem lone_struct t t' v fs l : wf_codec env c -> registered c t = None -> registered c t' = None -> lone env c t = true -> has_type env t v = true ->
    resolve env t' = RStruct fs -> has_method env t' = false -> holds_only t v fs l ->
    forall bz, (exists k, marshal_bare k env c t v = EOk bz) <-> (exists k, marshal_bare k env c t' (VStruct l) = EOk bz).
  Proof.
    intros Wc U U' L Ht R M H bz. assert (D : deref_type t' = t') by (destruct t'; try reflexivity; discriminate R). assert (If : is_iface t' = false) by (destruct t'; try reflexivity; discriminate R).
    assert (Hb : is_struct_or_repeated_struct env t' = true) by (unfold is_struct_or_repeated_struct; rewrite R; reflexivity).
    assert (Top : forall k, marshal_bare (S k) env c t' (VStruct l) = elet info := get_type_info env c t' in encode_switch env c (Enc k) (S k) info (VStruct l) (set_num 1 no_opts) true)
      by (intros k; apply (marshal_plain env c Hs k t'); try assumption; exact I).
    assert (Zero : marshal_bare 0 env c t' (VStruct l) <> EOk bz).
    { intros X. unfold marshal_bare in X. cbn [deref_pointers] in X. einv X. rewrite D in E. rewrite (minfo_type _ _ _ _ (gti_minfo _ _ _ _ Hs E)), D, Hb in X. discriminate X. }
    destruct (parse_lone t v fs l H) as (i & o & Nl & O & [(up & nm & Up & _ & P)|[Bad P]]).
    - destruct (plain_info env c Hs t' [{| fi_name := nm; fi_index := i; fi_type := t; fi_unpacked := up; fi_opts := o |}] D If M) as (ci & G & Tc & Mc & Fc); [unfold parse_struct_info; rewrite R; exact P|].
      rewrite (lone_written t v up {| fi_name := nm; fi_index := i; fi_type := t; fi_unpacked := up; fi_opts := o |} Wc U L Ht Up eq_refl eq_refl O bz).
      assert (Eq : forall k, marshal_bare (S k) env c t' (VStruct l) = encode_field env c (Enc k) {| fi_name := nm; fi_index := i; fi_type := t; fi_unpacked := up; fi_opts := o |} v).
      { intros k. rewrite Top, G. cbn [ebind]. unfold encode_switch. cbn [ti_type]. rewrite Tc, R. unfold encode_struct. rewrite Tc, R, Fc. cbn [encode_fields fi_index finish].
        rewrite (nth_error_nth _ _ _ Nl). destruct (encode_field _ _ _ _ _); cbn [ebind]; try reflexivity. rewrite app_nil_r. reflexivity. }
      split; intros [k X].
      + exists (S k). rewrite Eq. exact X.
      + destruct k as [|k]; [contradiction|]. exists k. rewrite <- Eq. exact X.
    - split; intros [k X]; exfalso.
      + unfold lone in L. apply andb_prop in L. destruct L as [Mt L]. apply negb_true_iff in Mt. destruct (bland_like _ O) as (A & B & Un).
        destruct (resolve env t) as [p| |n e|e| | | | | | |] eqn:Rt; try discriminate L.
        * assert (Pf : p = PFloat32 \/ p = PFloat64).
          { destruct Bad as [Bad|Bad]; [unfold unpacked_list in Bad; rewrite Rt in Bad; destruct (Bad false); reflexivity|]. unfold check_unsafe in Bad. rewrite Un, Rt in Bad. destruct p; auto; destruct Bad; reflexivity. }
          assert (Dt : deref_type t = t) by (destruct t; try reflexivity; discriminate Rt). assert (It : is_iface t = false) by (destruct t; try reflexivity; discriminate Rt).
          destruct (plain_info env c Hs t [] Dt It Mt) as (ci & G & Tc & Mc & _). { unfold parse_struct_info. rewrite Rt. reflexivity. }
          assert (Pv : exists b, v = VFloat b) by (destruct v; cbn [has_type] in Ht; rewrite Rt in Ht; destruct Pf; subst p; try discriminate Ht; eauto). destruct Pv as [b ->].
          rewrite (top_flat k t ci (VFloat b) Wc U Dt G Tc eq_refl) in X by (unfold is_struct_or_repeated_struct; rewrite Rt; reflexivity). einv X. unfold write_field in X. einv X. einv X. einv X.
          destruct (prim_written t p ci (VFloat b) Rt Tc Mc Ht) as (W & _). apply enc_ok_more in E2. rewrite W in E2 by (try exact I; exact bland_no). destruct Pf; subst p; discriminate E2.
        * destruct Bad as [Bad|Bad]; [|apply Bad; unfold check_unsafe; rewrite Un, Rt; reflexivity]. unfold unpacked_list in Bad. rewrite Rt in Bad.
          assert (De : deref_type e = e) by (destruct e; try reflexivity; discriminate L). rewrite De in Bad. unfold is_uint8, type_to_typ3 in Bad. rewrite A, B in Bad.
          destruct (resolve env e) as [q| | | | | | | | | |]; try discriminate L; try (eapply Bad; reflexivity). destruct q; try discriminate L; eapply Bad; reflexivity.
        * destruct Bad as [Bad|Bad]; [|apply Bad; unfold check_unsafe; rewrite Un, Rt; reflexivity]. unfold unpacked_list in Bad. rewrite Rt in Bad.
          assert (De : deref_type e = e) by (destruct e; try reflexivity; discriminate L). rewrite De in Bad. unfold is_uint8, type_to_typ3 in Bad. rewrite A, B in Bad.
          destruct (resolve env e) as [q| | | | | | | | | |]; try discriminate L; try (eapply Bad; reflexivity). destruct q; try discriminate L; eapply Bad; reflexivity.
      + destruct k as [|k]; [contradiction|]. rewrite Top in X. einv X. pose proof (gti_minfo _ _ _ _ Hs E) as Hi. unfold encode_switch in X. rewrite (minfo_type _ _ _ _ Hi), D, R in X.
        destruct a as [ci|ii]; [|discriminate X]. destruct Hi as [Hct Hok]. destruct (info_ok_parts _ _ Hok) as (_ & Hp & _). rewrite Hct, D in Hp. unfold parse_struct_info in Hp. rewrite R in Hp.
        exact (P _ Hp).
  Qed.
End Lone.
