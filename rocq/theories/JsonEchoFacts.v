(** Facts: whatever UnmarshalJSON reads, MarshalJSON can write. *)
From Coq Require Import ZArith String List Bool Lia.
From Coq Require Import ZifyBool ZifyNat.
From Verif Require Import Base Prims SpecWire PrimFacts PrimProps Types Codec BinEnc BinDec Amino FuelFacts DecFacts DecProps
  ValueInd Typing Registry SpecRegistry RegistryFacts Sane DecSafe SpecNorm EncFacts RoundTrip TopFacts SpecSupported SupportedFacts SpecWritable WritableFacts SpecEcho EchoFacts
  JsonText Json SpecJson JsonTextFacts JsonFacts JsonProps SpecJsonSafe JsonSafe SpecMembers MembersFacts SpecJsonWritable JsonWritableFacts SpecJsonEcho.
Import ListNotations.
Local Open Scope Z_scope.
Local Open Scope amino_scope.

Definition wise {A} (Q : A -> Prop) (r : eres A) : Prop := match r with EOk a => Q a | _ => True end.
Lemma wise_bind {A B} (Q : A -> Prop) (Q' : B -> Prop) r f : wise Q r -> (forall a, Q a -> wise Q' (f a)) -> wise Q' (ebind r f).
Proof. destruct r; cbn; auto. Qed.
Lemma returns_wise {A} (Q : A -> Prop) r : returns Q r -> wise Q r.
Proof. destruct r; cbn; auto. Qed.
Lemma given_noerr {A} (r : eres A) : given r = true -> noerr r.
Proof. destruct r; cbn; auto; discriminate. Qed.

Section JE.
  Variable env : tenv.
  Variable je : jenv.
  Variable c : codec.
  Hypothesis We : wf_env env.
  Hypothesis Wc : wf_codec env c.
  Hypothesis Hs : sane_codec env c.
  Hypothesis Hm : marshal_typed env.
  Variables mem cm : gotype -> bool.
  Variable rank : gotype -> nat.
  Hypothesis Hst : jsturdy env je mem rank.
  Hypothesis Hec : jechoes env je c mem cm.
  Notation jsn := (jsendable je c mem).
  Notation tgt := (jtarget env je c mem).
  Notation E k := (encode_json k env je c).

  Lemma jsn_under v : forall w, under v = Some w -> jsn v = true -> jsn w = true.
  Proof. clear. induction v using value_ind'; intros w; cbn [under]; try (intros X; inversion X; subst; auto); try discriminate. Qed.
  Lemma jsn_wrap t : forall v, jsn v = true -> jsn (wrap_ptrs t v) = true.
  Proof. clear. induction t; intros v H; cbn [wrap_ptrs]; auto. cbn. auto. Qed.
  Lemma jsn_zero t : jsn (zero env t) = true.
  Proof.
    apply (zero_ind env (fun t v => jsn v = true) We); try reflexivity.
    - destruct p; try reflexivity; apply Hec.
    - apply Hec.
    - intros n e H. cbn [jsendable]. apply forallb_forall. intros x Hx. pose proof (repeat_spec _ _ _ Hx) as ->. apply H; [reflexivity|]. destruct n; [destruct Hx|lia].
    - intros id fs Hd H. cbn [jsendable]. apply forallb_forall. intros x Hx. apply in_map_iff in Hx. destruct Hx as (f & <- & Hf). apply H. exact Hf.
    - intros id t' Hd _ H. exact H.
  Qed.
  Lemma tgt_zero t : tgt t (zero env t).
  Proof. split; [apply has_type_zero, We|apply jsn_zero]. Qed.
  Lemma tgt_under t v w : tgt t v -> under v = Some w -> tgt (deref_type t) w.
  Proof. intros [H1 H2] U. split; [eapply under_typed; eassumption|eapply jsn_under; eassumption]. Qed.
  Lemma tgt_wrap t v : tgt (deref_type t) v -> tgt t (wrap_ptrs t v).
  Proof. intros [H1 H2]. split; [apply has_type_wrap, H1|apply jsn_wrap, H2]. Qed.
  Lemma tgt_base t : forall v, tgt t v -> tgt (deref_type t) (base_of env t v).
  Proof.
    intros v [H1 H2]. split; [apply has_type_base; assumption|]. clear H1. revert v H2. induction t; intros v H2; cbn [base_of]; try exact H2.
    apply IHt. destruct v as [| | | | | | | |[w|]| | | | | |]; try apply jsn_zero. exact H2.
  Qed.
  Lemma jsn_firm v : jsn v = true -> jfirm mem v = true.
  Proof.
    induction v using value_ind'; intros U; try reflexivity; cbn [jsendable jfirm] in *.
    all: try (rewrite forallb_forall in *; rewrite Forall_forall in *; auto; fail).
    - apply IHv, U.
    - rewrite !andb_true_iff in U. destruct U as [[[H1 H2] H3] H4]. rewrite H1, H3, (IHv H4), (registered_noniface env c Hs _ H2). reflexivity.
    - rewrite forallb_forall in *. rewrite Forall_forall in *. intros p Hp. apply (H p Hp), U, Hp.
  Qed.
  Lemma jmem_known t : mem (deref_type t) = true -> exists info, get_type_info env c t = EOk info.
  Proof.
    intros H. destruct (proj2 (proj2 Hec) _ H) as [K _]. unfold known in K. rewrite gti_deref in K. destruct (get_type_info env c t); try discriminate. eexists; reflexivity.
  Qed.

  (** ** Writing *)
  Definition jopen (o : fopts) (t : gotype) : Prop := fo_unsafe o = true \/ cm t = true.
  Lemma jopen_part o t e : jopen o t -> jecho_part mem cm t e -> jopen o (deref_type e).
  Proof. intros [H|H] [_ P]; [left; exact H|right; auto]. Qed.
  Definition jne (rec : tinfo -> value -> bool -> fopts -> eres bytes) : Prop := forall info t v ad o, minfo env c info t -> mem (deref_type t) = true ->
    tgt t v -> jopen o (deref_type t) -> noerr (rec info v ad o).

  Section Step.
    Variable rec : tinfo -> value -> bool -> fopts -> eres bytes.
    Hypothesis IH : jne rec.
    Lemma jelems_ne e einfo ad o : minfo env c einfo e -> mem (deref_type e) = true -> jopen o (deref_type e) ->
      forall l, forallb (has_type env e) l = true -> forallb jsn l = true -> noerr (json_elems rec einfo l ad o).
    Proof.
      intros Hi Hmem Ho. induction l as [|v l IHl]; intros Ht Hv; [exact I|]. cbn [forallb json_elems] in *. apply andb_true_iff in Ht, Hv. destruct Ht as [Ht1 Ht2], Hv as [Hv1 Hv2].
      apply noerr_bind; [eapply IH; try eassumption; split; assumption|]. intros b _. apply noerr_bind; [apply IHl; assumption|intros; exact I].
    Qed.
    Lemma jlist_ne t e v ad o : jopen o t -> (is_uint8 env e = true \/ jecho_part mem cm t e) ->
      match v with VSlice None => True | VSlice (Some l) | VArr l => forallb (has_type env e) l = true /\ forallb jsn l = true | _ => False end ->
      noerr (json_list env c rec e v ad o).
    Proof.
      intros Ho Hp Hv.
      assert (G : forall l ad', forallb (has_type env e) l = true /\ forallb jsn l = true -> noerr (
          if is_uint8 env e then
            if ad || gotype_eqb e (TPrim PUint8) then EOk (34 :: b64_encode (val_bytes l) ++ [34])
            else EPanic "reflect.Copy: elem type mismatch"%string
          else
            elet einfo := get_type_info env c e in
            elet bs := json_elems rec einfo l ad' o in
            EOk (91 :: join bs ++ [93]))).
      { intros l ad' [H1 H2]. destruct (is_uint8 env e); [destruct (_ || _); exact I|]. destruct Hp as [X|Hp]; [discriminate|]. destruct (jmem_known e (proj1 Hp)) as [einfo Eg]. rewrite Eg. cbn [ebind].
        apply noerr_bind; [|intros; exact I]. eapply jelems_ne; try eassumption; [exact (gti_minfo _ _ _ _ Hs Eg)|apply Hp|eapply jopen_part; eassumption]. }
      unfold json_list. destruct v as [| | | | | |l|[l|]| | | | | | |]; try contradiction; try exact I; apply G, Hv.
    Qed.
    Lemma jfields_ne l ad : forall fis, (forall f, In f fis -> mem (deref_type (fi_type f)) = true /\ jopen (fi_opts f) (deref_type (fi_type f)) /\ tgt (fi_type f) (nth (fi_index f) l VInvalid)) ->
      noerr (json_fields env c rec fis l ad).
    Proof.
      induction fis as [|f fis IHf]; intros H; [exact I|]. cbn [json_fields]. destruct (H f (or_introl eq_refl)) as (H1 & H2 & H3). destruct (jmem_known _ H1) as [info Eg]. rewrite Eg. cbn [ebind].
      assert (R : noerr (json_fields env c rec fis l ad)) by (apply IHf; intros g Hg; apply H; right; exact Hg).
      destruct (_ && _); [exact R|]. apply noerr_bind; [eapply IH; try eassumption; exact (gti_minfo _ _ _ _ Hs Eg)|]. intros b _. apply noerr_bind; [exact R|intros; exact I].
    Qed.
    Lemma jmembers_ne vt o : mem (deref_type vt) = true -> jopen o (deref_type vt) -> forall l,
      forallb (fun p => has_type env vt (snd p)) l = true -> forallb (fun p => jsn (snd p)) l = true -> noerr (json_members env c rec vt l o).
    Proof.
      intros Hmem Ho. induction l as [|[x v] l IHl]; intros Ht Hv; [exact I|]. cbn [forallb json_members snd] in *. apply andb_true_iff in Ht, Hv. destruct Ht as [Ht1 Ht2], Hv as [Hv1 Hv2].
      destruct x; try exact I. apply noerr_bind; [|intros b _; apply noerr_bind; [apply IHl; assumption|intros; exact I]].
      rewrite deref_pointers_under. destruct (under v) as [w|] eqn:U; [|exact I]. destruct (jmem_known vt Hmem) as [info Eg]. rewrite gti_deref, Eg. cbn [ebind].
      apply (IH info (deref_type vt)); rewrite ?deref_idem; try assumption; [apply minfo_deref; exact (gti_minfo _ _ _ _ Hs Eg)|]. eapply tgt_under; [split; eassumption|exact U].
    Qed.
    Lemma struct_fields t fs ci l : resolve env t = RStruct fs -> ci_type ci = t -> info_ok env ci -> forallb (jecho_field mem cm) fs = true ->
      forall2b (fun f w => has_type env (sf_type f) w) fs l = true -> forallb jsn l = true ->
      forall f, In f (ci_fields ci) -> mem (deref_type (fi_type f)) = true /\ jopen (fi_opts f) (deref_type (fi_type f)) /\ tgt (fi_type f) (nth (fi_index f) l VInvalid).
    Proof.
      intros Er Ety Hi Hf Ht Hv f Hin. destruct (info_ok_parts _ _ Hi) as (_ & Hp & _). unfold parse_struct_info in Hp. rewrite Ety, Er in Hp.
      destruct (parse_fields_nth _ _ _ _ _ _ Hp Hin) as (sf & o & _ & H2 & H3 & H4 & _ & H6 & _ & H8). rewrite Nat.sub_0_r in H2.
      assert (Hsf : jecho_field mem cm sf = true) by (rewrite forallb_forall in Hf; apply Hf; eapply nth_error_In; eassumption).
      unfold jecho_field, json_opts in Hsf. rewrite H3, H4 in Hsf. rewrite andb_true_iff, orb_true_iff in Hsf. rewrite H6. split; [apply Hsf|]. split.
      - rewrite H8. apply Hsf.
      - split; [exact (forall2b_nth _ _ _ _ _ VInvalid Ht H2)|]. rewrite forallb_forall in Hv. apply Hv, nth_In. rewrite <- (forall2b_length _ _ _ Ht). apply nth_error_Some. congruence.
    Qed.
    Lemma jswitch_ne info t w ad o : minfo env c info t -> deref_type t = t -> t <> TTime -> mem t = true -> jecho_plain env c mem cm t -> tgt t w -> jopen o t ->
      noerr (json_switch env je c rec info w ad o).
    Proof.
      intros Hi Hd Nt Hmem Hep Hg Ho. unfold json_switch. pose proof (minfo_type _ _ _ _ Hi) as Ety. rewrite Hd in Ety. rewrite Ety. unfold jecho_plain in Hep. destruct Hg as [Ht Hv].
      destruct (resolve env t) as [p| |n e|e|e|kt vt| | |i|fs|] eqn:Er; try exact I.
      - rewrite (has_type_prim env t p w Er) in Ht. destruct p, w; try discriminate Ht; try exact I; cbn [json_prim]; destruct Ho as [Ho|Ho]; try congruence; rewrite Ho;
          cbn [jsendable] in Hv; apply andb_true_iff in Hv; apply given_noerr, Hv.
      - exfalso. apply (resolve_time _ _ We) in Er. contradiction.
      - apply (jlist_ne t); try assumption. destruct w; cbn [has_type] in Ht; rewrite Er in Ht; try discriminate Ht. apply andb_true_iff in Ht. split; [apply Ht|exact Hv].
      - apply (jlist_ne t); try assumption. destruct w as [| | | | | | |[l|]| | | | | | |]; cbn [has_type] in Ht; rewrite Er in Ht; try discriminate Ht; [|exact I]. split; assumption.
      - unfold json_map. destruct Hep as [Hk Hp]. rewrite Hk. destruct w as [| | | | | | | | | | |[l|]| | |]; cbn [has_type] in Ht; rewrite Er in Ht; try discriminate Ht; try exact I.
        apply noerr_bind; [|intros; exact I]. apply jmembers_ne; [apply Hp|eapply jopen_part; eassumption| |exact Hv].
        rewrite forallb_forall in *. intros p Hin. specialize (Ht p Hin). apply andb_true_iff in Ht. apply Ht.
      - pose proof (resolve_iface _ _ _ We Er) as Et. destruct w as [| | | | | | | | | |[[ct cv]|]| | | |]; cbn [has_type] in Ht; rewrite Er in Ht; try discriminate Ht; [|exact I].
        cbn [jsendable] in Hv. rewrite !andb_true_iff in Hv. destruct Hv as [[[H1 H2] H3] H4]. apply andb_true_iff in Ht. destruct Ht as [Hi1 Hi2].
        unfold json_interface. rewrite deref_pointers_under. destruct (under cv) as [x|] eqn:U; [|exact I].
        assert (Hw : tgt (deref_type ct) x) by (eapply tgt_under; [split; [|exact H4]|exact U]; destruct ct; try exact Hi2; discriminate).
        pose proof (Hep ct Hi1 H2) as Hpt.
        assert (G : noerr (elet info := get_type_info env c (deref_type ct) in
                match info with
                | TIConc ci =>
                    match ci_reg ci with
                    | None => EErr "cannot encode unregistered concrete type"%string
                    | Some r => elet b := rec info x (val_is_ptr cv) o in EOk (wrap_name (ri_name r) b)
                    end
                | TIFace _ => EErr "cannot encode unregistered concrete type"%string
                end)).
        { pose proof (registered_iff env c Wc Hs (deref_type ct)) as R. rewrite deref_idem in R. unfold is_registered in H2. destruct (registered c (deref_type ct)) as [rg|]; [|discriminate].
          pose proof (proj2 R ltac:(discriminate)) as R'. clear R. destruct (get_type_info env c (deref_type ct)) as [[ci|ii']| | |] eqn:Eg; try contradiction. cbn [ebind].
          destruct (ci_reg ci) as [r|]; [|congruence]. apply noerr_bind; [|intros; exact I]. apply (IH (TIConc ci) (deref_type ct)); rewrite ?deref_idem; try assumption; [exact (gti_minfo _ _ _ _ Hs Eg)|].
          eapply jopen_part; eassumption. }
        destruct x; try exact G; exact I.
      - destruct info as [ci|ii]; [|exact I]. unfold json_struct. destruct w as [| | | | | | | | |l| | | | |]; try exact I. cbn [has_type] in Ht. rewrite Er in Ht.
        destruct Hi as [Hty Hio]. rewrite Hd in Hty. apply noerr_bind; [|intros; exact I]. apply jfields_ne. exact (struct_fields t fs ci l Er Hty Hio Hep Ht Hv).
    Qed.
  End Step.

  Theorem encode_json_ne : forall k, jne (E k).
  Proof.
    induction k as [|k IH]; intros info t v ad o Hi Hmem Hg Ho; [exact I|].
    destruct (under v) as [w|] eqn:U; [|rewrite enc_nil by exact U; exact I].
    rewrite (enc_step env je c k info v w ad o (typed_valid env _ _ (proj1 Hg)) U). pose proof (tgt_under _ _ _ Hg U) as Hw.
    set (ad' := ad || val_is_ptr v). clearbody ad'. clear U Hg v ad. pose proof (minfo_deref _ _ _ _ Hi) as Hi'. clear Hi. rename Hi' into Hi. pose proof (deref_idem t) as Hd. revert Hi Hmem Hw Ho Hd. generalize (deref_type t). clear t.
    intros t Hi Hmem Hw Ho Hd. destruct (proj2 (proj2 Hec) t Hmem) as [_ Ok]. unfold enc_base. rewrite (minfo_type _ _ _ _ Hi), Hd.
    assert (Q : match t with TNamed id => te_marshal env id = None | TTime => False | _ => True end -> jecho_plain env c mem cm t -> noerr
      match info with
      | TIConc {| ci_type := t'; ci_marshal := Some r |} => elet rv := to_repr env t' w in elet rinfo := get_type_info env c r in E k rinfo rv false o
      | _ => json_switch env je c (E k) info w ad' o
      end).
    { intros N Hep. assert (S : noerr (json_switch env je c (E k) info w ad' o)) by (apply (jswitch_ne (E k) IH info t); try assumption; intros ->; exact N).
      destruct info as [ci|ii]; [|exact S]. destruct Hi as [Hty Hio]. rewrite Hd in Hty. pose proof (minfo_method _ _ _ Hty Hio) as M. destruct ci as [ct cf cmm cu cr]. cbn [ci_type ci_marshal] in *.
      destruct cmm as [r|]; [|exact S]. destruct M as (id & f & -> & Em & _). congruence. }
    unfold marshal_override. destruct t as [p| |an ae|se|pe|mk me| | |ifc|id] eqn:D; try (destruct w; apply Q; [exact I|exact Ok|exact I|exact Ok]); try (apply Q; [exact I|exact Ok]).
    - destruct w; destruct Hw as [Hw1 Hw2]; cbn [has_type resolve] in Hw1; try discriminate Hw1. apply given_noerr. exact Hw2.
    - destruct Ok as (Oj & Or & _).
      assert (R : match te_marshal env id with
           | Some (MOk r f) => (cm (TNamed id) = true -> cm r = true) /\ forall v, tgt (TNamed id) v -> exists w, f v = EOk w /\ jsn w = true
           | _ => jecho_plain env c mem cm (TNamed id) end -> match je_marshal je id with Some (true, _) => False | _ => True end -> noerr
      match info with
      | TIConc {| ci_type := t'; ci_marshal := Some r |} => elet rv := to_repr env t' w in elet rinfo := get_type_info env c r in E k rinfo rv false o
      | _ => json_switch env je c (E k) info w ad' o
      end).
      { clear Or. intros Or NJ. destruct (te_marshal env id) as [[m|r f]|] eqn:Em; [| |apply Q; [reflexivity|exact Or]].
        - exfalso. destruct info as [ci|ii]; [|destruct Hi as [_ Hi]; discriminate Hi]. destruct Hi as [Hty Hio]. pose proof (minfo_method _ _ _ Hty Hio) as M.
          destruct (ci_marshal ci) as [r|]; [destruct M as (id' & f & E1 & E2 & _); injection E1 as <-; congruence|rewrite (M id eq_refl) in Em; discriminate].
        - destruct info as [ci|ii]; [|destruct Hi as [_ Hi]; discriminate Hi]. destruct Hi as [Hty Hio]. pose proof (minfo_method _ _ _ Hty Hio) as M. destruct ci as [ct cf cmm cu cr]. cbn [ci_type ci_marshal deref_type] in *.
          destruct cmm as [r'|]; [|rewrite (M id eq_refl) in Em; discriminate]. destruct M as (id' & f' & E1 & E2 & Er). injection E1 as <-. rewrite Em in E2. injection E2 as <- <-.
          destruct Or as [Hcr Hf]. destruct (Hf w Hw) as (y & Ey & Hy). subst ct. unfold to_repr. rewrite Em, Ey. cbn [ebind].
          assert (Hmr : mem (deref_type r) = true).
          { rewrite Er. destruct (proj2 Hst _ Hmem) as (_ & _ & _ & S). rewrite Em in S. destruct (je_marshal je id) as [[[|] ?]|]; [contradiction|apply S|apply S]. }
          destruct (jmem_known r Hmr) as [rinfo Eg]. rewrite Eg. cbn [ebind]. apply (IH rinfo r); try assumption; [exact (gti_minfo _ _ _ _ Hs Eg)|split; [|exact Hy]|].
          + eapply Hm; [exact Em|apply Hw|exact Ey].
          + rewrite Er. destruct Ho as [Ho|Ho]; [left; exact Ho|right; auto]. }
      destruct (je_marshal je id) as [[bv f]|] eqn:Ej.
      + destruct (bv || ad') eqn:Eb; [destruct w; apply given_noerr, Oj; exact Hw|]. destruct bv; [discriminate|]. destruct w; (apply R; [destruct (te_marshal env id) as [[|]|]; exact Or|exact I]).
      + destruct w; (apply R; [destruct (te_marshal env id) as [[|]|]; exact Or|exact I]).
  Qed.
  Theorem marshal_json_good t v : mem (deref_type t) = true -> cm (deref_type t) = true -> tgt t v -> exists k bz, forall k', (k <= k')%nat -> marshal_json k' env je c t v = EOk bz.
  Proof.
    intros Hmem Hc Hg. destruct (jmarshal_fin env je c We Hs Hm mem rank Hst t v Hmem (proj1 Hg) (jsn_firm _ (proj2 Hg))) as [k Hk].
    assert (N : noerr (marshal_json k env je c t v)).
    { unfold marshal_json. destruct (jmem_known t Hmem) as [info Eg]. rewrite Eg. cbn [ebind]. apply noerr_bind; [|intros; destruct info as [[? ? ? ? [|]]|]; exact I].
      apply (encode_json_ne k info t); try assumption; [exact (gti_minfo _ _ _ _ Hs Eg)|right; exact Hc]. }
    destruct (marshal_json k env je c t v) as [bz| | |] eqn:Em; try discriminate Hk; [|contradiction].
    exists k, bz. intros k' Hk'. destruct (ele_marshal env je c k k' t v Hk') as [X|X]; [congruence|rewrite <- X; exact Em].
  Qed.

  (** ** Reading *)
  Section Dec.
    Variable rec : bytes -> tinfo -> gotype -> value -> fopts -> eres value.
    Hypothesis Hrec : forall b i t v o, bytes_ok b -> fo_unsafe o = false -> mem (deref_type t) = true -> minfo env c i t -> tgt t v -> wise (tgt t) (rec b i t v o).

    Lemma jprim_reads t p bz o : bytes_ok bz -> fo_unsafe o = false -> resolve env t = RPrim p -> wise (tgt t) (unjson_prim je p bz o).
    Proof.
      intros B Ho Er.
      assert (W : forall v, prim_has p v = true -> match v with VFloat _ => False | _ => True end -> tgt t v).
      { intros v H1 H2. split; [rewrite (has_type_prim _ _ _ _ Er); exact H1|]. destruct p, v; try discriminate H1; try contradiction; reflexivity. }
      assert (Top : forall b f, (forall j, parts_of b j -> wise (tgt t) (f j)) -> wise (tgt t) (with_top b f)).
      { intros b f H. unfold with_top. destruct (json_top b) as [j|] eqn:Ej; [|exact I]. apply H, top_parts, Ej. }
      assert (Quo : forall f, (forall b, wise (tgt t) (f b)) -> wise (tgt t)
        (match bz with
         | [] => EPanic "index out of range"%string
         | b :: _ =>
             if negb (b =? 34) || negb (last bz 0 =? 34) then EErr "Amino:JSON int/int64/uint/uint64 expects quoted values"%string
             else if (length bz <? 2)%nat then EPanic "slice bounds out of range"%string
             else f (removelast (tl bz))
         end)).
      { intros f Hf. destruct bz as [|b r]; [exact I|]. destruct (negb (b =? 34) || _); [exact I|]. destruct (length (b :: r) <? 2)%nat; [exact I|apply Hf]. }
      unfold unjson_prim. destruct p; cbv zeta; try (rewrite Ho; exact I);
        try (refine (Quo (fun b => with_top b _) _); intros b); apply Top; intros [| |n|s| |] Hj; cbn; try exact I; try (apply W; [reflexivity|exact I]);
        try (destruct (parse_int n) as [z|]; [|exact I]); try (destruct (parse_uint n) as [z|]; [|exact I]);
        try (destruct (in_int _ z) eqn:Hz; [apply W; [exact Hz|exact I]|exact I]); try (destruct (in_uint _ z) eqn:Hz; [apply W; [exact Hz|exact I]|exact I]).
      eapply wise_bind; [apply returns_wise, (unq_returns bz), Hj|]. intros b Hb. cbn. apply W; [|exact I]. apply byte_ok_forallb. auto.
    Qed.
    Lemma jelems_reads bz e i o : bytes_ok bz -> fo_unsafe o = false -> mem (deref_type e) = true -> minfo env c i e -> forall raws l,
      Forall (inner bz) raws -> length raws = length l -> forallb (has_type env e) l = true -> forallb jsn l = true ->
      wise (fun r => length r = length l /\ forallb (has_type env e) r = true /\ forallb jsn r = true) (unjson_elems rec i e raws l o).
    Proof.
      intros Hb Ho Hmem Hi. induction raws as [|b raws IH]; intros [|v0 l] Hr Hl Ht Hv; try discriminate; cbn [unjson_elems]; [cbn; auto|].
      inversion Hr; subst. cbn [forallb] in Ht, Hv. apply andb_true_iff in Ht, Hv. destruct Ht as [Ht0 Ht], Hv as [Hv0 Hv].
      eapply wise_bind; [apply Hrec; try eassumption; [match goal with H : inner bz b |- _ => apply H, Hb end|split; assumption]|]. intros v [T1 T2].
      eapply wise_bind; [apply IH; try assumption; cbn [length] in Hl; lia|]. intros vs (L & F1 & F2). cbn [wise length forallb]. rewrite T1, T2, F1, F2. split; [lia|split; reflexivity].
    Qed.
    Lemma jsn_bytes b : forallb jsn (bytes_val b) = true.
    Proof. clear. induction b; [reflexivity|exact IHb]. Qed.
    Lemma jarray_reads t n e bz v0 o : bytes_ok bz -> fo_unsafe o = false -> resolve env t = RArray n e -> (is_uint8 env e = true \/ jecho_part mem cm t e) -> tgt t v0 ->
      wise (tgt t) (unjson_array env c rec n e bz v0 o).
    Proof.
      intros Hb Ho Er Hp [Ht Hv]. unfold unjson_array. destruct (is_uint8 env e) eqn:U.
      - eapply wise_bind; [apply returns_wise, (raw_bytes_returns bz []); [exact Hb|apply bytes_ok_nil]|]. intros b Ob.
        destruct (gotype_eqb e (TPrim PUint8)) eqn:Ge; cbn [negb]; [|exact I]. apply gotype_eqb_eq in Ge. subst e. destruct (length b =? n)%nat eqn:L; cbn [negb]; [|exact I].
        split; [|apply jsn_bytes]. cbn [has_type]. rewrite Er. unfold bytes_val. rewrite map_length, L. apply (has_type_bytes env b Ob).
      - destruct Hp as [X|Hp]; [discriminate|]. destruct (get_type_info env c e) as [ei| | |] eqn:Eg; try exact I. cbn [ebind].
        eapply wise_bind; [apply returns_wise, (raw_list_returns bz)|]. intros raws Hr. destruct (length raws =? n)%nat eqn:L; cbn [negb]; [|exact I].
        destruct v0 as [| | | | | |l0| | | | | | | |]; try exact I. cbn [has_type] in Ht. rewrite Er in Ht. apply andb_true_iff in Ht. destruct Ht as [L0 F0].
        eapply wise_bind; [apply (jelems_reads bz); try eassumption; [apply Hp|exact (gti_minfo _ _ _ _ Hs Eg)|lia]|]. intros l (L1 & F1 & F2). split; [|exact F2].
        cbn [has_type]. rewrite Er, F1. replace (length l =? n)%nat with true by lia. reflexivity.
    Qed.
    Lemma jslice_reads t e bz v0 o : bytes_ok bz -> fo_unsafe o = false -> resolve env t = RSlice e -> (is_uint8 env e = true \/ jecho_part mem cm t e) -> tgt t v0 ->
      wise (tgt t) (unjson_slice env c rec e bz v0 o).
    Proof.
      intros Hb Ho Er Hp [Ht Hv].
      assert (Mk : forall l, forallb (has_type env e) l = true -> forallb jsn l = true -> tgt t (mk_slice l)).
      { intros l H1 H2. unfold mk_slice. split; destruct l; cbn [has_type]; rewrite ?Er; try reflexivity; assumption. }
      unfold unjson_slice. destruct (is_uint8 env e) eqn:U.
      - eapply wise_bind; [apply returns_wise, raw_bytes_returns; [exact Hb|]|].
        + destruct v0 as [| | | | | | |[l|]| | | | | | |]; try apply bytes_ok_nil. cbn [has_type] in Ht. rewrite Er in Ht.
          apply Forall_forall. intros x Hx. unfold val_bytes in Hx. apply in_map_iff in Hx. destruct Hx as (v & <- & Hin).
          rewrite forallb_forall in Ht. specialize (Ht v Hin). unfold is_uint8 in U. destruct (resolve env e) as [[]| | | | | | | | | |] eqn:Ee; try discriminate.
          rewrite (has_type_prim _ _ _ _ Ee) in Ht. destruct v; try discriminate. cbn in Ht. unfold in_uint in Ht. change (2 ^ 8) with 256 in Ht. cbn. lia.
        + intros b Ob. apply Mk; [|apply jsn_bytes]. unfold is_uint8 in U. destruct (resolve env e) as [[]| | | | | | | | | |] eqn:Ee; try discriminate.
          rewrite <- (has_type_bytes env b Ob). clear - Ee. induction (bytes_val b) as [|x l IH]; cbn [forallb]; [reflexivity|]. rewrite IH. f_equal. apply has_type_res. exact Ee.
      - destruct Hp as [X|Hp]; [discriminate|]. destruct (get_type_info env c e) as [ei| | |] eqn:Eg; try exact I. cbn [ebind].
        eapply wise_bind; [apply returns_wise, (raw_list_returns bz)|]. intros raws Hr.
        eapply wise_bind; [apply (jelems_reads bz e ei o Hb Ho (proj1 Hp) (gti_minfo _ _ _ _ Hs Eg) raws (repeat (zero env e) (length raws)) Hr)|].
        + rewrite repeat_length. reflexivity.
        + apply forallb_repeat, has_type_zero, We.
        + apply forallb_repeat, jsn_zero.
        + intros l (_ & F1 & F2). apply Mk; assumption.
    Qed.
    Lemma jfields_reads bz fs m o : bytes_ok bz -> fo_unsafe o = false -> Forall (member_of bz) m -> forall fis l,
      (forall f, In f fis -> mem (deref_type (fi_type f)) = true /\ exists sf, nth_error fs (fi_index f) = Some sf /\ sf_type sf = fi_type f) ->
      forall2b (fun f w => has_type env (sf_type f) w) fs l = true -> forallb jsn l = true ->
      wise (fun r => forall2b (fun f w => has_type env (sf_type f) w) fs r = true /\ forallb jsn r = true) (unjson_fields env c rec fis m l o).
    Proof.
      intros Hb Ho Hmm. induction fis as [|f fis IH]; intros l Hf Ht Hv; cbn [unjson_fields]; [split; assumption|]. cbv zeta.
      destruct (Hf f (or_introl eq_refl)) as (Hmem & sf & Hsf & Hty).
      assert (Hf' : forall g, In g fis -> mem (deref_type (fi_type g)) = true /\ exists sf, nth_error fs (fi_index g) = Some sf /\ sf_type sf = fi_type g) by (intros; apply Hf; right; assumption).
      assert (H0 : tgt (fi_type f) (nth (fi_index f) l VInvalid)).
      { split; [rewrite <- Hty; exact (forall2b_nth _ _ _ _ _ VInvalid Ht Hsf)|]. rewrite forallb_forall in Hv. apply Hv, nth_In. rewrite <- (forall2b_length _ _ _ Ht). apply nth_error_Some. congruence. }
      assert (U : forall v, tgt (fi_type f) v -> forall2b (fun f w => has_type env (sf_type f) w) fs (upd (fi_index f) v l) = true /\ forallb jsn (upd (fi_index f) v l) = true).
      { intros v [H1 H2]. split; [refine (forall2b_upd _ _ _ _ _ _ Ht Hsf _); rewrite Hty; exact H1|]. clear - H2 Hv. revert Hv. generalize (fi_index f). intros n. revert n.
        induction l as [|x l IH]; intros [|n] Hv; try reflexivity; cbn [upd forallb] in *; apply andb_true_iff in Hv; destruct Hv as [V1 V2]; [rewrite H2, V2; reflexivity|rewrite V1; apply IH, V2]. }
      destruct (get_type_info env c (fi_type f)) as [info| | |] eqn:Eg; try exact I. cbn [ebind].
      assert (Z : wise (fun r => forall2b (fun f w => has_type env (sf_type f) w) fs r = true /\ forallb jsn r = true)
        (unjson_fields env c rec fis m (if fo_omitempty (fi_opts f) then l else upd (fi_index f) (zero env (fi_type f)) l) o)).
      { destruct (fo_omitempty _); [apply IH; assumption|]. destruct (U _ (tgt_zero (fi_type f))). apply IH; assumption. }
      destruct (assoc beqb (fo_json_name (fi_opts f)) m) as [b|] eqn:A; [|exact Z]. destruct b as [|b0 b']; [exact Z|]. set (b := b0 :: b') in *.
      assert (Hin : inner bz b).
      { clear - Hmm A. induction m as [|[k r] m IH]; [discriminate|]. inversion Hmm as [|? ? H1 H2]; subst. cbn [assoc] in A. destruct (beqb _ k); [|apply IH; assumption]. injection A as ->. apply H1. }
      eapply wise_bind; [apply Hrec; try eassumption; [apply Hin, Hb|exact (gti_minfo _ _ _ _ Hs Eg)]|]. intros v Hgv. destruct (U _ Hgv). apply IH; assumption.
    Qed.
    Lemma jmembers_reads bz kt vt i o : bytes_ok bz -> fo_unsafe o = false -> mem (deref_type vt) = true -> minfo env c i vt -> forall m, Forall (member_of bz) m ->
      wise (fun l => forallb (fun p => has_type env kt (fst p) && has_type env vt (snd p)) l = true /\ forallb (fun p => jsn (snd p)) l = true) (unjson_members env rec kt vt i m o).
    Proof.
      intros Hb Ho Hmem Hi. induction m as [|[k b] m IH]; intros Hmm; cbn [unjson_members]; [split; reflexivity|]. inversion Hmm as [|? ? [Bk Hin] Hm']; subst. cbn [fst snd] in *.
      eapply wise_bind; [apply Hrec; try eassumption; [apply Hin, Hb|apply tgt_zero]|]. intros v [T1 T2]. destruct (gotype_eqb kt (TPrim PString)) eqn:Ge; cbn [negb]; [|exact I]. apply gotype_eqb_eq in Ge. subst kt.
      eapply wise_bind; [apply IH, Hm'|]. intros l [L1 L2]. cbn [wise forallb fst snd]. rewrite T1, T2, L1, L2, !andb_true_r. split; [|reflexivity]. apply byte_ok_forallb. apply Bk, Hb.
    Qed.
    Lemma jswitch_reads i t bz v0 o : bytes_ok bz -> fo_unsafe o = false -> minfo env c i t -> deref_type t = t -> t <> TTime -> mem t = true -> jecho_plain env c mem cm t -> tgt t v0 ->
      wise (tgt t) (unjson_switch env je c rec i bz v0 o).
    Proof.
      intros Hb Ho Hi Hd Nt Hmem Hep Hg. unfold unjson_switch. pose proof (minfo_type _ _ _ _ Hi) as Ety. rewrite Hd in Ety. rewrite Ety. unfold jecho_plain in Hep.
      destruct (resolve env t) as [p| |n e|e|e|kt vt| | |id|fs|] eqn:Er; try exact I.
      - apply jprim_reads; assumption.
      - exfalso. apply (resolve_time _ _ We) in Er. contradiction.
      - apply jarray_reads; assumption.
      - apply jslice_reads; assumption.
      - unfold unjson_map. eapply wise_bind; [apply returns_wise, (raw_map_returns bz)|]. intros m Hmm. destruct Hep as [Hk Hp]. rewrite Hk.
        destruct (get_type_info env c vt) as [vi| | |] eqn:Eg; try exact I. cbn [ebind]. eapply wise_bind; [apply (jmembers_reads bz kt vt vi o Hb Ho (proj1 Hp) (gti_minfo _ _ _ _ Hs Eg) m Hmm)|].
        intros l [L1 L2]. split; [cbn [has_type]; rewrite Er; exact L1|exact L2].
      - destruct i as [ci|ii]; [exact I|]. destruct Hi as [Hii Hi]. rewrite Hd in Hi. assert (id = ii_id ii) by (rewrite Hi in Er; cbn [resolve] in Er; congruence). subst id.
        unfold unjson_interface. eapply wise_bind; [apply returns_wise, (wrapper_returns bz)|]. intros [name x] Hin. cbn [fst snd] in *.
        destruct (type_info_from_name c name) as [ci| | |] eqn:En; try exact I. cbn [ebind]. cbv zeta. destruct (named_info env c Wc Hs _ _ En) as (Mi & ptr' & Rg).
        assert (Hci : In ci (cd_concretes c)).
        { unfold type_info_from_name in En. destruct (assoc beqb name (cd_names c)) as [ci'|] eqn:A; [|discriminate]. apply EOk_inj in En. subst ci'. apply (wc_names _ _ Wc) in A. apply A. }
        pose proof (conc_registered env c Wc ci Hci) as Hreg. destruct Mi as [Mi1 Mi2]. destruct (info_ok_parts _ _ Mi2) as (Hk & _).
        set (ptr := match ci_reg ci with Some r => ri_ptr r | None => false end).
        set (ct := if ptr then TPtr (ci_type ci) else ci_type ci). assert (Dc : deref_type ct = ci_type ci) by (unfold ct; destruct ptr; symmetry; exact Mi1).
        destruct (te_impl env ct (ii_id ii)) eqn:Im.
        2:{ destruct (rec x (TIConc ci) (ci_type ci) (zero env (ci_type ci)) o); exact I. }
        assert (Hp : jecho_part mem cm t ct) by (apply (Hep ct Im); rewrite Dc; exact Hreg). destruct Hp as [Hmc _]. rewrite Dc in Hmc.
        assert (W : wise (tgt (ci_type ci)) (rec x (TIConc ci) (ci_type ci) (zero env (ci_type ci)) o)).
        { apply Hrec; try assumption; [apply Hin, Hb|rewrite <- Mi1; exact Hmc|split; assumption|apply tgt_zero]. }
        destruct (rec x (TIConc ci) (ci_type ci) (zero env (ci_type ci)) o) as [v| | |]; try exact I. cbn [wise] in *. destruct W as [W1 W2].
        assert (Un : under v = Some v) by (apply (under_nonptr env v (ci_type ci) W1); [destruct (ci_type ci); try reflexivity; discriminate|exact We]).
        assert (Ct : has_type env ct (if ptr then VPtr (Some v) else v) = true) by (unfold ct; destruct ptr; [cbn [has_type resolve]|]; exact W1).
        split.
        + rewrite Hi. cbn [has_type resolve]. rewrite Im. cbn [andb]. destruct ct eqn:Ec; try exact Ct. cbn [deref_type] in Dc. rewrite <- Dc in Hk. discriminate Hk.
        + cbn [jsendable]. rewrite Dc, Hmc, Hreg. destruct ptr; cbn [under jsendable]; rewrite Un; exact W2.
      - destruct i as [ci|ii]; [|exact I]. unfold unjson_struct. eapply wise_bind; [apply returns_wise, (raw_map_returns bz)|]. intros m Hmm. destruct v0 as [| | | | | | | | |l0| | | | |]; try exact I.
        destruct Hi as [Hty Hio]. rewrite Hd in Hty. destruct Hg as [Ht Hv]. cbn [has_type] in Ht. rewrite Er in Ht. cbn [jsendable] in Hv.
        eapply wise_bind; [apply (jfields_reads bz fs m o Hb Ho Hmm (ci_fields ci) l0); try assumption|].
        + intros f Hin. split; [eapply struct_fields; eassumption|]. destruct (info_ok_parts _ _ Hio) as (_ & Hp & _). unfold parse_struct_info in Hp. rewrite Hty, Er in Hp.
          destruct (parse_fields_nth _ _ _ _ _ _ Hp Hin) as (sf & o' & _ & H2 & _ & _ & _ & H6 & _). rewrite Nat.sub_0_r in H2. exists sf. auto.
        + intros l [L1 L2]. split; [cbn [has_type]; rewrite Er; exact L1|exact L2].
    Qed.
  End Dec.

  Theorem decode_json_reads : forall k b i t v o, bytes_ok b -> fo_unsafe o = false -> mem (deref_type t) = true -> minfo env c i t -> tgt t v -> wise (tgt t) (decode_json k env je c b i t v o).
  Proof.
    induction k as [|k IH]; intros b i t v o Hb Ho Hmem Hi Hg; [exact I|]. rewrite decode_body.
    enough (X : wise (tgt t) (if beqb b null then EOk (zero env t) else elet w := body env je c k b i t (base_of env t v) o in EOk (rebuild t w))).
    { destruct i; [exact X|destruct t; try exact X; exact I]. }
    destruct (beqb b null); [apply tgt_zero|]. apply (wise_bind (tgt (deref_type t))); [|intros w Hw; apply tgt_wrap, Hw].
    pose proof (tgt_base _ _ Hg) as Hw. revert Hw. generalize (base_of env t v). clear Hg v. intros v Hw. unfold body.
    pose proof (minfo_deref _ _ _ _ Hi) as Hi'. clear Hi. rename Hi' into Hi. pose proof (deref_idem t) as Hd. revert Hi Hmem Hw Hd. generalize (deref_type t). clear t.
    intros t Hi Hmem Hw Hd. destruct (proj2 (proj2 Hec) t Hmem) as [_ Ok].
    assert (Q : match t with TNamed id => te_unmarshal env id = None | TTime => False | _ => True end -> jecho_plain env c mem cm t -> wise (tgt t)
      match i with
      | TIConc {| ci_type := ct; ci_unmarshal := Some r |} =>
          elet rinfo := get_type_info env c r in elet rv := decode_json k env je c b rinfo r (zero env r) o in
          elet ve := from_repr env ct v rv in match snd ve with Some e => EErr e | None => EOk (fst ve) end
      | _ => unjson_switch env je c (decode_json k env je c) i b v o
      end).
    { intros N Hep. assert (S : wise (tgt t) (unjson_switch env je c (decode_json k env je c) i b v o)) by (apply jswitch_reads; try assumption; intros ->; exact N).
      destruct i as [ci|ii]; [|exact S]. destruct Hi as [Hty Hio]. rewrite Hd in Hty. pose proof (minfo_unmethod _ _ _ Hty Hio) as M. destruct ci as [ct cf cmm cu cr]. cbn [ci_type ci_unmarshal] in *.
      destruct cu as [r|]; [|exact S]. destruct M as (id & f & -> & Em & _). congruence. }
    destruct t as [p| |an ae|se|pe|mk me| | |ifc|id] eqn:D; try (apply Q; [exact I|exact Ok]).
    - destruct (time_text b); [|exact I]. destruct (je_untime je b) as [r| | |] eqn:Eu; try exact I. cbn [ebind wise]. exact (Ok _ _ Eu).
    - destruct Ok as (_ & _ & Ok). destruct (je_unmarshal je id) as [g|] eqn:Ej.
      + destruct (g b v) as [x| | |] eqn:Ex; try exact I. exact (Ok _ _ _ Hb Hw Ex).
      + destruct (te_unmarshal env id) as [[m|r g]|] eqn:Eu; [| |apply Q; [reflexivity|exact Ok]].
        * exfalso. destruct i as [ci|ii]; [|destruct Hi as [_ Hi]; discriminate Hi]. destruct Hi as [Hty Hio]. pose proof (minfo_unmethod _ _ _ Hty Hio) as M.
          destruct (ci_unmarshal ci) as [r|]; [destruct M as (id' & f & E1 & E2 & _); injection E1 as <-; congruence|rewrite (M id eq_refl) in Eu; discriminate].
        * destruct i as [ci|ii]; [|destruct Hi as [_ Hi]; discriminate Hi]. destruct Hi as [Hty Hio]. pose proof (minfo_unmethod _ _ _ Hty Hio) as M. destruct ci as [ct cf cmm cu cr]. cbn [ci_type ci_unmarshal deref_type] in *.
          destruct cu as [r'|]; [|rewrite (M id eq_refl) in Eu; discriminate]. destruct M as (id' & f' & E1 & E2 & Er). injection E1 as <-. rewrite Eu in E2. injection E2 as <- <-. subst ct.
          destruct Ok as [Hmr Hf]. destruct (get_type_info env c r) as [ri| | |] eqn:Eg; try exact I. cbn [ebind].
          eapply wise_bind; [apply IH; try assumption; [rewrite Er; exact Hmr|exact (gti_minfo _ _ _ _ Hs Eg)|apply tgt_zero]|]. intros rv Hrv. unfold from_repr. rewrite Eu.
          destruct (g v rv) as [[y [e|]]| | |] eqn:Ey; try exact I. cbn [ebind snd fst wise]. exact (Hf _ _ _ Hw Hrv Ey).
  Qed.
  Theorem unmarshal_json_good k b t v w : bytes_ok b -> mem (deref_type t) = true -> tgt t v -> unmarshal_json k env je c b t v = EOk w -> tgt t w.
  Proof.
    intros Hb Hmem Hg H. unfold unmarshal_json in H. destruct b as [|x b]; [discriminate|]. set (bz := x :: b) in *. einv H. rename a into info. pose proof (gti_minfo _ _ _ _ Hs E) as M.
    assert (D : forall b', bytes_ok b' -> decode_json k env je c b' info t v no_opts = EOk w -> tgt t w).
    { intros b' Hb' X. pose proof (decode_json_reads k b' info t v no_opts Hb' eq_refl Hmem M Hg) as W. rewrite X in W. exact W. }
    destruct info as [[ct fs m un [r|]]|]; try exact (D _ Hb H). einv H. destruct a as [name y]. cbn [fst snd] in H. destruct (negb (beqb name (ri_name r))); [discriminate|].
    apply (D y); [|exact H]. pose proof (wrapper_returns bz) as W. rewrite E0 in W. cbn in W. apply W, Hb.
  Qed.
End JE.
