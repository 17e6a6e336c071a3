(** Consequences of the registry invariant used by the property theorems. *)
From Coq Require Import ZArith String List Bool Lia Permutation.
From Coq Require Import ZifyBool ZifyNat.
From Verif Require Import Base Prims PrimFacts Types Codec BinEnc BinDec Amino Registry SpecRegistry FuelFacts DecFacts RegistryFacts.
Import ListNotations.
Local Open Scope Z_scope.

(** ** nameToDisfix *)

Lemma strip_zeros_spec b : exists i, b = repeat 0 i ++ strip_zeros b /\
  (strip_zeros b = [] \/ hd 0 (strip_zeros b) <> 0).
Proof.
  induction b as [|x b IH]; cbn [strip_zeros]; [exists 0%nat; split; [reflexivity|left; reflexivity]|].
  destruct (Z.eq_dec x 0) as [->|Hx].
  - destruct IH as (i & Hi & H). exists (S i). split; [cbn [repeat app]; f_equal; exact Hi|exact H].
  - exists 0%nat. destruct x; try lia; (split; [reflexivity|right; cbn; lia]).
Qed.
Lemma strip_zeros_repeat i b : (b = [] \/ hd 0 b <> 0) -> strip_zeros (repeat 0 i ++ b) = b.
Proof.
  intros Hb. induction i as [|i IH]; cbn [repeat app strip_zeros]; [|exact IH].
  destruct b as [|x b]; [reflexivity|]. cbn in Hb. destruct Hb as [Hb|Hb]; [discriminate|].
  destruct x; [lia|reflexivity|reflexivity].
Qed.

Lemma firstn_app_len {A} n (a b : list A) : length a = n -> firstn n (a ++ b) = a.
Proof. intros H. apply firstn_app_exact. auto. Qed.
Lemma skipn_app_len {A} n (a b : list A) : length a = n -> skipn n (a ++ b) = b.
Proof. intros H. apply skipn_app_exact. auto. Qed.
Lemma hd_firstn (l : bytes) n : (0 < n)%nat -> hd 0 (firstn n l) = hd 0 l.
Proof. destruct n; [lia|]. destruct l; reflexivity. Qed.

Lemma name_to_disfix_exact env name d p :
  name_to_disfix env name = EOk (d, p) <-> disfix_of_hash (te_hash env name) d p.
Proof.
  unfold name_to_disfix, disfix_of_hash. cbv zeta. set (h := te_hash env name). split.
  - destruct (strip_zeros_spec h) as (i & Hi & Hh).
    destruct (length (strip_zeros h) <? 3)%nat eqn:E1; [discriminate|]. apply Nat.ltb_ge in E1.
    destruct (strip_zeros_spec (skipn 3 (strip_zeros h))) as (j & Hj & Hh').
    set (h' := strip_zeros (skipn 3 (strip_zeros h))) in *.
    destruct (length h' <? 4)%nat eqn:E2; [discriminate|]. apply Nat.ltb_ge in E2.
    intros H. assert (Hd : d = firstn 3 (strip_zeros h) /\ p = firstn 4 h')
      by (split; [apply (f_equal (fun r => match r with EOk x => fst x | _ => [] end)) in H|
                  apply (f_equal (fun r => match r with EOk x => snd x | _ => [] end)) in H]; symmetry; exact H).
    destruct Hd as [-> ->]. clear H. exists i, j, (skipn 4 h'). splits.
    + rewrite Hi at 1. f_equal. rewrite <- (firstn_skipn 3 (strip_zeros h)) at 1. f_equal.
      rewrite Hj at 1. f_equal. symmetry. apply firstn_skipn.
    + apply firstn_length_le. lia.
    + apply firstn_length_le. lia.
    + rewrite hd_firstn by lia. destruct Hh as [Hh|Hh]; [rewrite Hh in E1; cbn in E1; lia|exact Hh].
    + rewrite hd_firstn by lia. destruct Hh' as [Hh'|Hh']; [rewrite Hh' in E2; cbn in E2; lia|exact Hh'].
  - intros (i & j & rest & Hh & Ld & Lp & Hd & Hp).
    rewrite Hh, strip_zeros_repeat by (right; destruct d; [discriminate|exact Hd]).
    assert (E1 : (length (d ++ repeat 0%Z j ++ p ++ rest) <? 3)%nat = false) by (apply Nat.ltb_ge; rewrite app_length; lia).
    rewrite E1, (skipn_app_len 3), (firstn_app_len 3) by assumption.
    rewrite strip_zeros_repeat by (right; destruct p; [discriminate|exact Hp]).
    assert (E2 : (length (p ++ rest) <? 4)%nat = false) by (apply Nat.ltb_ge; rewrite app_length; lia).
    rewrite E2, (firstn_app_len 4) by assumption. reflexivity.
Qed.

(** Seven non-zero bytes in the hash are enough. *)
Definition nonzeros (b : bytes) : nat := length (filter (fun x => negb (x =? 0)) b).
Lemma nonzeros_app a b : nonzeros (a ++ b) = (nonzeros a + nonzeros b)%nat.
Proof. unfold nonzeros. rewrite filter_app, app_length. reflexivity. Qed.
Lemma nonzeros_repeat n : nonzeros (repeat 0 n) = 0%nat.
Proof. induction n; [reflexivity|exact IHn]. Qed.
Lemma nonzeros_le b : (nonzeros b <= length b)%nat.
Proof. unfold nonzeros. induction b as [|x b IH]; cbn [filter length]; [lia|]. destruct (negb _); cbn [length]; lia. Qed.
Lemma name_to_disfix_total env name : (7 <= nonzeros (te_hash env name))%nat ->
  exists d p, name_to_disfix env name = EOk (d, p).
Proof.
  intros Hn. unfold name_to_disfix. cbv zeta. set (h := te_hash env name) in *.
  destruct (strip_zeros_spec h) as (i & Hi & _). rewrite Hi, nonzeros_app, nonzeros_repeat in Hn.
  set (s := strip_zeros h) in *. pose proof (nonzeros_le s).
  destruct (length s <? 3)%nat eqn:E1; [lia|].
  rewrite <- (firstn_skipn 3 s), nonzeros_app in Hn. pose proof (nonzeros_le (firstn 3 s)) as H3.
  rewrite firstn_length in H3. destruct (strip_zeros_spec (skipn 3 s)) as (j & Hj & _).
  rewrite Hj, nonzeros_app, nonzeros_repeat in Hn. pose proof (nonzeros_le (strip_zeros (skipn 3 s))).
  destruct (length (strip_zeros (skipn 3 s)) <? 4)%nat eqn:E2; [lia|]. eexists _, _; reflexivity.
Qed.

Lemma disfix_parts env name d p : name_to_disfix env name = EOk (d, p) ->
  length d = 3%nat /\ length p = 4%nat /\ hd 0 d <> 0 /\ hd 0 p <> 0.
Proof. intros H. apply name_to_disfix_exact in H. destruct H as (i & j & rest & _ & H). exact H. Qed.

Lemma decode_prefix_form p rest : length p = 4%nat -> hd 0 p <> 0 ->
  decode_disamb_prefix (p ++ rest) = DRet (None, p) 4 None.
Proof.
  intros Lp Hp. unfold decode_disamb_prefix.
  assert (E : (length (p ++ rest) <? 4)%nat = false) by (apply Nat.ltb_ge; rewrite app_length; lia). rewrite E.
  rewrite (firstn_app_len 4) by assumption. destruct p as [|x p]; [discriminate|]. cbn [hd] in Hp. cbn [app].
  destruct x; [lia|reflexivity|reflexivity].
Qed.
Lemma decode_disamb_form d p rest : length d = 3%nat -> length p = 4%nat ->
  decode_disamb_prefix (0 :: d ++ p ++ rest) = DRet (Some d, p) 8 None.
Proof.
  intros Ld Lp. destruct d as [|a [|b [|c [|]]]]; try discriminate. destruct p as [|e [|f [|g [|i [|]]]]]; try discriminate.
  unfold decode_disamb_prefix. cbn [length app Nat.ltb Nat.leb firstn skipn]. reflexivity.
Qed.
Lemma decode_disamb_prefix_inv bz r n : decode_disamb_prefix bz = DRet r n None ->
  (exists p rest, bz = p ++ rest /\ length p = 4%nat /\ hd 0 p <> 0 /\ r = (None, p) /\ n = 4%nat) \/
  (exists d p rest, bz = 0 :: d ++ p ++ rest /\ length d = 3%nat /\ length p = 4%nat /\ r = (Some d, p) /\ n = 8%nat).
Proof.
  unfold decode_disamb_prefix. destruct (length bz <? 4)%nat eqn:E4; [discriminate|]. apply Nat.ltb_ge in E4.
  destruct bz as [|x bz]; [cbn [length] in E4; lia|].
  destruct (Z.eq_dec x 0) as [->|Hx].
  - destruct (length (0%Z :: bz) <? 8)%nat eqn:E8; [discriminate|]. apply Nat.ltb_ge in E8.
    intros H. right. cbn [skipn] in H. assert (Hr : r = (Some (firstn 3 bz), firstn 4 (skipn 3 bz)) /\ n = 8%nat) by (inversion H; split; reflexivity). destruct Hr as [-> ->]. clear H. exists (firstn 3 bz), (firstn 4 (skipn 3 bz)), (skipn 4 (skipn 3 bz)).
    cbn [length] in E8. splits; try reflexivity.
    + rewrite !firstn_skipn. reflexivity.
    + apply firstn_length_le. lia.
    + apply firstn_length_le. rewrite skipn_length. lia.
  - intros H. left. exists (firstn 4 (x :: bz)), (skipn 4 (x :: bz)). splits.
    + symmetry; apply firstn_skipn.
    + apply firstn_length_le. lia.
    + rewrite hd_firstn by lia. cbn. exact Hx.
    + destruct x; try lia; inversion H; reflexivity.
    + destruct x; try lia; inversion H; reflexivity.
Qed.

(** ** Headers of interface values *)

(** The bytes in front of a registered concrete value in an interface. *)
Definition iface_header (ii : iinfo) (r : reginfo) : bytes :=
  (if ii_always ii || (1 <? length (impls_of ii (ri_prefix r)))%nat then 0 :: ri_disamb r else []) ++ ri_prefix r.
Definition lookup_disamb (c : codec) (ii : iinfo) (dp : option bytes * bytes) : eres cinfo :=
  match fst dp with
  | Some d => type_info_from_disfix c (to_disfix d (snd dp))
  | None => type_info_from_prefix ii (snd dp)
  end.
Definition ptr_of (r : reginfo) (t : gotype) : gotype := if ri_ptr r then TPtr t else t.

Lemma concrete_reg env c ci : wf_codec env c -> In ci (cd_concretes c) ->
  exists r, ci_reg ci = Some r /\ name_to_disfix env (ri_name r) = EOk (ri_disamb r, ri_prefix r) /\
    ci_prefix ci = ri_prefix r /\ ci_disfix ci = ri_disamb r ++ ri_prefix r /\ conc_type (ci_type ci) = true /\
    get_type_info env c (ci_type ci) = EOk (TIConc ci).
Proof.
  intros W H. apply (wc_conc _ _ W) in H. destruct H as [Ha Hr]. pose proof (wc_types _ _ W _ _ Ha) as [_ [Hi Hok]].
  destruct (ci_reg ci) as [r|] eqn:E; [|congruence]. unfold reg_ok in Hok. rewrite E in Hok.
  apply new_type_info_spec in Hi. destruct Hi as (Hc & _ & _).
  exists r. splits; try assumption; try reflexivity.
  - unfold ci_prefix. rewrite E. reflexivity.
  - unfold ci_disfix. rewrite E. reflexivity.
  - rewrite get_type_info_conc, Ha by assumption. reflexivity.
Qed.

Lemma header_resolves env c ii ci r rest : wf_codec env c -> In ii (cd_ifaces c) -> In ci (cd_concretes c) ->
  implements env ci ii = true -> ci_reg ci = Some r ->
  exists dp, decode_disamb_prefix (iface_header ii r ++ rest) = DRet dp (length (iface_header ii r)) None /\
    lookup_disamb c ii dp = EOk ci.
Proof.
  intros W Hii Hci Him Hr. destruct (concrete_reg _ _ _ W Hci) as (r' & Hr' & Hn & Hp & Hd & _).
  rewrite Hr in Hr'. inversion Hr'; subst r'; clear Hr'.
  destruct (disfix_parts _ _ _ _ Hn) as (Ld & Lp & Zd & Zp).
  unfold iface_header. destruct (ii_always ii || (1 <? length (impls_of ii (ri_prefix r)))%nat) eqn:E.
  - exists (Some (ri_disamb r), ri_prefix r). split.
    + cbn [app length]. rewrite <- app_assoc, decode_disamb_form by assumption. rewrite app_length, Ld, Lp. reflexivity.
    + unfold lookup_disamb, type_info_from_disfix, to_disfix. cbn [fst snd].
      rewrite (proj2 (wc_disfix _ _ W _ ci)) by (split; [assumption|exact Hd]). reflexivity.
  - exists (None, ri_prefix r). split.
    + cbn [app]. rewrite decode_prefix_form, Lp by assumption. reflexivity.
    + apply orb_false_iff in E. destruct E as [_ E]. apply Nat.ltb_ge in E.
      assert (Hin : In ci (impls_of ii (ri_prefix r))).
      { rewrite (wc_impls _ _ W) by assumption. apply filter_In. split; [assumption|]. rewrite Him, Hp, beqb_refl. reflexivity. }
      unfold lookup_disamb, type_info_from_prefix. cbn [fst snd]. unfold impls_of in *.
      destruct (assoc beqb (ri_prefix r) (ii_impls ii)) as [[|a [|b l]]|]; cbn in E, Hin; try contradiction; try lia.
      destruct Hin as [->|[]]. reflexivity.
Qed.

(** What the encoder writes for an interface value, and which registered
    concrete type it is. *)
Lemma encode_interface_inv env c fuel ii ct cv o bare bz : wf_codec env c ->
  encode_reflect (S fuel) env c (TIFace ii) (VIface (Some (ct, cv))) o bare = EOk bz ->
  exists ci r crv body, ci_type ci = deref_type ct /\ In ci (cd_concretes c) /\ ci_reg ci = Some r /\
    deref_pointers cv = (crv, false) /\
    encode_reflect fuel env c (TIConc ci) crv o true = EOk body /\
    bz = finish bare (iface_header ii r ++ body).
Proof.
  intros W. cbn [encode_reflect encode_switch ti_type resolve]. unfold encode_interface.
  destruct (deref_pointers cv) as [crv [|]] eqn:Ed; [discriminate|].
  intros H. assert (H' : ebind (get_type_info env c (deref_type ct)) (fun info =>
        match info with
        | TIConc ci =>
            match ci_reg ci with
            | None => EErr "cannot encode unregistered concrete type"%string
            | Some r =>
                let need := ii_always ii ||
                  (1 <? length match assoc beqb (ri_prefix r) (ii_impls ii) with
                               | Some l => l | None => [] end)%nat in
                ebind (encode_reflect fuel env c info crv o true) (fun body =>
                EOk (finish bare ((if need then 0 :: ri_disamb r else []) ++ ri_prefix r ++ body)))
            end
        | TIFace _ => EErr "cannot encode unregistered concrete type"%string
        end) = EOk bz) by (destruct crv; try discriminate; exact H). clear H.
  destruct (get_type_info env c (deref_type ct)) as [info| | |] eqn:Eg; try discriminate. cbn [ebind] in H'.
  destruct info as [ci|]; [|discriminate]. destruct (ci_reg ci) as [r|] eqn:Er; [|discriminate].
  cbv zeta in H'. destruct (encode_reflect fuel env c (TIConc ci) crv o true) as [body| | |] eqn:Eb; try discriminate.
  cbn [ebind] in H'. inversion H'; clear H'. exists ci, r, crv, body.
  assert (Hin : In ci (cd_concretes c) /\ ci_type ci = deref_type ct).
  { pose proof (deref_type_not_ptr (deref_type ct)) as _. destruct (conc_type (deref_type ct)) eqn:Ec.
    - rewrite get_type_info_conc in Eg by assumption. destruct (assoc gotype_eqb (deref_type ct) (cd_types c)) as [ci'|] eqn:Ea.
      + inversion Eg; subst ci'. pose proof (wc_types _ _ W _ _ Ea) as [Ht _]. split; [|exact Ht].
        apply (wc_conc _ _ W). rewrite Ht. split; [assumption|congruence].
      + destruct (new_type_info env (deref_type ct)) as [ci'| | |] eqn:En; try discriminate. inversion Eg; subst ci'.
        apply new_type_info_spec in En. destruct En as (_ & _ & En). congruence.
    - destruct (deref_type ct) eqn:E; try discriminate.
      + exfalso. eapply deref_type_not_ptr; exact E.
      + rewrite get_type_info_iface in Eg. destruct (find_iface _ _); discriminate. }
  splits; try tauto; try reflexivity; try assumption. unfold iface_header. rewrite <- app_assoc. reflexivity.
Qed.

(** Decoding bytes that start with the header of [ci] gives a value of [ci]'s
    registered form, or an error. *)
Lemma decode_interface_type env c fuel ii ci r body o v n : wf_codec env c -> In ii (cd_ifaces c) ->
  In ci (cd_concretes c) -> implements env ci ii = true -> ci_reg ci = Some r ->
  decode_reflect (S fuel) env c (iface_header ii r ++ body) (TIFace ii) (TIface (ii_id ii)) (VIface None) o true
    = DRet v n None ->
  exists w, v = VIface (Some (ptr_of r (ci_type ci), w)).
Proof.
  intros W Hii Hci Him Hr. destruct (header_resolves _ _ _ _ _ body W Hii Hci Him Hr) as (dp & Hdp & Hl).
  cbn [decode_reflect]. unfold dmap. cbn [base_of]. unfold decode_switch. cbn [ti_type resolve decode_interface enter].
  rewrite Hdp. cbn [dbind]. unfold slide at 1.
  destruct (length (iface_header ii r ++ body) <? length (iface_header ii r))%nat; [discriminate|].
  unfold lookup_disamb in Hl. rewrite Hl. cbn [eget]. cbv zeta.
  rewrite skipn_app_len by reflexivity. unfold rebuild. cbn [wrap_ptrs].
  assert (G : forall bz2 n2, dbind
       (dbind (decode_reflect fuel env c bz2 (TIConc ci) (ci_type ci) (zero env (ci_type ci)) o true) (fun v n3 e =>
              slide bz2 n3 (fun bz3 =>
              let n3 := (n2 + n3)%nat in
              match e with
              | Some e => set_iface env ii ci v (fun r => DRet r n3 (Some e))
              | None =>
                  match bz3 with
                  | _ :: _ => DRet (VIface None) n3 (Some "bytes left over after reading interface contents"%string)
                  | [] => set_iface env ii ci v (fun r => DRet r n3 None)
                  end
              end))) (fun a n e => DRet a n e) = DRet v n None ->
       exists w, v = VIface (Some (ptr_of r (ci_type ci), w))).
  { intros bz2 n2. destruct (decode_reflect fuel env c bz2 _ _ _ _ _) as [w n3 e| |]; try discriminate. cbn [dbind].
    unfold slide. destruct (_ <? _)%nat; [discriminate|]. cbv zeta. unfold set_iface. rewrite Hr.
    destruct e; [destruct (if ri_ptr r then _ else _), (te_impl _ _ _); discriminate|].
    destruct (skipn n3 bz2); [|discriminate]. unfold ptr_of.
    destruct (ri_ptr r), (te_impl _ _ _); try discriminate; intros H; inversion H; eexists; reflexivity. }
  destruct (wants_key env ci body o).
  - destruct (decode_field_key body) as [[a b] nk [e|]| |]; try discriminate. cbn [dbind fst snd].
    destruct (negb _); [discriminate|]. destruct (type_to_typ3 _ _ _); try discriminate. cbn [eget].
    destruct (negb _); [discriminate|]. unfold slide at 1. destruct (_ <? _)%nat; [discriminate|]. apply G.
  - apply G.
Qed.

(** ** Uniqueness *)

Lemma emap_map {A B C} (f : A -> eres B) (g : A -> C) (k : B -> C) l r :
  (forall x y, f x = EOk y -> k y = g x) -> emap f l = EOk r -> map k r = map g l.
Proof.
  intros H. revert r. induction l as [|x l IH]; intros r; cbn [emap]; [intros E; inversion E; reflexivity|].
  unfold ebind. destruct (f x) eqn:Ef; try discriminate. destruct (emap f l) eqn:E; try discriminate.
  intros E'; inversion E'; subst. cbn [map]. rewrite (IH _ eq_refl), (H _ _ Ef). reflexivity.
Qed.

Lemma NoDup_map_inj {A B} (f : A -> B) l : NoDup l -> (forall x y, In x l -> In y l -> f x = f y -> x = y) -> NoDup (map f l).
Proof.
  induction 1 as [|x l Hx Hl IH]; intros Hi; cbn [map]; constructor.
  - intros Hin. apply in_map_iff in Hin. destruct Hin as (y & Hy & Hin). apply Hx.
    rewrite <- (Hi y x); [assumption|right; assumption|left; reflexivity|assumption].
  - apply IH. intros a b Ha Hb. apply Hi; right; assumption.
Qed.

Lemma reg_call_spec env x ci : reg_call env x = EOk ci ->
  ci_type ci = conc_of (fst x) /\ ci_name ci = Some (snd x) /\
  exists r, ci_reg ci = Some r /\ ri_name r = snd x /\ ri_ptr r = is_ptr (fst x).
Proof.
  intros H. apply new_registered_spec in H. destruct H as (_ & Ht & _ & Hn & Hr). splits; assumption.
Qed.

Theorem unique_registrations env h : clean env new_codec h = true ->
  let c := run env new_codec h in
  NoDup (map (fun x => conc_of (fst x)) (conc_calls h)) /\ NoDup (map snd (conc_calls h)) /\
  (forall t name, In (t, name) (conc_calls h) -> exists ci r d p,
     get_type_info env c t = EOk (TIConc ci) /\
     type_info_from_name c name = EOk ci /\ ci_type ci = conc_of t /\ ci_reg ci = Some r /\ ri_name r = name /\
     ri_ptr r = is_ptr t /\ ri_disamb r = d /\ ri_prefix r = p /\ name_to_disfix env name = EOk (d, p) /\
     type_info_from_disfix c (d ++ p) = EOk ci) /\
  (forall t1 n1 t2 n2 d p, In (t1, n1) (conc_calls h) -> In (t2, n2) (conc_calls h) ->
     name_to_disfix env n1 = EOk (d, p) -> name_to_disfix env n2 = EOk (d, p) -> (t1, n1) = (t2, n2)).
Proof.
  intros C. cbv zeta. pose proof (wf_history _ _ C) as W.
  destruct (run_registered _ _ _ C) as (cs & is & R1 & R2 & _ & _). cbn [new_codec cd_concretes app] in R2.
  set (c := run env new_codec h) in *. clearbody c. subst cs.
  assert (Hn : map (fun ci => ci_name ci) (cd_concretes c) = map Some (map snd (conc_calls h))).
  { rewrite map_map. eapply emap_map; [|exact R1]. intros x y Hx. apply reg_call_spec in Hx. tauto. }
  assert (Ht : map ci_type (cd_concretes c) = map (fun x => conc_of (fst x)) (conc_calls h)).
  { eapply emap_map; [|exact R1]. intros x y Hx. apply reg_call_spec in Hx. tauto. }
  assert (ND : NoDup (cd_concretes c)) by (eapply NoDup_map_inv; apply W).
  assert (L : forall t name, In (t, name) (conc_calls h) -> exists ci r, In ci (cd_concretes c) /\
     reg_call env (t, name) = EOk ci /\ ci_reg ci = Some r /\ ri_name r = name /\ ri_ptr r = is_ptr t /\ ci_type ci = conc_of t).
  { intros t name Hin. destruct (emap_in _ _ _ R1) as [H1 _]. destruct (H1 _ Hin) as (ci & Hci & Hin').
    destruct (reg_call_spec _ _ _ Hci) as (E1 & E2 & r & E3 & E4 & E5). exists ci, r. splits; assumption. }
  splits.
  - rewrite <- Ht. apply W.
  - apply (NoDup_map_inv Some). rewrite <- Hn. apply NoDup_map_inj; [assumption|].
    intros x y Hx Hy E. destruct (concrete_reg _ _ _ W Hx) as (r & Er & _).
    assert (Nx : ci_name x = Some (ri_name r)) by (unfold ci_name; rewrite Er; reflexivity).
    assert (A1 : assoc beqb (ri_name r) (cd_names c) = Some x) by (apply W; auto).
    assert (A2 : assoc beqb (ri_name r) (cd_names c) = Some y) by (apply W; split; congruence). congruence.
  - intros t name Hin. destruct (L _ _ Hin) as (ci & r & Hci & _ & Er & En & Ep & Et).
    destruct (concrete_reg _ _ _ W Hci) as (r' & Er' & Hd & _ & Hdf & Hct & Hg). rewrite Er in Er'. inversion Er'; subst r'.
    exists ci, r, (ri_disamb r), (ri_prefix r). splits; try assumption; try reflexivity.
    + rewrite Et in Hg. destruct t; exact Hg.
    + unfold type_info_from_name. replace (assoc beqb name (cd_names c)) with (Some ci); [reflexivity|].
      symmetry. apply W. split; [assumption|]. unfold ci_name. rewrite Er. cbn. congruence.
    + rewrite <- En. exact Hd.
    + unfold type_info_from_disfix. replace (assoc beqb _ (cd_disfix c)) with (Some ci); [reflexivity|].
      symmetry. apply W. split; assumption.
  - intros t1 n1 t2 n2 d p H1 H2 D1 D2.
    destruct (L _ _ H1) as (ci1 & r1 & Hc1 & _ & Er1 & En1 & Ep1 & Et1).
    destruct (L _ _ H2) as (ci2 & r2 & Hc2 & _ & Er2 & En2 & Ep2 & Et2).
    destruct (concrete_reg _ _ _ W Hc1) as (r' & Er' & Hd1 & _ & Hdf1 & _). rewrite Er1 in Er'. inversion Er'; subst r'; clear Er'.
    destruct (concrete_reg _ _ _ W Hc2) as (r' & Er' & Hd2 & _ & Hdf2 & _). rewrite Er2 in Er'. inversion Er'; subst r'; clear Er'.
    assert (E : ci1 = ci2).
    { assert (A1 : assoc beqb (d ++ p) (cd_disfix c) = Some ci1) by (apply W; split; [assumption|]; congruence).
      assert (A2 : assoc beqb (d ++ p) (cd_disfix c) = Some ci2) by (apply W; split; [assumption|]; congruence). congruence. }
    subst ci2. rewrite Er1 in Er2. inversion Er2; subst r2. f_equal; [|congruence].
    rewrite Et1 in Et2. rewrite Ep1 in Ep2.
    assert (Hct : conc_type (ci_type ci1) = true) by (destruct (concrete_reg _ _ _ W Hc1) as (? & _ & _ & _ & _ & X & _); exact X).
    rewrite Et1 in Hct. destruct t1, t2; cbn in *; try congruence; subst; try discriminate.
Qed.

(** ** Sealing *)

Lemma sealed_step env c x : cd_sealed c = true ->
  let c' := fst (step env c x) in
  cd_sealed c' = true /\ cd_ifaces c' = cd_ifaces c /\ cd_concretes c' = cd_concretes c /\
  cd_disfix c' = cd_disfix c /\ cd_names c' = cd_names c /\ codec_equiv env c c' /\
  match x with OIface _ _ | OConc _ _ => snd (step env c x) <> None /\ c' = c | _ => True end.
Proof.
  intros Hs. destruct x; cbn [step].
  - unfold register_interface. rewrite Hs. cbn. splits; try reflexivity; try assumption; try discriminate. apply codec_equiv_refl.
  - unfold register_concrete. rewrite Hs. cbn. splits; try reflexivity; try assumption; try discriminate. apply codec_equiv_refl.
  - cbn. splits; try reflexivity; try exact I. split; intros; try reflexivity. apply rsim_refl.
  - destruct (use_keeps env c t) as (H1 & H2 & H3 & H4 & H5). cbv zeta in *. cbn [fst].
    splits; try assumption; try congruence; try exact I. apply get_type_info_st_equiv.
Qed.

Lemma codec_equiv_trans env a b c : codec_equiv env a b -> codec_equiv env b c -> codec_equiv env a c.
Proof.
  intros H1 H2. split.
  - intros t. pose proof (ce_info _ _ _ H1 t) as A. pose proof (ce_info _ _ _ H2 t) as B.
    destruct (get_type_info env a t), (get_type_info env b t), (get_type_info env c t); cbn in *; try contradiction; try congruence.
    destruct a0, a1, a2; cbn in *; try contradiction; try congruence. destruct A, B. split; intros; etransitivity; eauto.
  - intros d. rewrite (ce_disfix _ _ _ H1). apply H2.
  - intros d. rewrite (ce_names _ _ _ H1). apply H2.
Qed.

Theorem sealed_forever env : forall h c, cd_sealed c = true ->
  let c' := run env c h in
  cd_sealed c' = true /\ cd_ifaces c' = cd_ifaces c /\ cd_concretes c' = cd_concretes c /\
  cd_disfix c' = cd_disfix c /\ cd_names c' = cd_names c /\ codec_equiv env c c'.
Proof.
  induction h as [|x h IH]; intros c Hs; cbn [run].
  - cbv zeta. splits; try reflexivity; try assumption. apply codec_equiv_refl.
  - destruct (sealed_step env c x Hs) as (H1 & H2 & H3 & H4 & H5 & H6 & _). cbv zeta in *.
    destruct (IH _ H1) as (G1 & G2 & G3 & G4 & G5 & G6). splits; try congruence.
    eapply codec_equiv_trans; eassumption.
Qed.

(** ** Rejected registrations *)

Lemma register_interface_atomic env c i o c' p : register_interface env c i o = (c', Some p) -> c' = c.
Proof.
  unfold register_interface. destruct (cd_sealed c); [congruence|]. destruct (new_iface_info env i o); try congruence.
  destruct (negb _); [congruence|]. destruct (find_iface _ _); congruence.
Qed.

Lemma add_check_none env ci : forall l, (forall ii, In ii l -> implements env ci ii = false) ->
  add_check_conflicts env ci l = (l, true).
Proof.
  induction l as [|ii l IH]; intros H; cbn [add_check_conflicts]; [reflexivity|].
  rewrite (H ii (or_introl eq_refl)). cbn [negb]. rewrite IH; [reflexivity|]. intros; apply H; right; assumption.
Qed.

Lemma register_concrete_atomic env c t name c' p : register_concrete env c t name = (c', Some p) ->
  (forall ii, In ii (cd_ifaces c) -> te_impl env (TPtr (conc_of t)) (ii_id ii) = false) ->
  (forall d q, name_to_disfix env name = EOk (d, q) ->
     assoc gotype_eqb (conc_of t) (cd_types c) <> None \/
     assoc beqb (d ++ q) (cd_disfix c) = None /\ assoc beqb name (cd_names c) = None) -> c' = c.
Proof.
  unfold register_concrete. destruct (cd_sealed c); [congruence|]. intros H Hi Hd.
  assert (G : forall ptr, match new_registered_info env (conc_of t) ptr name with
      | EOk ci =>
          let '(ifs, ok) := add_check_conflicts env ci (cd_ifaces c) in
          let c' := set_ifaces ifs c in
          if negb ok then (c', Some "conflicts with other(s)"%string)
          else set_registered c' ci name
      | EPanic p => (c, Some p)
      | EErr e => (c, Some e)
      | EFuel => (c, Some "fuel"%string)
      end = (c', Some p) -> c' = c).
  { intros ptr. destruct (new_registered_info env (conc_of t) ptr name) as [ci| | |] eqn:E; try congruence.
    destruct (new_registered_spec _ _ _ _ _ E) as (_ & Ht & [_ Hok] & _ & r & Hr & Hn & _).
    rewrite add_check_none by (intros ii Hin; unfold implements; rewrite Ht; apply Hi; assumption).
    cbn [negb]. replace (set_ifaces (cd_ifaces c) c) with c by (destruct c; reflexivity).
    unfold set_registered. rewrite Ht. destruct (assoc gotype_eqb (conc_of t) (cd_types c)) eqn:Ea; [congruence|].
    unfold reg_ok in Hok. rewrite Hr, Hn in Hok. destruct (Hd _ _ Hok) as [X|[X1 X2]]; [congruence|].
    unfold ci_disfix. rewrite Hr. unfold to_disfix. rewrite X1, X2. congruence. }
  destruct t; cbn [conc_of] in *; try (apply (G false); exact H); try congruence.
  destruct t; try (apply (G true); exact H); congruence.
Qed.

(** ** Priorities *)

Lemma iface_prio env h i ii : clean env new_codec h = true ->
  find_iface i (cd_ifaces (run env new_codec h)) = Some ii ->
  exists o, In (i, o) (iface_calls h) /\
    ii_always ii = match o with Some x => io_always x | None => false end /\
    forall d, In d (ii_prio ii) <-> exists n a b, In n (match o with Some x => io_prio x | None => [] end) /\
                                    name_to_disfix env n = EOk (a, b) /\ d = a ++ b.
Proof.
  intros C Hf. apply find_iface_some in Hf. destruct Hf as [Hin Hid].
  destruct (run_registered _ _ _ C) as (_ & is & _ & _ & R3 & R4). cbn [new_codec cd_ifaces map app] in R4.
  assert (Hb : In (bare_iface ii) (map bare_iface is)) by (rewrite <- R4; apply in_map; assumption).
  apply in_map_iff in Hb. destruct Hb as (i0 & Hb & Hi0).
  destruct (emap_in _ _ _ R3) as [_ H2]. destruct (H2 _ Hi0) as ([i' o] & Hc & Hn).
  unfold iface_call in Hn. cbn [fst snd] in Hn. pose proof (new_iface_spec _ _ _ _ Hn) as [Hid' _].
  assert (E1 : ii_id i0 = ii_id ii) by (apply (f_equal ii_id) in Hb; exact Hb).
  assert (E2 : ii_always i0 = ii_always ii) by (apply (f_equal ii_always) in Hb; exact Hb).
  assert (E3 : ii_prio i0 = ii_prio ii) by (apply (f_equal ii_prio) in Hb; exact Hb).
  exists o. splits.
  - replace i with i' by congruence. exact Hc.
  - rewrite <- E2. revert Hn. unfold new_iface_info. clear -C. destruct o; [|intros X; inversion X; reflexivity].
    destruct (emap _ _); cbn [ebind]; intros X; inversion X; reflexivity.
  - rewrite <- E3. revert Hn. unfold new_iface_info. destruct o as [o|].
    + destruct (emap (fun n => _) _) as [ps| | |] eqn:E; cbn [ebind]; intros X; inversion X. cbn [ii_prio].
      destruct (emap_in _ _ _ E) as [M1 M2]. intros d. split.
      * intros Hd. destruct (M2 _ Hd) as (n & Hn & He). unfold ebind in He.
        destruct (name_to_disfix env n) as [[a b]| | |] eqn:En; inversion He. exists n, a, b. splits; try assumption; reflexivity.
      * intros (n & a & b & Hn & He & ->). destruct (M1 _ Hn) as (y & Hy & Hin'). rewrite He in Hy. inversion Hy; subst y. exact Hin'.
    + intros X; inversion X. cbn [ii_prio]. intros d. split; [intros []|]. intros (n & a & b & [] & _).
Qed.

Lemma conflict_prio env c ii ci ci' : wf_codec env c -> In ii (cd_ifaces c) ->
  In ci (cd_concretes c) -> In ci' (cd_concretes c) -> implements env ci ii = true -> implements env ci' ii = true ->
  ci_prefix ci = ci_prefix ci' -> ci <> ci' ->
  In (ci_disfix ci) (ii_prio ii) /\ (1 < length (impls_of ii (ci_prefix ci)))%nat.
Proof.
  intros W Hii H H' I I' Hp Hne. pose proof (wc_impls _ _ W ii (ci_prefix ci) Hii) as Hl.
  assert (A : In ci (impls_of ii (ci_prefix ci))) by (rewrite Hl; apply filter_In; rewrite I, beqb_refl; auto).
  assert (A' : In ci' (impls_of ii (ci_prefix ci))) by (rewrite Hl; apply filter_In; rewrite I', <- Hp, beqb_refl; auto).
  assert (L : (1 < length (impls_of ii (ci_prefix ci)))%nat).
  { destruct (impls_of ii (ci_prefix ci)) as [|a [|b l]]; cbn in *; try contradiction; try lia.
    destruct A as [->|[]], A' as [->|[]]. congruence. }
  split; [|exact L]. pose proof (wc_conf _ _ W _ Hii) as Hc. unfold check_conflicts in Hc. rewrite forallb_forall in Hc.
  unfold impls_of in A, L. destruct (assoc beqb (ci_prefix ci) (ii_impls ii)) as [l|] eqn:E; [|contradiction].
  apply assoc_map_in in E. specialize (Hc _ E). cbn [snd] in Hc.
  apply orb_true_iff in Hc. destruct Hc as [Hc|Hc]; [apply Nat.ltb_lt in Hc; lia|].
  rewrite forallb_forall in Hc. specialize (Hc _ A). apply existsb_exists in Hc. destruct Hc as (d & Hd & Eq).
  apply beqb_eq in Eq. subst d. exact Hd.
Qed.
