(** Facts: values decoded from JSON are no larger than the text warrants. *)
From Coq Require Import ZArith String List Bool Lia.
From Verif Require Import Base Prims SpecWire PrimFacts Types Codec BinDec Amino Registry SpecRegistry RegistryFacts Sane Typing DecSafe DecSize
  SpecNorm EncFacts JsonText Json SpecJson JsonTextFacts JsonFacts JsonProps SpecJsonSafe JsonSafe SpecMembers MembersFacts JsonReadsFacts SpecJsonSize.
Import ListNotations.
Local Open Scope amino_scope.
Local Open Scope nat_scope.

Definition total {A} (f : A -> nat) (l : list A) : nat := list_sum (map f l).
Lemma total_cons {A} (f : A -> nat) x l : total f (x :: l) = f x + total f l.
Proof. reflexivity. Qed.
Lemma total_app {A} (f : A -> nat) l m : total f (l ++ m) = total f l + total f m.
Proof. unfold total. rewrite map_app, list_sum_app. reflexivity. Qed.

(** ** Texts *)

Lemma utf8_len c b : utf8_char c b -> length b <= 4.
Proof. intros []; cbn; lia. Qed.
Lemma unit_len e u : code_unit e u -> length e = 6.
Proof. intros []; reflexivity. Qed.
Lemma denotes_len s n : denotes s n -> length n <= 3 * length s.
Proof.
  induction 1 as [|c b s n U _ _ _ _ IH|b s n _ _ _ IH|e x s n _ _ IH|e u b s n C _ U _ IH|e f u v b s n C D _ _ U _ IH|e u s n C _ _ _ IH];
    repeat rewrite app_length in *; change (length replacement) with 3; cbn [length] in *; try (pose proof (utf8_len _ _ U)); try (pose proof (unit_len _ _ C)); lia.
Qed.
Lemma unq_len s n : jchars s -> unq s = EOk n -> length n <= 3 * length s.
Proof. intros J H. apply denotes_len. apply unq_iff; assumption. Qed.

Lemma elems_len l b : jelems l b -> total (fun x => S (length x)) l <= S (length b).
Proof. induction 1 as [w v w' _ _ _|w v w' l b _ _ _ _ IH]; rewrite ?total_cons; repeat (rewrite app_length; cbn [length]); [cbn; lia|lia]. Qed.
Lemma array_len l b : jarray l b -> total (fun x => S (length x)) l <= length b.
Proof.
  intros [w _|l' b' H]; [cbn; lia|]. pose proof (elems_len _ _ H). cbn [length]. rewrite app_length. cbn [length]. lia.
Qed.
Definition msize (m : bytes * bytes) : nat := S (length (fst m) + length (snd m)).
Lemma members_len l b : jmembers l b -> total msize l <= length b.
Proof.
  induction 1 as [w k w1 w2 v w' _ _ _ _ _ _|w k w1 w2 v w' l b _ _ _ _ _ _ _ IH]; rewrite ?total_cons; unfold msize in *; cbn [fst snd];
    repeat (rewrite app_length; cbn [length]); [cbn; lia|lia].
Qed.
Lemma object_len l b : jobject l b -> total msize l <= length b.
Proof. intros [w _|l' b' H]; [cbn; lia|]. pose proof (members_len _ _ H). cbn [length]. rewrite app_length. cbn [length]. lia. Qed.

(** ** What json.Unmarshal makes of them *)

Lemma top_len bz j : json_top bz = Some j -> exists x, top_of j x /\ length x <= length bz.
Proof. intros J. destruct (top_sound _ _ J) as (w & x & w' & -> & _ & _ & T). exists x. split; [exact T|]. rewrite !app_length. lia. Qed.
Lemma list_len bz l : raw_list bz = EOk l -> total (fun x => S (length x)) l <= length bz.
Proof.
  unfold raw_list, with_top. destruct (json_top bz) as [j|] eqn:J; [|discriminate]. destruct (top_len _ _ J) as (x & T & L).
  destruct j; try discriminate; intros H; apply EOk_inj in H; subst; [cbn; lia|]. pose proof (array_len _ _ T). lia.
Qed.
(** An entry of the map: one for itself, its name, and three per byte of its text. *)
Definition esize (m : bytes * bytes) : nat := S (length (fst m) + 3 * length (snd m)).
Lemma put_size key raw m : total esize (map_put key raw m) <= esize (key, raw) + total esize m.
Proof.
  induction m as [|[k r] m IH]; cbn [map_put]; [cbn; lia|]. destruct (beqb k key) eqn:B; rewrite !total_cons.
  - apply beqb_eq in B. subst k. unfold esize. cbn [fst snd]. lia.
  - lia.
Qed.
Lemma fill_size : forall l m r, good_members l -> fill_map l m = EOk r -> total esize r <= total esize m + 3 * total msize l.
Proof.
  induction l as [|[k raw] l IH]; intros m r G H; cbn [fill_map] in H; [apply EOk_inj in H; subst; cbn; lia|].
  inversion G as [|? ? [Gk Gr] G']; subst. cbn [fst snd] in *. einv H. pose proof (unq_len _ _ Gk E) as L. pose proof (IH _ _ G' H) as I. pose proof (put_size a raw m) as P.
  rewrite total_cons. unfold msize at 1. unfold esize in P at 2. cbn [fst snd] in *. lia.
Qed.
Lemma map_size bz m : raw_map bz = EOk m -> total esize m <= 3 * length bz.
Proof.
  unfold raw_map, with_top. destruct (json_top bz) as [j|] eqn:J; [|discriminate]. destruct (top_len _ _ J) as (x & T & L).
  destruct j as [| | | | |l]; try discriminate; intros H; [apply EOk_inj in H; subst; cbn; lia|]. pose proof (object_len _ _ T) as O.
  pose proof (fill_size _ _ _ (object_members _ _ T) H). change (total esize []) with 0 in *. lia.
Qed.
Lemma wrapper_len bz name x : decode_wrapper bz = EOk (name, x) -> length x <= length bz.
Proof.
  intros H. destruct (wrapper_sound _ _ _ H) as (w & y & w' & l & -> & _ & _ & O & _ & (l1 & k & l2 & -> & _) & _). pose proof (object_len _ _ O) as L.
  rewrite total_app, total_cons in L. unfold msize in L at 2. cbn [fst snd] in L. rewrite !app_length. lia.
Qed.
Lemma b64_len : forall n s r, length s <= n -> b64_decode s = Some r -> length r <= length s.
Proof.
  induction n as [|n IH]; intros s r L H; [destruct s; [|cbn in L; lia]; injection H as <-; cbn; lia|].
  destruct s as [|a [|b [|c [|d s]]]]; try discriminate; [injection H as <-; cbn; lia|]. cbn [length] in *. cbn [b64_decode] in H.
  assert (G : match b64_val a, b64_val b, b64_val c, b64_val d with
              | Some w, Some x, Some y, Some z => option_map (app [w * 4 + x / 16; x mod 16 * 16 + y / 4; y mod 4 * 64 + z]%Z) (b64_decode s)
              | _, _, _, _ => None
              end = Some r -> length r <= S (S (S (S (length s))))).
  { destruct (b64_val a), (b64_val b), (b64_val c), (b64_val d); try discriminate. destruct (b64_decode s) as [r'|] eqn:D; [|discriminate]. cbn [option_map]. intros X. injection X as <-.
    pose proof (IH s r' ltac:(lia) D). cbn [app length]. lia. }
  destruct s as [|e s]; [|exact (G H)]. destruct (d =? 61)%Z; [|exact (G H)]. destruct (c =? 61)%Z.
  - destruct (b64_val a), (b64_val b); try discriminate. injection H as <-. cbn. lia.
  - destruct (b64_val a), (b64_val b), (b64_val c); try discriminate. injection H as <-. cbn. lia.
Qed.
Lemma filter_len {A} (f : A -> bool) l : length (filter f l) <= length l.
Proof. induction l as [|x l IH]; cbn [filter]; [lia|]. destruct (f x); cbn [length]; lia. Qed.
Lemma byte_elems_len : forall l old r, byte_elems l old = EOk r -> length r = length l.
Proof.
  induction l as [|e l IH]; intros old r H; cbn [byte_elems] in H; [apply EOk_inj in H; subst; reflexivity|]. einv H. einv H. apply EOk_inj in H. subst r. cbn [length]. f_equal. eapply IH; eassumption.
Qed.
Lemma total_count {A} (f : A -> nat) l : (forall x, 1 <= f x) -> length l <= total f l.
Proof. intros F. induction l as [|x l IH]; [cbn; lia|]. rewrite total_cons. specialize (F x). cbn [length]. lia. Qed.
Lemma bytes_len bz old r : raw_bytes bz old = EOk r -> length r <= 3 * length bz.
Proof.
  unfold raw_bytes, with_top. destruct (json_top bz) as [j|] eqn:J; [|discriminate]. destruct (top_len _ _ J) as (x & T & L).
  destruct j as [| | |s|l|]; try discriminate; intros H.
  - apply EOk_inj in H. subst. cbn. lia.
  - destruct T as [-> Hs]. einv H. destruct (b64_decode (b64_clean a)) as [y|] eqn:D; [|discriminate]. apply EOk_inj in H. subst y.
    pose proof (b64_len _ _ _ (le_n _) D) as L1. pose proof (filter_len (fun b => negb ((b =? 10) || (b =? 13))%Z) a) as L2. pose proof (unq_len _ _ Hs E). cbn [length] in L. rewrite app_length in L. unfold b64_clean in L1. lia.
  - pose proof (byte_elems_len _ _ _ H) as L1. pose proof (array_len _ _ T) as L2. assert (L3 : length l <= length x) by (eapply Nat.le_trans; [|exact L2]; apply total_count; intros; lia). lia.
Qed.
Lemma prim_size je p bz o v : unjson_prim je p bz o = EOk v -> dsize v <= 3 * length bz.
Proof.
  assert (S : p = PString \/ (unjson_prim je p bz o = EOk v -> dsize v = 0)).
  { destruct p; [..|left; reflexivity]; right; unfold unjson_prim; cbv zeta; unfold with_top; intros H;
      repeat match type of H with
      | (match ?x with _ => _ end) = _ => destruct x; try discriminate
      | ebind _ _ = _ => einv H
      end; apply EOk_inj in H; subst v; reflexivity. }
  destruct S as [-> |S]; [|intros H; rewrite (S H); lia]. cbn [unjson_prim]. unfold with_top. destruct (json_top bz) as [j|] eqn:J; [|discriminate]. destruct (top_len _ _ J) as (x & T & L).
  destruct j as [| | |s| |]; try discriminate; intros H.
  - apply EOk_inj in H. subst v. cbn. lia.
  - destruct T as [-> Hs]. einv H. apply EOk_inj in H. subst v. pose proof (unq_len _ _ Hs E). cbn [length dsize] in *. rewrite app_length in L. lia.
Qed.

(** ** Fields with different names read different members *)

Lemma total_incl {A} (f : A -> nat) : forall l m, NoDup l -> incl l m -> total f l <= total f m.
Proof.
  induction l as [|x l IH]; intros m N I; [cbn; lia|]. inversion N as [|? ? Nx N']; subst. destruct (in_split x m (I x (or_introl eq_refl))) as (a & b & ->).
  assert (I' : incl l (a ++ b)).
  { intros y Hy. assert (H := I y (or_intror Hy)). apply in_app_or in H. apply in_or_app. destruct H as [H|[H|H]]; [left; exact H|subst y; contradiction|right; exact H]. }
  pose proof (IH _ N' I') as L. rewrite total_app in *. rewrite !total_cons. lia.
Qed.
Definition tsize (e : bytes * bytes) : nat := length (snd e).
Definition member_len (m : list (bytes * bytes)) (n : bytes) : nat := match assoc beqb n m with Some x => length x | None => 0 end.
Lemma assoc_in' : forall m n x, assoc beqb n m = Some (x : bytes) -> In (n, x) m.
Proof.
  induction m as [|[k r] m IH]; intros n x H; [discriminate|]. cbn [assoc] in H. destruct (beqb n k) eqn:B; [|right; apply IH, H]. apply beqb_eq in B. injection H as <-. subst. left. reflexivity.
Qed.
Lemma names_total m names : NoDup names -> total (member_len m) names <= total tsize m.
Proof.
  intros N.
  assert (K : exists es, NoDup es /\ incl es m /\ incl (map fst es) names /\ total tsize es = total (member_len m) names).
  { induction N as [|n names Hn N (es & D & I & F & T)].
    - exists []. splits; [constructor|intros x []|intros x []|reflexivity].
    - rewrite total_cons, <- T. unfold member_len. destruct (assoc beqb n m) as [x|] eqn:E.
      + exists ((n, x) :: es). splits.
        * constructor; [|exact D]. intros Hin. apply Hn, F. change n with (fst (n, x)). apply in_map, Hin.
        * intros y [<- |Hy]; [apply assoc_in', E|apply I, Hy].
        * intros y [<- |Hy]; [left; reflexivity|right; apply F, Hy].
        * rewrite total_cons. reflexivity.
      + exists es. splits; try assumption; [|reflexivity]. intros y Hy. right. apply F, Hy. }
  destruct K as (es & D & I & _ & <-). apply total_incl; assumption.
Qed.
Lemma entries_total m : 3 * total tsize m <= total esize m.
Proof. induction m as [|e m IH]; [cbn; lia|]. rewrite !total_cons. unfold esize at 1. unfold tsize at 1. lia. Qed.

Lemma parsed_names env : forall fs i num fis, parse_fields env fs i num = EOk fis -> map (fun f => fo_json_name (fi_opts f)) fis = json_names fs.
Proof.
  induction fs as [|f fs IH]; intros i num fis H; [apply EOk_inj in H; subst; reflexivity|]. apply parse_cases in H. unfold json_names. cbn [flat_map]. fold (json_names fs).
  destruct (json_opts f) as [o|].
  - destruct H as (fi & rest & -> & _ & _ & En & _ & Hp). cbn [map app]. rewrite En, (IH _ _ _ Hp). reflexivity.
  - eapply IH; exact H.
Qed.

(** ** Values *)

Section Size.
  Variable env : tenv.
  Variable je : jenv.
  Variable c : codec.
  Hypothesis We : wf_env env.
  Hypothesis Wc : wf_codec env c.
  Hypothesis Hs : sane_codec env c.
  Hypothesis Hg : env_nogrow env.
  Hypothesis Hj : json_nogrow je.
  Hypothesis Hd : json_distinct env.

  Section Rec.
    Variable rec : bytes -> tinfo -> gotype -> value -> fopts -> eres value.
    Hypothesis Hrec : forall b i t v o w, minfo env c i t -> rec b i t v o = EOk w -> dsize w <= dsize v + 3 * length b.

    Lemma elems_size i e o : minfo env c i e -> forall l vs ws, unjson_elems rec i e l vs o = EOk ws ->
      length ws + lsize ws <= lsize vs + 3 * total (fun x => S (length x)) l.
    Proof.
      intros M. induction l as [|b l IH]; intros vs ws H; cbn [unjson_elems] in H.
      - apply EOk_inj in H. subst ws. cbn. lia.
      - destruct vs as [|v vs]; [apply EOk_inj in H; subst ws; cbn; lia|]. einv H. einv H. apply EOk_inj in H. subst ws.
        pose proof (Hrec _ _ _ _ _ _ M E). pose proof (IH _ _ E0). rewrite total_cons, !lsize_cons. cbn [length]. lia.
    Qed.
    Lemma fields_size m o : forall fis l r, unjson_fields env c rec fis m l o = EOk r ->
      lsize r <= lsize l + 3 * total (member_len m) (map (fun f => fo_json_name (fi_opts f)) fis).
    Proof.
      induction fis as [|f fis IH]; intros l r H; cbn [unjson_fields] in H; [apply EOk_inj in H; subst; cbn; lia|].
      cbv zeta in H. einv H. rename a into info. cbn [map]. rewrite total_cons. unfold member_len at 1.
      assert (Z : unjson_fields env c rec fis m (if fo_omitempty (fi_opts f) then l else upd (fi_index f) (zero env (fi_type f)) l) o = EOk r ->
        lsize r <= lsize l + 3 * total (member_len m) (map (fun f => fo_json_name (fi_opts f)) fis)).
      { intros X. apply IH in X. destruct (fo_omitempty (fi_opts f)); [exact X|].
        assert (Y : lsize (upd (fi_index f) (zero env (fi_type f)) l) <= lsize l + 0) by (apply lsize_upd; rewrite (dsize_zero env _ We); lia). lia. }
      destruct (assoc beqb (fo_json_name (fi_opts f)) m) as [[|b0 b]|] eqn:A; [apply Z in H; lia| |apply Z in H; lia].
      einv H. apply IH in H. pose proof (Hrec _ _ _ _ _ _ (gti_minfo _ _ _ _ Hs E) E0) as Y. pose proof (lsize_upd _ _ _ _ Y). lia.
    Qed.
    Definition psize (p : value * value) : nat := dsize (fst p) + dsize (snd p).
    Lemma members_size kt vt i o : minfo env c i vt -> forall m es, unjson_members env rec kt vt i m o = EOk es ->
      length es + total psize es <= total esize m.
    Proof.
      intros M. induction m as [|[k b] m IH]; intros es H; cbn [unjson_members] in H; [apply EOk_inj in H; subst; cbn; lia|].
      einv H. destruct (negb (gotype_eqb kt (TPrim PString))); [discriminate|]. einv H. apply EOk_inj in H. subst es.
      pose proof (Hrec _ _ _ _ _ _ M E) as Y. rewrite (dsize_zero env _ We) in Y. pose proof (IH _ E0). rewrite !total_cons. unfold psize at 1. unfold esize at 1. cbn [fst snd length dsize]. lia.
    Qed.
    Lemma switch_size i t w0 b w o : minfo env c i t -> unjson_switch env je c rec i b w0 o = EOk w -> dsize w <= dsize w0 + 3 * length b.
    Proof.
      intros M. unfold unjson_switch. rewrite (minfo_type _ _ _ _ M). destruct (resolve env (deref_type t)) as [p| |n e|e|e|kt vt| | |id|fs|] eqn:Rd; intros H; try discriminate.
      - apply prim_size in H. lia.
      - destruct i as [ci|ii]; [|discriminate]. unfold unjson_struct in H. einv H. destruct w0; try discriminate. einv H. apply EOk_inj in H. subst w.
        destruct M as [M Hi]. destruct (info_ok_parts _ _ Hi) as (_ & Hp & _). unfold parse_struct_info in Hp. rewrite M, Rd in Hp. apply EOk_inj in Hp. rewrite <- Hp in E0. apply EOk_inj in E0. subst. lia.
      - unfold unjson_array in H. destruct (is_uint8 env e).
        + einv H. destruct (negb (gotype_eqb e (TPrim PUint8))); [discriminate|]. destruct (negb (length a =? n)); [discriminate|]. apply EOk_inj in H. subst w.
          cbn [dsize]. fold (lsize (bytes_val a)). rewrite lsize_bytes. lia.
        + einv H. rename a into ei. einv H. rename a into l. destruct (negb (length l =? n)); [discriminate|]. destruct w0 as [| | | | | |vs| | | | | | | |]; try discriminate.
          einv H. rename a into ws. apply EOk_inj in H. subst w. pose proof (elems_size _ _ _ (gti_minfo _ _ _ _ Hs E) _ _ _ E1). pose proof (list_len _ _ E0). cbn [dsize]. fold (lsize ws) (lsize vs). lia.
      - unfold unjson_slice in H. destruct (is_uint8 env e).
        + einv H. apply EOk_inj in H. subst w. rewrite dsize_mk_slice, lsize_bytes. unfold bytes_val. rewrite map_length. apply bytes_len in E. lia.
        + einv H. rename a into ei. einv H. rename a into l. einv H. rename a into ws. apply EOk_inj in H. subst w. rewrite dsize_mk_slice.
          pose proof (elems_size _ _ _ (gti_minfo _ _ _ _ Hs E) _ _ _ E1) as L. pose proof (list_len _ _ E0).
          assert (Z : forall n, lsize (repeat (zero env e) n) = 0) by (induction n as [|n IHn]; [reflexivity|cbn [repeat]; rewrite lsize_cons, IHn, (dsize_zero env _ We); reflexivity]).
          rewrite Z in L. lia.
      - unfold unjson_map in H. einv H. rename a into m. destruct (resolve env kt) as [[]| | | | | | | | | |]; try discriminate. einv H. rename a into vi. einv H. rename a into es. apply EOk_inj in H. subst w.
        pose proof (members_size _ _ _ _ (gti_minfo _ _ _ _ Hs E0) _ _ E1) as L. pose proof (map_size _ _ E). cbn [dsize]. unfold total, psize in *. lia.
      - destruct i as [ci|ii]; [discriminate|]. unfold unjson_interface in H. einv H. destruct a as [name x]. cbn [fst snd] in H. einv H. rename a into ci. cbv zeta in H.
        destruct (named_info env c Wc Hs _ _ E0) as (Mi & _). set (ptr := match ci_reg ci with Some r => ri_ptr r | None => false end) in *.
        destruct (rec x (TIConc ci) (ci_type ci) (zero env (ci_type ci)) o) as [u| | |] eqn:D; try discriminate; [|destruct (te_impl _ _ _); discriminate].
        destruct (te_impl _ _ _); [|discriminate]. apply EOk_inj in H. subst w. pose proof (Hrec _ _ _ _ _ _ Mi D) as Y. rewrite (dsize_zero env _ We) in Y. pose proof (wrapper_len _ _ _ E).
        destruct ptr; cbn [dsize]; lia.
      - destruct i as [ci|ii]; [|discriminate]. unfold unjson_struct in H. einv H. rename a into m. destruct w0 as [| | | | | | | | |vs| | | | |]; try discriminate. einv H. rename a into ws. apply EOk_inj in H. subst w.
        destruct M as [M Hi]. destruct (info_ok_parts _ _ Hi) as (_ & Hp & _). unfold parse_struct_info in Hp. rewrite M, Rd in Hp.
        pose proof (fields_size _ _ _ _ _ E0) as L. rewrite (parsed_names _ _ _ _ _ Hp) in L. pose proof (names_total m _ (Hd _ _ Rd)). pose proof (entries_total m). pose proof (map_size _ _ E).
        cbn [dsize]. fold (lsize ws) (lsize vs). lia.
    Qed.
  End Rec.

  Theorem decode_json_size : forall k b i t v o w, minfo env c i t -> decode_json k env je c b i t v o = EOk w -> dsize w <= dsize v + 3 * length b.
  Proof.
    induction k as [|k IH]; intros b i t v o w M H; [discriminate|]. rewrite decode_body in H.
    assert (H' : (if beqb b null then EOk (zero env t) else elet w := body env je c k b i t (base_of env t v) o in EOk (rebuild t w)) = EOk w)
      by (destruct i; [exact H|destruct t; try discriminate; exact H]). clear H.
    destruct (beqb b null); [apply EOk_inj in H'; subst w; rewrite (dsize_zero env _ We); lia|]. einv H'. apply EOk_inj in H'. subst w. unfold rebuild. rewrite dsize_wrap.
    pose proof (dsize_base env t We v) as B. enough (dsize a <= dsize (base_of env t v) + 3 * length b) by lia. revert E. generalize (base_of env t v). clear v B. intros v. unfold body.
    assert (G : forall x, match (match deref_type t with TNamed id => je_unmarshal je id | _ => None end) with
           | Some g => g b v
           | None => match i with
                     | TIConc {| ci_type := ct; ci_unmarshal := Some r |} =>
                         elet rinfo := get_type_info env c r in elet rv := decode_json k env je c b rinfo r (zero env r) o in
                         elet ve := from_repr env ct v rv in match snd ve with Some e => EErr e | None => EOk (fst ve) end
                     | _ => unjson_switch env je c (decode_json k env je c) i b v o
                     end
           end = EOk x -> dsize x <= dsize v + 3 * length b).
    { intros x. destruct (match deref_type t with TNamed id => je_unmarshal je id | _ => None end) as [g|] eqn:Eg.
      - destruct (deref_type t) as [| | | | | | | | |id]; try discriminate. apply (Hj _ _ _ _ _ Eg).
      - assert (Sw : unjson_switch env je c (decode_json k env je c) i b v o = EOk x -> dsize x <= dsize v + 3 * length b).
        { intros H. eapply switch_size; [|exact M|exact H]. intros b1 i1 t1 v1 o1 w1 M1 H1. exact (IH _ _ _ _ _ _ M1 H1). }
        destruct i as [[ct fs mr [r|] rg]|ii]; try exact Sw. intros H. einv H. rename a0 into ri. einv H. rename a0 into rv. einv H. destruct a0 as [y e]. cbn [fst snd] in H. destruct e; [discriminate|]. apply EOk_inj in H. subst y.
        pose proof (IH _ _ _ _ _ _ (gti_minfo _ _ _ _ Hs E) E0) as L. rewrite (dsize_zero env _ We) in L. unfold from_repr in E1. destruct ct; try discriminate. destruct (te_unmarshal env id) as [[p|r' g]|] eqn:Eu; try discriminate.
        pose proof (Hg _ _ _ _ _ _ _ Eu E1). lia. }
    destruct (deref_type t); try apply G. destruct (time_text b); [|discriminate]. intros H. einv H. apply EOk_inj in H. subst a. cbn. lia.
  Qed.

  Theorem unmarshal_json_size k b t v w : unmarshal_json k env je c b t v = EOk w -> dsize w <= dsize v + 3 * length b.
  Proof.
    unfold unmarshal_json. destruct b as [|x b]; [discriminate|]. set (bz := x :: b). intros H. einv H. rename a into info. pose proof (gti_minfo _ _ _ _ Hs E) as M.
    assert (D : decode_json k env je c bz info t v no_opts = EOk w -> dsize w <= dsize v + 3 * length bz) by (apply decode_json_size, M).
    destruct info as [[ct fs m un [r|]]|]; try exact (D H). einv H. destruct a as [name y]. cbn [fst snd] in H. destruct (negb (beqb name (ri_name r))); [discriminate|].
    pose proof (decode_json_size _ _ _ _ _ _ _ M H). pose proof (wrapper_len _ _ _ E0). lia.
  Qed.
End Size.
