(** Facts about the typing of values. *)
From Coq Require Import ZArith String List Bool Lia.
From Coq Require Import ZifyBool ZifyNat.
From Verif Require Import Base Prims PrimFacts Types Codec BinEnc BinDec ValueInd.
Import ListNotations.
Local Open Scope Z_scope.

Lemma has_type_res env t t' v : resolve env t = resolve env t' -> has_type env t v = has_type env t' v.
Proof. intros H. destruct v; cbn [has_type]; rewrite H; reflexivity. Qed.
Lemma has_type_prim env t p v : resolve env t = RPrim p -> has_type env t v = prim_has p v.
Proof. intros H. destruct v; cbn [has_type]; rewrite H; reflexivity. Qed.

Lemma resolve_utype env id t : wf_env env -> te_def env id = UType t -> resolve env (TNamed id) = resolve env t.
Proof.
  intros We Ed. pose proof (we_def _ We id) as H. cbn [resolve] in *. rewrite Ed in *.
  destruct t; try reflexivity; exfalso; apply H; reflexivity.
Qed.
Lemma resolve_ptr env t e : wf_env env -> resolve env t = RPtr e -> t = TPtr e.
Proof.
  intros We H. destruct t; cbn [resolve] in H; try discriminate; [congruence|].
  destruct (te_def env id) as [|[]]; discriminate.
Qed.
Lemma resolve_iface env t i : wf_env env -> resolve env t = RIface i -> t = TIface i.
Proof.
  intros We H. destruct t; cbn [resolve] in H; try discriminate; [congruence|].
  destruct (te_def env id) as [|[]]; discriminate.
Qed.
Lemma resolve_time env t : wf_env env -> resolve env t = RTime -> t = TTime.
Proof.
  intros We H. destruct t; cbn [resolve] in H; try discriminate; [reflexivity|].
  destruct (te_def env id) as [|[]]; discriminate.
Qed.
Lemma resolve_bad env t : wf_env env -> resolve env t <> RBad.
Proof. intros We. destruct t; cbn [resolve]; try discriminate. apply (we_def _ We). Qed.

Lemma forall2b_map {A B C} (f : A -> B -> bool) (g : C -> A) (h : C -> B) l :
  (forall x, In x l -> f (g x) (h x) = true) -> forall2b f (map g l) (map h l) = true.
Proof.
  induction l as [|x l IH]; intros H; cbn [map forall2b]; [reflexivity|].
  rewrite H by (left; reflexivity). apply IH. intros; apply H; right; assumption.
Qed.
Lemma forall2b_nth {A B} (f : A -> B -> bool) : forall la lb i a d, forall2b f la lb = true ->
  nth_error la i = Some a -> f a (nth i lb d) = true.
Proof.
  induction la as [|x la IH]; intros [|y lb] i a d H Hi; try discriminate; [destruct i; discriminate|].
  cbn [forall2b] in H. apply andb_true_iff in H. destruct H as [H1 H2].
  destruct i as [|i]; cbn [nth_error nth] in *; [congruence|]. eapply IH; eassumption.
Qed.
Lemma forall2b_upd {A B} (f : A -> B -> bool) : forall la lb i a v, forall2b f la lb = true ->
  nth_error la i = Some a -> f a v = true -> forall2b f la (upd i v lb) = true.
Proof.
  induction la as [|x la IH]; intros [|y lb] i a v H Hi Hv; try discriminate; [destruct i; discriminate|].
  cbn [forall2b] in H. apply andb_true_iff in H. destruct H as [H1 H2].
  destruct i as [|i]; cbn [nth_error upd forall2b] in *; apply andb_true_iff; split; try assumption; [congruence|].
  eapply IH; eassumption.
Qed.
Lemma forall2b_length {A B} (f : A -> B -> bool) : forall la lb, forall2b f la lb = true -> length la = length lb.
Proof.
  induction la as [|x la IH]; intros [|y lb] H; try discriminate; [reflexivity|].
  cbn [forall2b] in H. apply andb_true_iff in H. destruct H as [_ H]. cbn. f_equal. apply IH. assumption.
Qed.

Lemma has_type_zero env t : wf_env env -> has_type env t (zero env t) = true.
Proof.
  intros We. apply (zero_ind env (fun t v => has_type env t v = true) We); try reflexivity.
  - destruct p; reflexivity.
  - intros n e H. cbn [has_type resolve]. apply andb_true_iff. split; [rewrite repeat_length; apply Nat.eqb_refl|].
    apply forallb_forall. intros x Hx. pose proof (repeat_spec _ _ _ Hx) as ->. apply H; [reflexivity|].
    destruct n; [destruct Hx|lia].
  - intros id fs Hd H. cbn [has_type resolve]. rewrite Hd.
    rewrite <- (map_id fs) at 1. apply forall2b_map. assumption.
  - intros id t' Hd _ H. rewrite <- H. apply has_type_res. apply resolve_utype; assumption.
Qed.

Lemma has_type_wrap env t v : has_type env (deref_type t) v = true -> has_type env t (wrap_ptrs t v) = true.
Proof. induction t; cbn [deref_type wrap_ptrs]; auto. Qed.
Lemma has_type_base env t : wf_env env -> forall v, has_type env t v = true ->
  has_type env (deref_type t) (base_of env t v) = true.
Proof.
  intros We. induction t; intros v H; cbn [deref_type base_of]; auto.
  apply IHt. destruct v as [| | | | | | | |[w|]| | | | | |]; try (apply has_type_zero; assumption). exact H.
Qed.
Lemma has_type_default env t : wf_env env -> has_type env t (default_value env t) = true.
Proof.
  intros We. unfold default_value. destruct (deref_type t) eqn:E; try (apply has_type_zero; assumption).
  apply has_type_wrap. rewrite E. reflexivity.
Qed.
Lemma has_type_bytes env b : bytes_ok b -> forallb (has_type env (TPrim PUint8)) (bytes_val b) = true.
Proof.
  induction 1 as [|x b Hx Hb IH]; [reflexivity|]. cbn [bytes_val map forallb]. rewrite andb_true_iff. split; [|exact IH].
  cbn. unfold in_uint. change (2 ^ 8) with 256. lia.
Qed.
Lemma byte_ok_forallb b : bytes_ok b <-> forallb byte_ok b = true.
Proof.
  unfold bytes_ok. rewrite forallb_forall, Forall_forall. unfold byte_ok. split; intros H x Hx; specialize (H x Hx); lia.
Qed.

(** What parseStructInfo says about a field. *)
Lemma parse_fields_nth env : forall fs i num l f, parse_fields env fs i num = EOk l -> In f l ->
  exists sf o, (i <= fi_index f)%nat /\ nth_error fs (fi_index f - i) = Some sf /\
    sf_exported sf = true /\ parse_field_options sf = Some o /\ fi_name f = sf_name sf /\ fi_type f = sf_type sf /\
    unpacked_list env (sf_type sf) o = EOk (fi_unpacked f) /\ fi_opts f = set_num (fo_num (fi_opts f)) o.
Proof.
  induction fs as [|sf fs IH]; intros i num l f; cbn [parse_fields].
  - intros H. inversion H. contradiction.
  - assert (R : forall num l, parse_fields env fs (S i) num = EOk l -> In f l ->
      exists sf' o, (i <= fi_index f)%nat /\ nth_error (sf :: fs) (fi_index f - i) = Some sf' /\
        sf_exported sf' = true /\ parse_field_options sf' = Some o /\ fi_name f = sf_name sf' /\ fi_type f = sf_type sf' /\
        unpacked_list env (sf_type sf') o = EOk (fi_unpacked f) /\ fi_opts f = set_num (fo_num (fi_opts f)) o).
    { intros n' l' H1 H2. destruct (IH _ _ _ _ H1 H2) as (sf' & o & H3 & H4 & H5). exists sf', o.
      split; [lia|]. split; [|assumption]. replace (fi_index f - i)%nat with (S (fi_index f - S i)) by lia. exact H4. }
    destruct (sf_exported sf) eqn:Ee; cbn [negb]; [|apply R]. destruct (parse_field_options sf) as [o|] eqn:Eo; [|apply R].
    unfold ebind. destruct (unpacked_list env (sf_type sf) o) as [up| | |] eqn:Eu; try discriminate.
    destruct (check_unsafe _ _ _); try discriminate.
    destruct (parse_fields env fs (S i) (S num)) as [rest| | |] eqn:Er; try discriminate.
    intros H; inversion H; subst; clear H. intros [<-|Hin]; [|eapply R; eassumption].
    exists sf, o. cbn [fi_index fi_type fi_name fi_unpacked fi_opts]. rewrite Nat.sub_diag. splits; try assumption; try reflexivity; lia.
Qed.
