(** The demo program's declarations are well formed. *)
From Coq Require Import ZArith String List Bool Lia.
From Verif Require Import Base Prims PrimFacts Types Codec Sha256 Demo.
Import ListNotations.
Local Open Scope Z_scope.

Definition word (w : Z) : Prop := 0 <= w < 2 ^ 32.
Definition state_ok (h : list Z) : Prop := length h = 8%nat /\ Forall word h.

Lemma be32_ok w : word w -> bytes_ok (be32 w).
Proof.
  unfold word. intros H. unfold be32. change 255 with (Z.ones 8). rewrite !Z.land_ones, !Z.shiftr_div_pow2 by lia.
  repeat constructor; try (apply Z.mod_pos_bound; reflexivity); Z.div_mod_to_equations; lia.
Qed.

Lemma round_length h kw : length h = 8%nat -> length (round h kw) = 8%nat.
Proof.
  intros H. do 9 (destruct h as [|? h]; [try discriminate; try reflexivity|]). discriminate.
Qed.
Lemma rounds_length : forall l h, length h = 8%nat -> length (fold_left round l h) = 8%nat.
Proof. induction l as [|kw l IH]; intros h H; cbn; [assumption|]. apply IH, round_length, H. Qed.
Lemma block_ok h m : length h = 8%nat -> state_ok (block h m).
Proof.
  intros H. split; unfold block.
  - rewrite map_length, combine_length, rounds_length by assumption. lia.
  - apply Forall_forall. intros x Hx. apply in_map_iff in Hx. destruct Hx as (p & <- & _).
    unfold word, add32, w32. change 4294967295 with (Z.ones 32). rewrite Z.land_ones by lia. apply Z.mod_pos_bound. reflexivity.
Qed.
Lemma blocks_ok : forall k h m, state_ok h -> state_ok (blocks k h m).
Proof. induction k as [|k IH]; intros h m H; [assumption|]. cbn [blocks]. destruct m; [assumption|]. apply IH, block_ok, H. Qed.
Lemma H256_ok : state_ok H256.
Proof. split; [reflexivity|]. repeat constructor; cbv; discriminate. Qed.

Lemma sha256_length m : length (sha256 m) = 32%nat.
Proof.
  unfold sha256. destruct (blocks_ok (S (length m)) H256 (pad m) H256_ok) as [L _].
  destruct (blocks _ _ _) as [|a [|b [|c [|d [|e [|f [|g [|h [|]]]]]]]]]; try discriminate. reflexivity.
Qed.
Lemma sha256_ok m : bytes_ok (sha256 m).
Proof.
  unfold sha256. destruct (blocks_ok (S (length m)) H256 (pad m) H256_ok) as [_ F].
  induction F as [|w l Hw F IH]; [constructor|]. cbn [flat_map]. apply Forall_app. split; [apply be32_ok, Hw|exact IH].
Qed.

Lemma demo_wf : wf_env demo.
Proof.
  split.
  - exact demo_wf_def.
  - exact demo_wf_zero.
  - intros t i Ht. cbn [te_impl demo]. destruct i as [|[|i]]; cbn; try (intros; reflexivity); try discriminate.
    destruct t; cbn; try discriminate; try contradiction. auto.
  - intros t i. cbn [te_impl demo]. destruct i as [|[|i]]; cbn; try (intros; reflexivity); discriminate.
  - exact sha256_length.
  - exact sha256_ok.
Qed.
