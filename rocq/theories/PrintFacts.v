(** Facts about hexadecimal text. *)
From Coq Require Import ZArith String List Bool Lia.
From Coq Require Import ZifyBool ZifyNat.
From Verif Require Import Base Print SpecPrint.
Import ListNotations.
Local Open Scope Z_scope.

Lemma upper_hexit d : 0 <= d < 16 -> upper_digit d = hexit d.
Proof.
  intros H. assert (In d [0;1;2;3;4;5;6;7;8;9;10;11;12;13;14;15]) as K by (cbn; lia).
  repeat (destruct K as [<-|K]; [reflexivity|]). contradiction.
Qed.
Lemma hex_upper_text b : bytes_ok b -> hex_text b (hex_upper b).
Proof.
  induction 1 as [|x b Hx Hb IH]; cbn [hex_upper flat_map]; [constructor|]. cbn [app].
  assert (0 <= x / 16 < 16) by (split; [apply Z.div_pos|apply Z.div_lt_upper_bound]; lia).
  pose proof (Z.mod_pos_bound x 16 ltac:(lia)). rewrite (upper_hexit (x / 16)), (upper_hexit (x mod 16)) by assumption.
  rewrite (Z.div_mod x 16) at 1 by lia. rewrite (Z.mul_comm 16). constructor; assumption.
Qed.
Lemma hex_digits_app : forall k z acc, hex_digits k z acc = hex_digits k z [] ++ acc.
Proof.
  induction k as [|k IH]; intros z acc; cbn [hex_digits]; [reflexivity|]. destruct (z <? 16); [reflexivity|].
  rewrite (IH _ (_ :: acc)), (IH _ [_]), <- app_assoc. reflexivity.
Qed.
Lemma hex_num_number : forall k z, 0 <= z < 16 ^ Z.of_nat k -> (0 < k)%nat -> hex_number z (hex_digits k z []).
Proof.
  induction k as [|k IH]; intros z Hz Hk; [lia|]. cbn [hex_digits]. destruct (Z.ltb_spec z 16) as [L|L].
  - rewrite upper_hexit by lia. constructor. lia.
  - rewrite hex_digits_app. pose proof (Z.mod_pos_bound z 16 ltac:(lia)). rewrite upper_hexit by assumption.
    rewrite (Z.div_mod z 16) at 1 by lia. rewrite (Z.mul_comm 16).
    rewrite Nat2Z.inj_succ, Z.pow_succ_r in Hz by lia.
    constructor; [|assert (1 <= z / 16) by (apply Z.div_le_lower_bound; lia); lia|assumption].
    destruct k as [|k]; [cbn in Hz; lia|]. apply IH; [|lia]. split; [apply Z.div_pos; lia|apply Z.div_lt_upper_bound; lia].
Qed.

Lemma hex_text_fun : forall b s s', hex_text b s -> hex_text b s' -> s = s'.
Proof.
  intros b s s' H. revert s'. induction H as [|hi lo b s Hh Hl H IH]; intros s' H'; inversion H' as [|hi' lo' b' s'' Hh' Hl' H'' E]; subst; [reflexivity|].
  assert (hi' = hi /\ lo' = lo) as [-> ->] by lia. rewrite (IH _ H''). reflexivity.
Qed.
Lemma hex_number_fun : forall n s, hex_number n s -> forall s', hex_number n s' -> s = s'.
Proof.
  assert (P : forall n s, hex_number n s -> 0 <= n) by (induction 1; lia).
  intros n s H. induction H as [d Hd|n s d H IH Hn Hd]; intros s' H'; inversion H' as [d' Hd' E|n' s'' d' H'' Hn' Hd' E]; subst.
  - reflexivity.
  - lia.
  - lia.
  - assert (n' = n /\ d' = d) as [-> ->] by lia. rewrite (IH _ H''). reflexivity.
Qed.

Lemma hex_text_bytes b s : hex_text b s -> bytes_ok b.
Proof. induction 1; constructor; [lia|assumption]. Qed.
