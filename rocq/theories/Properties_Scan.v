(** The struct scanner of aminoscan: C55, C61. *)
From Coq Require Import ZArith String List Bool Lia.
From Coq Require Import ZifyBool ZifyNat.
From Verif Require Import Base Prims SpecWire PrimFacts PrimProps Scan SpecScan ScanFacts.
Import ListNotations.
Local Open Scope Z_scope.

(** ** C55 *)

(** Whenever the scanner returns, with or without an error, the byte strings it
    shows are, put together, exactly the bytes it says it consumed. *)
Theorem C55_parts : forall fuel bz root s n e, scan_struct fuel bz root = SRet s n e ->
  (n <= length bz)%nat /\ concat (map snd s) = firstn n bz.
Proof.
  intros fuel bz root s n e H. apply scan_loop_ret in H. destruct H as [H1 H2]. split; [lia|].
  unfold shown in H2. cbn [map concat app] in H2. rewrite H2. f_equal. lia.
Qed.

(** It ends, after at most one round per byte, on every input whose last byte does
    not carry the continuation bit.  Missing: other inputs, on which it may loop
    for ever. *)
Theorem C55_terminates_partial : forall bz root, (forall b pre, bz = pre ++ [b] -> b < 128) ->
  scan_struct (S (length bz)) bz root <> SFuel.
Proof.
  intros bz root Hl H. apply scan_loop_fuel in H; [|lia]. destruct H as (pre & rest & -> & Hne & U & _).
  destruct (exists_last Hne) as (l & x & ->). apply Forall_app in U. destruct U as [_ U]. inversion U; subst.
  specialize (Hl x (pre ++ l)). rewrite app_assoc in Hl. specialize (Hl eq_refl). lia.
Qed.

(** It fails to end exactly when it comes to a non-empty rest of at most ten bytes
    that all carry the continuation bit: then no fuel is enough. *)
Theorem C55_endless_only_partial : forall fuel bz root, (length bz < fuel)%nat -> scan_struct fuel bz root = SFuel ->
  exists pre rest, bz = pre ++ rest /\ rest <> [] /\ Forall (fun b => 128 <= b) rest /\ (length rest <= 10)%nat.
Proof. intros fuel bz root Hf H. apply scan_loop_fuel in H; [|exact Hf]. destruct H as (pre & rest & H1 & H2 & H3 & H4). exists pre, rest. splits; assumption. Qed.

Example C55_example :
  scan_struct 12 [8; 1; 18; 2; 65; 66; 25; 1; 2; 3; 4; 5; 6; 7; 8; 37; 1; 2; 3; 4] true =
    SRet [(Plain, [8]); (Cyan, [1]); (Plain, [18]); (Cyan, [2]); (Green, [65; 66]); (Plain, [25]); (Blue, [1; 2; 3; 4; 5; 6; 7; 8]);
          (Plain, [37]); (Blue, [1; 2; 3; 4])] 20 None /\
  scan_struct 12 [8; 1; 25; 1; 2] true =
    SRet [(Plain, [8]); (Cyan, [1]); (Plain, [25])] 3 (Some "while reading 8byte field, EOF was encountered"%string).
Proof. split; vm_compute; reflexivity. Qed.

(** The scanner does not end on the single byte 0x80 (nor on any other such rest). *)
Theorem C55_endless_refuted : forall rest, rest <> [] -> Forall (fun b => 128 <= b) rest -> (length rest <= 10)%nat ->
  forall fuel root, scan_struct fuel rest root = SFuel.
Proof. intros rest H1 H2 H3 fuel root. apply scan_loop_stuck; [exact H1|]. split; assumption. Qed.
Example C55_endless_example : scan_struct 1000 [128] true = SFuel /\ scan_struct 1000 [8; 1; 128] true = SFuel.
Proof. split; vm_compute; reflexivity. Qed.

(** It panics on field types 3, 4, 6 and 7, on a length that reaches beyond the
    input by no more than its own prefix, on a negative length, and on a length
    that does not fit 64 bits. *)
Theorem C55_panic_refuted :
  (forall typ bz, In typ [3; 4; 6; 7] -> scan_any typ bz = SPanic "should not happen"%string) /\
  scan_struct 10 [11] true = SPanic "should not happen"%string /\
  scan_struct 10 [10; 129; 0] true = SPanic "eof"%string /\
  scan_struct 10 ([10] ++ repeat 255 9 ++ [1]) true = SPanic "slice bounds out of range"%string /\
  scan_struct 10 ([10] ++ repeat 255 9 ++ [2]) true = SPanic "slice bounds out of range"%string.
Proof.
  split; [|splits; vm_compute; reflexivity].
  intros typ bz [<-|[<-|[<-|[<-|[]]]]]; reflexivity.
Qed.
Print Assumptions C55_parts.
Print Assumptions C55_terminates_partial.
Print Assumptions C55_endless_only_partial.
Print Assumptions C55_endless_refuted.
Print Assumptions C55_panic_refuted.

(** ** C61 *)

(** A message is shown entry by entry, each with its key, its length and its payload
    ([listing], SpecScan.v), and nothing else is shown without an error.  No entry, and
    no part of one, is left out. *)
Theorem C61_shown : forall bz l, listing bz l -> forall fuel, (length bz < fuel)%nat ->
  scan_struct fuel bz true = SRet l (length bz) None.
Proof. intros bz l H fuel Hf. exact (listing_scanned fuel bz l [] 0 Hf H). Qed.
Theorem C61_only : forall fuel bz s n, bytes_ok bz -> scan_struct fuel bz true = SRet s n None ->
  listing bz s /\ n = length bz.
Proof. intros fuel bz s n Hok H. apply scanned_listing in H; [|exact Hok]. destruct H as (l & Hl & -> & ->). split; [exact Hl|reflexivity]. Qed.
(** Bytes have at most one listing. *)
Theorem C61_unique : forall bz l l', listing bz l -> listing bz l' -> l = l'.
Proof.
  intros bz l l' H H'. pose proof (C61_shown bz l H (S (length bz)) (Nat.lt_succ_diag_r _)) as E.
  rewrite (C61_shown bz l' H' (S (length bz)) (Nat.lt_succ_diag_r _)) in E. congruence.
Qed.

Example C61_example :
  listing [8; 129; 0; 18; 2; 65; 66; 25; 1; 2; 3; 4; 5; 6; 7; 255; 37; 1; 2; 3; 255]
    [(Plain, [8]); (Cyan, [129; 0]); (Plain, [18]); (Cyan, [2]); (Green, [65; 66]); (Plain, [25]); (Blue, [1; 2; 3; 4; 5; 6; 7; 255]);
     (Plain, [37]); (Blue, [1; 2; 3; 255])].
Proof.
  assert (Hok : bytes_ok [8; 129; 0; 18; 2; 65; 66; 25; 1; 2; 3; 4; 5; 6; 7; 255; 37; 1; 2; 3; 255]) by (repeat (apply Forall_cons; [lia|]); apply Forall_nil).
  eapply (C61_only 30 _ _ 21%nat Hok). vm_compute. reflexivity.
Qed.
Print Assumptions C61_shown.
Print Assumptions C61_only.
Print Assumptions C61_unique.
