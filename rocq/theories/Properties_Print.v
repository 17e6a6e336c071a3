(** Property theorem about PrintTypes: C71. *)
From Coq Require Import ZArith String List Bool Lia.
From Coq Require Import ZifyBool ZifyNat.
From Verif Require Import Base Prims Types Codec Registry SpecRegistry RegistryFacts RegistryProps Stream SpecStream StreamFacts
  PrimFacts EncFacts Demo DemoFacts Print SpecPrint PrintFacts.
Import ListNotations.
Local Open Scope Z_scope.

Lemma length_str_spec env pe t : 0 <= pe_size pe t < 2 ^ 64 ->
  sized_kind env pe t /\ (exists x, length_str env pe t = bs "0x" ++ x /\ hex_number (pe_size pe t) x) \/
  ~ sized_kind env pe t /\ length_str env pe t = bs "variable".
Proof.
  intros Hs. assert (N : exists x, bs "0x" ++ hex_num (pe_size pe t) = bs "0x" ++ x /\ hex_number (pe_size pe t) x).
  { eexists. split; [reflexivity|]. apply hex_num_number; [exact Hs|lia]. }
  unfold length_str, sized_kind. destruct (resolve env t) as [p| |n e| | | | | | | |] eqn:R.
  - destruct p; try (left; split; [right; left; eexists; split; [reflexivity|cbn; tauto]|exact N]);
      (right; split; [|reflexivity]; intros [(n & e & X)|[(q & X & Y)|[X _]]]; try discriminate X; inversion X; subst q; cbn in Y;
       repeat (destruct Y as [Y|Y]; [discriminate Y|]); contradiction).
  - right; split; [|reflexivity]; intros [(n & e & X)|[(q & X & Y)|[X _]]]; discriminate X.
  - left. split; [left; eauto|exact N].
  - right; split; [|reflexivity]; intros [(n & x & X)|[(q & X & Y)|[X _]]]; discriminate X.
  - right; split; [|reflexivity]; intros [(n & x & X)|[(q & X & Y)|[X _]]]; discriminate X.
  - right; split; [|reflexivity]; intros [(n & x & X)|[(q & X & Y)|[X _]]]; discriminate X.
  - right; split; [|reflexivity]; intros [(n & x & X)|[(q & X & Y)|[X _]]]; discriminate X.
  - destruct (pe_complex pe t) eqn:C; [left; split; [right; right; auto|exact N]|].
    right; split; [|reflexivity]; intros [(n & x & X)|[(q & X & Y)|[X Y]]]; discriminate.
  - right; split; [|reflexivity]; intros [(n & x & X)|[(q & X & Y)|[X _]]]; discriminate X.
  - right; split; [|reflexivity]; intros [(n & x & X)|[(q & X & Y)|[X _]]]; discriminate X.
  - right; split; [|reflexivity]; intros [(n & x & X)|[(q & X & Y)|[X _]]]; discriminate X.
Qed.

Lemma strings_wrote W (write : W -> bytes -> nat * option error * W) : writer_ok write -> forall l w log f,
  wrote W log f (write_strings _ (watched_write write) (w, log, f) l) (concat l) None.
Proof.
  intros Hok. induction l as [|s l IH]; intros w log f; cbn [write_strings concat]; [apply none_wrote|].
  apply (then_wrote W); [apply (write_wrote W write Hok)|]. intros. apply IH.
Qed.

(** [out] is the table of all types registered by a history of successful calls: one row
    for each RegisterConcrete, in order. *)
Definition is_table (env : tenv) (pe : penv) (h : list op) (out : bytes) : Prop :=
  exists rows, Forall2 (table_row env pe) (conc_calls h) rows /\ out = table_head ++ concat rows.

Lemma strip_zeros_ok b : bytes_ok b -> bytes_ok (strip_zeros b).
Proof. induction 1 as [|x b Hx Hb IH]; [constructor|]. cbn [strip_zeros]. destruct x; [exact IH|constructor; assumption..]. Qed.
Lemma prefix_bytes env n d p : wf_env env -> name_to_disfix env n = EOk (d, p) -> bytes_ok p.
Proof.
  intros Hw. unfold name_to_disfix. cbv zeta. destruct (_ <? 3)%nat; [discriminate|]. destruct (_ <? 4)%nat; [discriminate|].
  intros H. apply EOk_inj in H. apply (f_equal snd) in H. cbn [snd] in H. rewrite <- H. apply bytes_ok_firstn, strip_zeros_ok, bytes_ok_skipn, strip_zeros_ok, (we_hash_ok _ Hw).
Qed.

Lemma rows_table env pe : wf_env env -> (forall t, 0 <= pe_size pe t < 2 ^ 64) ->
  forall calls cs, emap (reg_call env) calls = EOk cs ->
  exists rows, Forall2 (table_row env pe) calls rows /\ concat (flat_map (types_row env pe) cs) = concat rows.
Proof.
  intros Hh Hs. induction calls as [|[t n] calls IH]; intros cs H; cbn [emap] in H.
  - inversion H. exists []. split; [constructor|reflexivity].
  - destruct (reg_call env (t, n)) as [ci| | |] eqn:R; cbn [ebind] in H; try discriminate.
    destruct (emap (reg_call env) calls) as [cs'| | |] eqn:E; cbn [ebind] in H; try discriminate. inversion H; subst cs.
    destruct (IH cs' eq_refl) as (rows & HR & Hc).
    unfold reg_call, new_registered_info in R. cbn [fst snd] in *.
    destruct (new_type_info env (conc_of t)) as [ci0| | |] eqn:Ni; cbn [ebind] in R; try discriminate.
    destruct (name_to_disfix env n) as [[d p]| | |] eqn:D; cbn [ebind] in R; try discriminate. inversion R; subst ci; clear R.
    assert (T : ci_type ci0 = conc_of t).
    { unfold new_type_info in Ni. destruct (conc_of t); try discriminate;
        destruct (parse_struct_info _ _); cbn [ebind] in Ni; try discriminate; destruct (marshal_repr _ _); cbn [ebind] in Ni; try discriminate;
        destruct (unmarshal_repr _ _); cbn [ebind] in Ni; try discriminate; inversion Ni; reflexivity. }
    eexists (_ :: rows). split; [constructor; [|exact HR]|].
    + unfold table_row. cbn [fst snd]. exists d, p, (hex_upper p), (length_str env pe (conc_of t)).
      split; [exact D|]. split; [|split; [|reflexivity]].
      * exact (hex_upper_text _ (prefix_bytes env n d p Hh D)).
      * apply length_str_spec, Hs.
    + cbn [flat_map concat]. rewrite concat_app, Hc. f_equal. unfold types_row. cbn [ci_reg ri_name ri_prefix ci_type snd concat]. rewrite T.
      repeat rewrite <- ?app_assoc, ?app_nil_r. reflexivity.
Qed.

(** C71 PrintTypes writes one row for every registered type, in the order of registration.
    Whatever a contract-keeping writer does, what it took is the beginning of the table,
    and it took all of it exactly when PrintTypes returns nil. *)
Theorem C71_table : forall env pe, wf_env env -> (forall t, 0 <= pe_size pe t < 2 ^ 64) ->
  forall h, clean env new_codec h = true ->
  forall W (write : W -> bytes -> nat * option error * W), writer_ok write ->
  forall w, exists out e w' log failed,
    is_table env pe h out /\
    print_types _ (watched_write write) env pe (run env new_codec h) (w, [], false) = WRet e (w', log, failed) /\
    (exists rest, out = log ++ rest) /\ (e = None -> log = out) /\ (failed = true <-> e <> None).
Proof.
  intros env pe Hw Hs h C W write Hok w. destruct (run_registered env h new_codec C) as (cs & is & R1 & R2 & _).
  cbn [new_codec cd_concretes app] in R2.
  destruct (rows_table env pe Hw Hs _ _ R1) as (rows & HR & Hc).
  unfold print_types. rewrite R2.
  destruct (strings_wrote W write Hok (types_header ++ flat_map (types_row env pe) cs) w [] false)
    as (e & w' & acc & f & E & P & N & F & G).
  exists (table_head ++ concat rows), e, w', acc, f.
  assert (X : concat (types_header ++ flat_map (types_row env pe) cs) = table_head ++ concat rows) by (rewrite concat_app, Hc; reflexivity).
  rewrite X in *. split; [exists rows; split; [exact HR|reflexivity]|]. split; [exact E|]. split; [exact P|].
  split; [intros K; apply N, K|]. apply F; reflexivity.
Qed.

(** The table is determined by the registrations: no two texts are tables of one history. *)
Theorem C71_unique : forall env pe h out out', is_table env pe h out -> is_table env pe h out' -> out = out'.
Proof.
  intros env pe h out out' (rows & H & ->) (rows' & H' & ->). f_equal. f_equal. revert rows' H'.
  induction H as [|c r cs rows Hr H IH]; intros rows' H'; inversion H' as [|? r' ? rows'' Hr' H'']; subst; [reflexivity|].
  rewrite (IH _ H''). f_equal. clear - Hr Hr'.
  destruct Hr as (d & p & hex & len & D & X & L & ->), Hr' as (d' & p' & hex' & len' & D' & X' & L' & ->).
  rewrite D in D'. apply EOk_inj in D'. inversion D'; subst d' p'. rewrite (hex_text_fun _ _ _ X X').
  assert (len = len') as ->; [|reflexivity].
  destruct L as [[K (x & -> & N)]|[K ->]], L' as [[K' (x' & -> & N')]|[K' ->]]; try contradiction; [|reflexivity].
  rewrite (hex_number_fun _ _ N _ N'). reflexivity.
Qed.

(** A program with three registered types: a struct, a [4]byte and an int32; the third
    registered through a pointer. *)
Definition print_env : penv :=
  {| pe_name := fun t => match t with TNamed 0%nat => bs "Foo" | TNamed 7%nat => bs "ConcreteTypeDef" | TNamed 12%nat => bs "Temp" | _ => bs "T" end;
     pe_size := fun t => match t with TNamed 0%nat => 16 | _ => 4 end;
     pe_complex := fun _ => false |}.
Definition print_history : list op :=
  [OConc t_foo (bs "foo"); OConc t_typedef (bs "typedef"); OUse t_foo; OConc (TPtr t_temp) (bs "temp")].
Example C71_example :
  wf_env demo /\ (forall t, 0 <= pe_size print_env t < 2 ^ 64) /\ clean demo new_codec print_history = true /\
  print_types _ (watched_write (fun (u : unit) bz => (length bz, None, u))) demo print_env (run demo new_codec print_history) (tt, [], false) =
  WRet None (tt,
    table_head ++ bs "| Foo | foo | 0x6B68FFC6 | variable |  |" ++ [10] ++ bs "| ConcreteTypeDef | typedef | 0x01BA53F2 | 0x4 |  |" ++ [10] ++
    bs "| Temp | temp | 0xB339B0E1 | 0x4 |  |" ++ [10], false).
Proof.
  split; [exact demo_wf|]. split; [intros t; cbn; repeat (match goal with |- context [match ?x with _ => _ end] => destruct x end); lia|]. split; vm_compute; reflexivity.
Qed.
Print Assumptions C71_table.
Print Assumptions C71_unique.
