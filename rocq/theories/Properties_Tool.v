(** Property theorems about the aminoscan program: C72. *)
From Coq Require Import ZArith String List Bool Lia.
From Coq Require Import ZifyBool ZifyNat.
From Verif Require Import Base Prims SpecWire PrimFacts Types Codec EncFacts JsonText SpecJson JsonTextFacts Scan SpecScan ScanFacts Properties_Scan
  Print SpecPrint PrintFacts Tool SpecTool Demo.
Import ListNotations.
Local Open Scope Z_scope.

(** ** Text *)
Lemma treat_all_paint col s : hd 0 s <> 27 -> treat_all col s = col ++ s ++ reset.
Proof.
  intros H. unfold treat_all, treat. cbn [concat app]. rewrite app_nil_r.
  destruct ((2 <? length s)%nat && beqb (firstn 2 s) [27; 91]) eqn:E; [|reflexivity].
  destruct s as [|a s]; [discriminate|]. exfalso. apply H. cbn. destruct s; cbn in E; lia.
Qed.
Lemma hex_upper_hd b : bytes_ok b -> hd 0 (hex_upper b) <> 27.
Proof.
  intros H. destruct H as [|x b Hx H]; cbn; [lia|]. unfold upper_digit.
  assert (0 <= x / 16 < 16) by (split; [apply Z.div_pos|apply Z.div_lt_upper_bound]; lia). destruct (x / 16 <? 10); lia.
Qed.
Lemma color_paint b : bytes_ok b -> let h := hex_upper b in
  cyan h = paint "36" h /\ blue h = paint "34" h /\ green h = paint "32" h /\ red h = paint "31" h.
Proof.
  intros H h. pose proof (hex_upper_hd b H) as Hh. fold h in Hh.
  unfold cyan, blue, green, red. repeat rewrite (treat_all_paint _ h Hh). repeat split.
Qed.

(** A decimal numeral is what fmt prints. *)
Lemma numeral_fun b z : numeral b z -> forall b', numeral b' z -> b = b'.
Proof.
  assert (P : forall b z, numeral b z -> 0 <= z) by (induction 1; lia).
  induction 1 as [d Hd|b z d H IH Hz Hd]; intros b' H'; inversion H' as [d' Hd' E1 E2|b1 z1 d1 H1 Hz1 Hd1 E1 E2]; subst.
  - reflexivity.
  - pose proof (P _ _ H1). lia.
  - pose proof (P _ _ H). lia.
  - change (10 * z1 + d1 = 10 * z + d) in E2. assert (z1 = z /\ d1 = d) as [-> ->] by lia. rewrite (IH _ H1). reflexivity.
Qed.
Lemma decimal_itoa b z : decimal b z -> b = itoa z.
Proof.
  assert (P : forall b z, numeral b z -> 0 <= z) by (induction 1; lia).
  intros H. pose proof (itoa_ok z) as I. inversion H as [b0 z0 N|b0 z0 N Hn]; subst.
  - inversion I as [b1 z1 N1|b1 z1 N1 Hn1 E]; subst; [exact (numeral_fun _ _ N _ N1)|]. pose proof (P _ _ N). pose proof (P _ _ N1). lia.
  - inversion I as [b1 z1 N1|b1 z1 N1 Hn1 E F]; subst; [pose proof (P _ _ N); pose proof (P _ _ N1); lia|].
    assert (z1 = z0) as -> by lia. f_equal. exact (numeral_fun _ _ N _ N1).
Qed.

(** ** The scanner with and without text *)
Definition paint_part (p : part) : bytes :=
  match fst p with
  | Plain => hex_upper (snd p)
  | Cyan => cyan (hex_upper (snd p))
  | Blue => blue (hex_upper (snd p))
  | Green => green (hex_upper (snd p))
  end.
Definition text_of (l : list part) : bytes := concat (map paint_part l).
Lemma text_app a b : text_of (a ++ b) = text_of a ++ text_of b.
Proof. unfold text_of. rewrite map_app, concat_app. reflexivity. Qed.
Definition agree (r : sres) : tout :=
  match r with SRet l n e => TRet (text_of l) n e | SPanic p => TPanic p | SFuel => TFuel end.

Lemma any_agree typ bz ind : snd (tool_any typ bz ind) = agree (scan_any typ bz).
Proof.
  unfold tool_any, scan_any. destruct (typ =? Typ3Varint); [|destruct (typ =? Typ38Byte); [|destruct (typ =? Typ3ByteLength); [|destruct (typ =? Typ3_4Byte); [|reflexivity]]]].
  - unfold tool_varint, scan_varint. destruct (varint bz) as [i n]. destruct (uvarint bz) as [u n']. cbv zeta.
    destruct (_ && _); cbn [snd agree]; [reflexivity|]. unfold text_of. cbn [map concat]. rewrite app_nil_r. reflexivity.
  - unfold tool_8byte, scan_8byte. destruct (_ <? 8)%nat; [reflexivity|]. cbn [snd agree]. unfold text_of. cbn [map concat]. rewrite app_nil_r. reflexivity.
  - unfold tool_byte_length, scan_byte_length, tool_slide, scan_slide. destruct (uvarint bz) as [u n]. cbv zeta.
    destruct (_ <=? _); [reflexivity|]. destruct (n <? 0); [reflexivity|]. destruct (_ <? _)%nat; [reflexivity|].
    destruct (_ <? 0); [reflexivity|]. destruct (_ <? _)%nat; [reflexivity|]. cbn [snd agree]. unfold text_of. cbn [map concat]. rewrite app_nil_r. reflexivity.
  - unfold tool_4byte, scan_4byte. destruct (_ <? 4)%nat; [reflexivity|]. cbn [snd agree]. unfold text_of. cbn [map concat]. rewrite app_nil_r. reflexivity.
Qed.
Lemma key_agree bz ind : exists p l typ n e, tool_field_key bz ind = (p, (text_of l, typ, n, e)) /\ scan_field_key bz = (l, typ, n, e).
Proof.
  unfold tool_field_key, scan_field_key. destruct (uvarint bz) as [u n]. destruct (n <? 0); [do 5 eexists; split; [|reflexivity]; reflexivity|].
  do 5 eexists. split; [|reflexivity]. unfold text_of. cbn [map concat paint_part fst snd]. rewrite app_nil_r. reflexivity.
Qed.
Lemma loop_agree : forall fuel root ind bz l n, snd (tool_loop fuel root ind bz (text_of l) n) = agree (scan_loop fuel root bz l n).
Proof.
  induction fuel as [|fuel IH]; intros root ind bz l n; [reflexivity|]. cbn [tool_loop scan_loop].
  destruct (root && _); [reflexivity|]. destruct (key_agree bz (ind ++ bs "  ")) as (p1 & l1 & typ & n1 & e1 & -> & ->).
  unfold after, tool_slide, scan_slide. destruct (_ <? n1)%nat; [reflexivity|]. cbn [snd]. destruct e1 as [e1|].
  - cbn [snd agree]. rewrite text_app. reflexivity.
  - pose proof (any_agree typ (skipn n1 bz) (ind ++ bs "  ")) as A. destruct (tool_any typ (skipn n1 bz) _) as [p2 r]. cbn [snd] in A. subst r.
    destruct (scan_any typ (skipn n1 bz)) as [l2 n2 e2|p|]; cbn [agree snd]; try reflexivity.
    destruct (_ <? n2)%nat; [reflexivity|]. cbn [snd]. rewrite <- !text_app, <- app_assoc. destruct e2 as [e2|]; [reflexivity|]. apply IH.
Qed.
(** The scanner that prints returns what the scanner of C55 and C61 returns, with the
    bytes as colored text. *)
Theorem C72_same : forall fuel bz ind root,
  snd (tool_struct fuel bz ind root) =
  match scan_struct fuel bz root with
  | SRet l n e => TRet (text_of l) n e
  | SPanic p => TPanic p
  | SFuel => TFuel
  end.
Proof. intros fuel bz ind root. exact (loop_agree fuel root ind bz [] 0). Qed.

(** ** What is printed for a message *)
Lemma key_printed key num wt typ rest line ind : 0 <= wt < 8 -> num64 key (num * 8 + wt) -> typ3_string wt = bs typ ->
  ind = bs "  " -> key_line key num typ line ->
  tool_field_key (key ++ rest) ind = (line, (hex_upper key, wt, length key, None)).
Proof.
  intros Hw K T -> (hk & dn & Hk & Hd & ->). unfold tool_field_key. destruct (num64_uvarint _ _ rest K) as [-> P]. destruct (zlen key <? 0) eqn:E; [lia|].
  cbv zeta. rewrite firstn_zlen.
  assert (L : Z.land (num * 8 + wt) 7 = wt). { change 7 with (Z.ones 3). rewrite Z.land_ones by lia. change (2 ^ 3) with 8. rewrite Z.add_comm, Z.mod_add by lia. apply Z.mod_small. lia. }
  assert (Sr : Z.shiftr (num * 8 + wt) 3 = num). { rewrite Z.shiftr_div_pow2 by lia. change (2 ^ 3) with 8. rewrite Z.div_add_l by lia. rewrite Z.div_small by lia. lia. }
  rewrite L, Sr, T. assert (Z.to_nat (zlen key) = length key) as -> by (unfold zlen; lia).
  rewrite (decimal_itoa _ _ Hd). change (u32 num) with (num mod 2 ^ 32).
  rewrite (hex_text_fun _ _ _ Hk (hex_upper_text _ (hex_text_bytes _ _ Hk))). repeat rewrite <- app_assoc. reflexivity.
Qed.

Lemma hexed p hp : hex_text p hp -> hp = hex_upper p /\ bytes_ok p.
Proof.
  intros H. pose proof (hex_text_bytes _ _ H) as B. split; [|exact B]. exact (hex_text_fun _ _ _ H (hex_upper_text _ B)).
Qed.
Lemma varint_printed p i hp di du rest : num64 p (zigzag i) -> hex_text p hp -> decimal di i -> decimal du (zigzag i) ->
  tool_any 0 (p ++ rest) (bs "  ") =
    (bs "  " ++ paint "36" hp ++ bs " (i64:" ++ di ++ bs " u64:" ++ du ++ bs ")" ++ [10], TRet (paint "36" hp) (length p) None).
Proof.
  intros K Hp Hi Hu. destruct (hexed _ _ Hp) as [-> Hb]. rewrite (decimal_itoa _ _ Hi), (decimal_itoa _ _ Hu).
  destruct (num64_uvarint _ _ rest K) as [H P]. unfold tool_any. change (0 =? Typ3Varint) with true. cbv iota. unfold tool_varint, varint.
  rewrite H. destruct K as (_ & Kr & _).
  assert (V : (if negb (Z.land (zigzag i) 1 =? 0) then Z.lnot (i64 (Z.shiftr (zigzag i) 1)) else i64 (Z.shiftr (zigzag i) 1)) = i).
  { pose proof (unzigzag_val (zigzag i) Kr) as U. unfold unzigzag in U. cbv zeta in U |- *. rewrite U. clear U. unfold zigzag in *.
    destruct (i <? 0) eqn:E.
    - replace (-2 * i - 1) with (1 + (- i - 1) * 2) by lia. rewrite Z.mod_add, Z.div_add by lia. change (1 mod 2) with 1. change (1 / 2) with 0. cbn [Z.eqb]. lia.
    - rewrite Z.mul_comm, Z.mod_mul, Z.div_mul by lia. reflexivity. }
  rewrite V. cbv zeta. destruct (zlen p <=? 0) eqn:E; [lia|]. rewrite Z.eqb_refl. cbn [negb andb]. rewrite firstn_zlen.
  destruct (color_paint p Hb) as (-> & _).
  assert (Z.to_nat (zlen p) = length p) as -> by (unfold zlen; lia).
  destruct (p ++ rest) as [|x y] eqn:Ep; [destruct p; [cbn in P; lia|discriminate]|].
  f_equal. repeat rewrite <- app_assoc. reflexivity.
Qed.
Lemma fixed_printed wt n p hp rest : (wt = 1 /\ n = 8%nat \/ wt = 5 /\ n = 4%nat) -> length p = n -> hex_text p hp ->
  tool_any wt (p ++ rest) (bs "  ") = (bs "  " ++ paint "34" hp ++ [10], TRet (paint "34" hp) (length p) None).
Proof.
  intros Hw L Hp. destruct (hexed _ _ Hp) as [-> Hb]. destruct (color_paint p Hb) as (_ & C & _).
  destruct (fixed_listed n p rest L) as [F1 F2]. unfold tool_any.
  destruct Hw as [[-> ->]|[-> ->]]; cbn [Z.eqb Typ3Varint Typ38Byte Typ3ByteLength Typ3_4Byte Pos.eqb];
    unfold tool_8byte, tool_4byte; rewrite F2, F1, C, L; reflexivity.
Qed.
Lemma len_printed n p hn hp dn rest : num64 n (zlen p) -> zlen p < 2 ^ 63 -> hex_text n hn -> hex_text p hp -> decimal dn (zlen p) ->
  tool_any 2 (n ++ p ++ rest) (bs "  ") =
    (bs "  " ++ paint "36" hn ++ paint "32" hp ++ bs " (" ++ dn ++ bs " bytes)" ++ [10],
     TRet (paint "36" hn ++ paint "32" hp) (length n + length p) None).
Proof.
  intros K L Hn Hp Hd. destruct (hexed _ _ Hn) as [-> Bn]. destruct (hexed _ _ Hp) as [-> Bp]. rewrite (decimal_itoa _ _ Hd).
  destruct (num64_uvarint _ _ (p ++ rest) K) as [H P]. unfold tool_any. change (2 =? Typ3Varint) with false.
  change (2 =? Typ38Byte) with false. change (2 =? Typ3ByteLength) with true. cbv iota. unfold tool_byte_length. rewrite H. cbv zeta.
  assert (I : i64 (zlen p) = zlen p). { unfold zlen in *. rewrite i64_small by lia. reflexivity. }
  rewrite I. destruct (zlen (n ++ p ++ rest) <=? zlen p) eqn:E1. { unfold zlen in *. rewrite !app_length in E1. lia. }
  destruct (zlen n <? 0) eqn:E2; [lia|]. unfold tool_slide. rewrite firstn_zlen, skipn_zlen.
  destruct (length (n ++ p ++ rest) <? _)%nat eqn:E3. { unfold zlen in *. rewrite app_length in E3. lia. }
  destruct (zlen p <? 0) eqn:E4; [unfold zlen in *; lia|]. rewrite firstn_zlen.
  destruct (length (p ++ rest) <? _)%nat eqn:E5. { unfold zlen in *. rewrite app_length in E5. lia. }
  destruct (color_paint n Bn) as (-> & _). destruct (color_paint p Bp) as (_ & _ & -> & _).
  assert (Z.to_nat (zlen n) = length n) as -> by (unfold zlen; lia). assert (Z.to_nat (zlen p) = length p) as -> by (unfold zlen; lia).
  f_equal. repeat rewrite <- app_assoc. reflexivity.
Qed.

Lemma loop_entry fuel key wt line p r p2 s2 s n : key ++ p ++ r <> [] ->
  tool_field_key (key ++ p ++ r) (bs "  ") = (line, (hex_upper key, wt, length key, None)) ->
  tool_any wt (p ++ r) (bs "  ") = (p2, TRet s2 (length p) None) ->
  tool_loop (S fuel) true [] (key ++ p ++ r) s n =
  after (line ++ p2) (tool_loop fuel true [] r ((s ++ hex_upper key) ++ s2) (n + length key + length p)).
Proof.
  intros Hne Hk Ha. cbn [tool_loop]. change ([] ++ bs "  ") with (bs "  ").
  destruct (length (key ++ p ++ r) =? 0)%nat eqn:Z0; [apply Nat.eqb_eq, length_zero_iff_nil in Z0; contradiction|].
  cbn [andb]. rewrite Hk. unfold tool_slide. rewrite skipn_length_app, Ha, skipn_length_app.
  destruct (_ <? length key)%nat eqn:E1; [rewrite app_length in E1; lia|].
  destruct (_ <? length p)%nat eqn:E2; [rewrite app_length in E2; lia|].
  unfold after. cbn [fst snd]. rewrite app_assoc. reflexivity.
Qed.
Lemma num64_nonnil b u : num64 b u -> b <> [].
Proof. intros ((ds & last & -> & _) & _) H. symmetry in H. exact (app_cons_not_nil _ _ _ H). Qed.
Lemma report_printed : forall bz lines, report bz lines -> forall fuel s n, (length bz < fuel)%nat ->
  exists txt, tool_loop fuel true [] bz s n = (concat lines, TRet txt (n + length bz) None).
Proof.
  induction 1 as [|key num k p i hp di du r l K KL P Hp Hi Hu R IH|key num k p hp r l K KL P Hp R IH
                 |key num k nb p hn hp dn r l K KL P B Hn Hp Hd R IH|key num k p hp r l K KL P Hp R IH]; intros fuel s n Hf.
  - destruct fuel; [lia|]. exists s. cbn. rewrite Nat.add_0_r. reflexivity.
  - pose proof (num64_nonnil _ _ K) as Hne. destruct fuel as [|fuel]; [lia|].
    erewrite (loop_entry fuel key 0 k p r _ _ s n); [|destruct key; [contradiction|discriminate]| |exact (varint_printed p i hp di du r P Hp Hi Hu)].
    + destruct (IH fuel ((s ++ hex_upper key) ++ paint "36" hp) (n + length key + length p)%nat) as (txt & ->).
      { rewrite !app_length in Hf. destruct key; [contradiction|]. cbn [length] in Hf. lia. }
      exists txt. unfold after. cbn [fst snd concat]. rewrite !app_length, <- app_assoc. do 2 f_equal. lia.
    + apply (key_printed key num 0 "(U)Varint"); [lia|rewrite Z.add_0_r; exact K|reflexivity|reflexivity|exact KL].
  - pose proof (num64_nonnil _ _ K) as Hne. destruct fuel as [|fuel]; [lia|].
    erewrite (loop_entry fuel key 1 k p r _ _ s n); [|destruct key; [contradiction|discriminate]| |exact (fixed_printed 1 8 p hp r ltac:(auto) P Hp)].
    + destruct (IH fuel ((s ++ hex_upper key) ++ paint "34" hp) (n + length key + length p)%nat) as (txt & ->).
      { rewrite !app_length in Hf. destruct key; [contradiction|]. cbn [length] in Hf. lia. }
      exists txt. unfold after. cbn [fst snd concat]. rewrite !app_length, <- app_assoc. do 2 f_equal. lia.
    + apply (key_printed key num 1 "8Byte"); [lia|exact K|reflexivity|reflexivity|exact KL].
  - pose proof (num64_nonnil _ _ K) as Hne. destruct fuel as [|fuel]; [lia|].
    pose proof (len_printed nb p hn hp dn r P B Hn Hp Hd) as A. rewrite app_assoc in A. rewrite (app_assoc nb) in *. rewrite <- app_length in A.
    erewrite (loop_entry fuel key 2 k (nb ++ p) r _ _ s n); [|destruct key; [contradiction|discriminate]| |exact A].
    + destruct (IH fuel ((s ++ hex_upper key) ++ paint "36" hn ++ paint "32" hp) (n + length key + length (nb ++ p))%nat) as (txt & ->).
      { rewrite !app_length in Hf. destruct key; [contradiction|]. cbn [length] in Hf. lia. }
      exists txt. unfold after. cbn [fst snd concat]. rewrite !app_length, <- app_assoc. do 2 f_equal. lia.
    + apply (key_printed key num 2 "ByteLength"); [lia|exact K|reflexivity|reflexivity|exact KL].
  - pose proof (num64_nonnil _ _ K) as Hne. destruct fuel as [|fuel]; [lia|].
    erewrite (loop_entry fuel key 5 k p r _ _ s n); [|destruct key; [contradiction|discriminate]| |exact (fixed_printed 5 4 p hp r ltac:(auto) P Hp)].
    + destruct (IH fuel ((s ++ hex_upper key) ++ paint "34" hp) (n + length key + length p)%nat) as (txt & ->).
      { rewrite !app_length in Hf. destruct key; [contradiction|]. cbn [length] in Hf. lia. }
      exists txt. unfold after. cbn [fst snd concat]. rewrite !app_length, <- app_assoc. do 2 f_equal. lia.
    + apply (key_printed key num 5 "4Byte"); [lia|exact K|reflexivity|reflexivity|exact KL].
Qed.

(** Every message has a report. *)
Lemma key_line_ex key num typ : bytes_ok key -> exists line, key_line key num typ line.
Proof. intros H. eexists. exists (hex_upper key), (itoa (num mod 2 ^ 32)). split; [apply hex_upper_text, H|]. split; [apply itoa_ok|reflexivity]. Qed.
Lemma num64_unzigzag u : 0 <= u < 2 ^ 64 -> exists i, zigzag i = u.
Proof.
  intros H. exists (if u mod 2 =? 0 then u / 2 else - (u / 2) - 1). unfold zigzag. pose proof (Z.div_mod u 2 ltac:(lia)). pose proof (Z.mod_pos_bound u 2 ltac:(lia)).
  destruct (u mod 2 =? 0) eqn:E; [destruct (u / 2 <? 0) eqn:E2; lia|]. assert (0 <= u / 2) by (apply Z.div_pos; lia). destruct (- (u / 2) - 1 <? 0) eqn:E2; lia.
Qed.
Lemma listing_report bz l : listing bz l -> bytes_ok bz -> exists lines, report bz lines.
Proof.
  induction 1 as [|key num p u r l K P R IH|key num p r l K P R IH|key num nb p r l K P B R IH|key num p r l K P R IH]; intros Hok.
  - exists []. constructor.
  - apply bytes_ok_app in Hok. destruct Hok as [Hk Hok]. apply bytes_ok_app in Hok. destruct Hok as [Hp Hr]. destruct (IH Hr) as (ls & Hl).
    destruct (key_line_ex key num "(U)Varint" Hk) as (k & KL). destruct P as (P1 & P2 & P3). destruct (num64_unzigzag u P2) as (i & <-).
    eexists. eapply rp_varint; [exact K|exact KL|split; [exact P1|split; [exact P2|exact P3]]|apply hex_upper_text, Hp|apply itoa_ok|apply itoa_ok|exact Hl].
  - apply bytes_ok_app in Hok. destruct Hok as [Hk Hok]. apply bytes_ok_app in Hok. destruct Hok as [Hp Hr]. destruct (IH Hr) as (ls & Hl).
    destruct (key_line_ex key num "8Byte" Hk) as (k & KL).
    eexists. eapply rp_64; [exact K|exact KL|exact P|apply hex_upper_text, Hp|exact Hl].
  - apply bytes_ok_app in Hok. destruct Hok as [Hk Hok]. apply bytes_ok_app in Hok. destruct Hok as [Hn Hok]. apply bytes_ok_app in Hok. destruct Hok as [Hp Hr]. destruct (IH Hr) as (ls & Hl).
    destruct (key_line_ex key num "ByteLength" Hk) as (k & KL).
    eexists. eapply rp_len; [exact K|exact KL|exact P|exact B|apply hex_upper_text, Hn|apply hex_upper_text, Hp|apply itoa_ok|exact Hl].
  - apply bytes_ok_app in Hok. destruct Hok as [Hk Hok]. apply bytes_ok_app in Hok. destruct Hok as [Hp Hr]. destruct (IH Hr) as (ls & Hl).
    destruct (key_line_ex key num "4Byte" Hk) as (k & KL).
    eexists. eapply rp_32; [exact K|exact KL|exact P|apply hex_upper_text, Hp|exact Hl].
Qed.

(** ** Hexadecimal input *)
Lemma from_hex_spec c d : from_hex c = Some d <-> hex_digit_of c d.
Proof.
  unfold hex_digit_of. split.
  - intros H. unfold from_hex in H.
    destruct ((48 <=? c) && (c <=? 57)) eqn:E1; [|destruct ((97 <=? c) && (c <=? 102)) eqn:E2; [|destruct ((65 <=? c) && (c <=? 70)) eqn:E3; [|discriminate]]];
      inversion H as [H']; clear H; (split; [lia|]).
    + left. assert (In c [48;49;50;51;52;53;54;55;56;57]) as K by (cbn; lia). repeat (destruct K as [<-|K]; [reflexivity|]). contradiction.
    + right. assert (In c [97;98;99;100;101;102]) as K by (cbn; lia). repeat (destruct K as [<-|K]; [reflexivity|]). contradiction.
    + left. assert (In c [65;66;67;68;69;70]) as K by (cbn; lia). repeat (destruct K as [<-|K]; [reflexivity|]). contradiction.
  - intros [H K]. assert (In d [0;1;2;3;4;5;6;7;8;9;10;11;12;13;14;15]) as I by (cbn; lia).
    destruct K as [-> | ->]; repeat (destruct I as [<-|I]; [reflexivity|]); contradiction.
Qed.
Lemma hex_decode_spec : forall n s b, (length s <= n)%nat -> (hex_decode s = Some b <-> hex_input s b).
Proof.
  induction n as [|n IH]; intros s b Hn.
  - destruct s; [|cbn in Hn; lia]. cbn [hex_decode]. split; intros H; inversion H; constructor.
  - destruct s as [|a [|c s]].
    + cbn [hex_decode]. split; intros H; inversion H; constructor.
    + cbn [hex_decode]. split; intros H; inversion H.
    + cbn [hex_decode]. cbn [length] in Hn. split; intros H.
      * destruct (from_hex a) as [x|] eqn:A; [|discriminate]. destruct (from_hex c) as [y|] eqn:C; [|discriminate].
        destruct (hex_decode s) as [r|] eqn:D; [|discriminate]. apply IH in D; [|lia]. inversion H as [H']; clear H.
        constructor; [apply from_hex_spec, A|apply from_hex_spec, C|exact D].
      * inversion H as [|? ? x y ? r HA HC HD]; subst. apply from_hex_spec in HA, HC. apply IH in HD; [|lia]. rewrite HA, HC, HD. reflexivity.
Qed.
(** hexDecode accepts exactly the hexadecimal texts, and panics on everything else. *)
Theorem C72_hex : forall s b, hex_decode s = Some b <-> hex_input s b.
Proof. intros s b. exact (hex_decode_spec (length s) s b (le_n _)). Qed.
Lemma hex_input_ok s b : hex_input s b -> bytes_ok b.
Proof. induction 1 as [|a b x y s r [HA _] [HB _] H IH]; constructor; [lia|exact IH]. Qed.

(** ** What can be read *)
Lemma plain_visible s : Forall (fun c => c <> 27) s -> forall b, visible (s ++ b) = s ++ visible b.
Proof.
  intros H b. unfold visible. induction H as [|c s Hc H IH]; [reflexivity|]. cbn [app visible_from].
  destruct (c =? 27) eqn:E; [lia|]. rewrite IH. reflexivity.
Qed.
Lemma paint_visible code s : In code ["31"; "32"; "34"; "36"]%string -> Forall (fun c => c <> 27) s ->
  forall b, visible (paint code s ++ b) = s ++ visible b.
Proof.
  intros Hc H b. unfold paint. repeat rewrite <- app_assoc.
  assert (E : forall r, visible ([27; 91] ++ bs code ++ [109] ++ r) = visible r).
  { intros r. cbn [In] in Hc. repeat (destruct Hc as [<-|Hc]; [reflexivity|]). contradiction. }
  rewrite E, plain_visible by exact H. reflexivity.
Qed.
Lemma hex_no_esc b : bytes_ok b -> Forall (fun c => c <> 27) (hex_upper b).
Proof.
  induction 1 as [|x b Hx H IH]; [constructor|]. unfold hex_upper. cbn [flat_map app]. fold (hex_upper b).
  assert (U : forall d, 0 <= d -> upper_digit d <> 27) by (intros d Hd; unfold upper_digit; destruct (d <? 10); lia).
  constructor; [apply U, Z.div_pos; lia|]. constructor; [apply U; apply Z.mod_pos_bound; lia|exact IH].
Qed.
Lemma hex_upper_app a b : hex_upper (a ++ b) = hex_upper a ++ hex_upper b.
Proof. unfold hex_upper. apply flat_map_app. Qed.
Lemma text_visible l : bytes_ok (shown l) -> forall b, visible (text_of l ++ b) = hex_upper (shown l) ++ visible b.
Proof.
  unfold text_of, shown. induction l as [|[c p] l IH]; intros H b; [reflexivity|]. cbn [map concat snd] in *. apply bytes_ok_app in H. destruct H as [Hp H].
  rewrite hex_upper_app, <- !app_assoc, <- IH by exact H. pose proof (hex_no_esc p Hp) as N.
  destruct (color_paint p Hp) as (C1 & C2 & C3 & C4). unfold paint_part. cbn [fst snd].
  destruct c; rewrite ?C1, ?C2, ?C3; [apply plain_visible, N|apply paint_visible; [cbn; auto|exact N]..].
Qed.

(** ** The program *)
Definition scans (parse : list bytes -> option (bool * bytes * list bytes)) (arg : bytes) (more : list bytes) (bz : bytes) : Prop :=
  hex_input arg bz /\ exists rest, parse (arg :: more) = Some (false, [], rest).

Lemma main_scans fuel env parse arg more bz : scans parse arg more bz ->
  tool_main fuel env parse (arg :: more) =
  let head := paint "33" (bs "## Root Struct (assumed)") ++ [10] in
  match tool_struct fuel bz [] true with
  | (p, TRet s n e) =>
      MEnd (head ++ p ++ paint "33" (bs "## Root Struct END") ++ [10] ++
            s ++ paint "31" (hex_upper (skipn n bz)) ++ bs " " ++ itoa (Z.of_nat n) ++ bs " " ++ print_err e ++ [10])
  | (p, TPanic m) => MPanics (head ++ p) m
  | (p, TFuel) => MLoop (head ++ p)
  end.
Proof.
  intros [Hx [rest Hp]]. unfold tool_main. rewrite Hp. cbn [length Nat.ltb Nat.leb]. pose proof (hex_input_ok _ _ Hx) as Hok.
  apply C72_hex in Hx. rewrite Hx. cbv zeta. destruct (tool_struct fuel bz [] true) as [p [s n e|m|]]; try reflexivity.
  destruct (color_paint (skipn n bz) (bytes_ok_skipn n bz Hok)) as (_ & _ & _ & ->). rewrite <- !app_assoc. reflexivity.
Qed.

(** Whenever the program comes to its end, its last line shows all the bytes of the input
    in hexadecimal, colored in part, how many were understood, and the error; and if there
    is none, the input is a sequence of entries. *)
Theorem C72_all_bytes : forall fuel env parse arg more bz out, scans parse arg more bz ->
  tool_main fuel env parse (arg :: more) = MEnd out ->
  exists front s hx n dn e, out = front ++ [10] ++ s ++ bs " " ++ dn ++ bs " " ++ print_err e ++ [10] /\
    visible s = hx /\ hex_text bz hx /\ decimal dn (Z.of_nat n) /\ (n <= length bz)%nat /\
    (e = None -> n = length bz /\ exists lines, report bz lines).
Proof.
  intros fuel env parse arg more bz out Hs H. pose proof (hex_input_ok _ _ (proj1 Hs)) as Hok. rewrite (main_scans fuel env parse arg more bz Hs) in H. cbv zeta in H.
  pose proof (C72_same fuel bz [] true) as A. destruct (tool_struct fuel bz [] true) as [p r] eqn:T. cbn [snd] in A. subst r.
  destruct (scan_struct fuel bz true) as [l n e| |] eqn:E; try discriminate H.
  destruct (C55_parts _ _ _ _ _ _ E) as [Hn Hl]. fold (shown l) in Hl.
  exists (paint "33" (bs "## Root Struct (assumed)") ++ [10] ++ p ++ paint "33" (bs "## Root Struct END")),
    (text_of l ++ paint "31" (hex_upper (skipn n bz))), (hex_upper bz), n, (itoa (Z.of_nat n)), e.
  split; [apply (f_equal (fun r => match r with MEnd o => o | _ => [] end)) in H; rewrite <- H; repeat rewrite <- app_assoc; reflexivity|].
  split. { rewrite text_visible by (rewrite Hl; apply bytes_ok_firstn, Hok).
    rewrite <- (app_nil_r (paint "31" _)), paint_visible; [|cbn; auto|apply hex_no_esc, bytes_ok_skipn, Hok].
    rewrite Hl. cbn [visible visible_from]. rewrite app_nil_r, <- hex_upper_app, firstn_skipn. reflexivity. }
  split; [apply hex_upper_text, Hok|]. split; [apply itoa_ok|]. split; [exact Hn|].
  intros ->. destruct (C61_only _ _ _ _ Hok E) as [L ->]. split; [reflexivity|]. exact (listing_report _ _ L Hok).
Qed.
(** For a sequence of entries, each one is reported, with its number, type and meaning. *)
Theorem C72_report : forall fuel env parse arg more bz lines, scans parse arg more bz -> report bz lines -> (length bz < fuel)%nat ->
  exists s hx dn, tool_main fuel env parse (arg :: more) =
    MEnd (paint "33" (bs "## Root Struct (assumed)") ++ [10] ++ concat lines ++ paint "33" (bs "## Root Struct END") ++ [10] ++
          s ++ bs " " ++ dn ++ bs " <nil>" ++ [10]) /\
    visible s = hx /\ hex_text bz hx /\ decimal dn (zlen bz).
Proof.
  intros fuel env parse arg more bz lines Hs R Hf. pose proof (hex_input_ok _ _ (proj1 Hs)) as Hok. rewrite (main_scans fuel env parse arg more bz Hs). cbv zeta.
  destruct (report_printed bz lines R fuel [] 0 Hf) as (txt & T). fold (tool_struct fuel bz [] true) in T. rewrite T.
  pose proof (C72_same fuel bz [] true) as A. rewrite T in A. cbn [snd] in A.
  destruct (scan_struct fuel bz true) as [l n e| |] eqn:E; try discriminate A. inversion A; subst txt n e; clear A.
  destruct (C55_parts _ _ _ _ _ _ E) as [Hn Hl]. fold (shown l) in Hl. rewrite firstn_all in Hl.
  exists (text_of l ++ paint "31" (hex_upper (skipn (length bz) bz))), (hex_upper bz), (itoa (zlen bz)).
  split; [repeat rewrite <- app_assoc; reflexivity|].
  split. { rewrite text_visible by (rewrite Hl; exact Hok). rewrite skipn_all, Hl. cbn. apply app_nil_r. }
  split; [apply hex_upper_text, Hok|apply itoa_ok].
Qed.

(** With --color, different bytes give different text. *)
Lemma colored_cons x b : 0 <= x < 256 -> colored_bytes (x :: b) green blue =
  (if (33 <=? x) && (x <? 127) then paint "32" [x] else paint "34" (hex_upper [x])) ++ colored_bytes b green blue.
Proof.
  intros Hx. unfold colored_bytes at 1. cbn [flat_map]. fold (colored_bytes b green blue). f_equal.
Qed.
Lemma hex_byte_inj x y : 0 <= x < 256 -> 0 <= y < 256 -> hex_upper [x] = hex_upper [y] -> x = y.
Proof.
  intros Hx Hy H. unfold hex_upper in H. cbn [flat_map app] in H. injection H as H1 H2.
  assert (U : forall a b, 0 <= a < 16 -> 0 <= b < 16 -> upper_digit a = upper_digit b -> a = b).
  { intros a b Ha Hb. unfold upper_digit. destruct (a <? 10) eqn:E1, (b <? 10) eqn:E2; lia. }
  apply U in H1; [|split; [apply Z.div_pos|apply Z.div_lt_upper_bound]; lia..].
  apply U in H2; [|apply Z.mod_pos_bound; lia..]. rewrite (Z.div_mod x 16), (Z.div_mod y 16) by lia. lia.
Qed.
Lemma colored_inj : forall b b', bytes_ok b -> bytes_ok b' -> colored_bytes b green blue = colored_bytes b' green blue -> b = b'.
Proof.
  induction b as [|x b IH]; intros b' Hb Hb' H.
  - destruct b' as [|y b']; [reflexivity|]. inversion Hb'; subst. rewrite colored_cons in H by assumption. destruct (_ && _); discriminate H.
  - inversion Hb; subst. destruct b' as [|y b']. { rewrite colored_cons in H by assumption. destruct (_ && _); discriminate H. }
    inversion Hb'; subst. rewrite !colored_cons in H by assumption.
    destruct ((33 <=? x) && (x <? 127)) eqn:E1, ((33 <=? y) && (y <? 127)) eqn:E2; try discriminate H.
    + change (paint "32" [x]) with ([27; 91; 51; 50; 109] ++ [x] ++ [27; 91; 48; 109]) in H. change (paint "32" [y]) with ([27; 91; 51; 50; 109] ++ [y] ++ [27; 91; 48; 109]) in H.
      cbn [app] in H. injection H as -> H. f_equal. apply IH; assumption.
    + assert (Hxy : x = y).
      { apply hex_byte_inj; [assumption..|]. unfold hex_upper. cbn [flat_map app]. unfold hex_upper in H. cbn [flat_map app] in H.
        unfold paint in H. cbn [app] in H. injection H as Q1 Q2 _. congruence. }
      subst y. f_equal. apply IH; [assumption..|]. exact (app_inv_head _ _ _ H).
Qed.
Theorem C72_color : forall fuel env parse args args' a r a' r' bz bz' out n n',
  parse args = Some (true, n, a :: r) -> parse args' = Some (true, n', a' :: r') ->
  args <> [] -> args' <> [] -> hex_input a bz -> hex_input a' bz' -> bz <> [] -> bz' <> [] ->
  tool_main fuel env parse args = MEnd out -> tool_main fuel env parse args' = MEnd out -> bz = bz'.
Proof.
  assert (G : forall fuel env parse args a r bz out n, parse args = Some (true, n, a :: r) -> args <> [] -> hex_input a bz -> bz <> [] ->
    tool_main fuel env parse args = MEnd out -> bytes_ok bz /\ out = colored_bytes bz green blue ++ [10]).
  { intros fuel env parse args a r bz out n P Ne X Nz H. split; [exact (hex_input_ok _ _ X)|]. destruct args as [|a0 args]; [contradiction|].
    unfold tool_main in H. rewrite P in H. destruct a as [|c a]; [inversion X; congruence|]. apply C72_hex in X. rewrite X in H.
    apply (f_equal (fun r => match r with MEnd o => o | _ => [] end)) in H. symmetry. exact H. }
  intros fuel env parse args args' a r a' r' bz bz' out n n' P P' Ne Ne' X X' Nz Nz' H H'.
  destruct (G _ _ _ _ _ _ _ _ _ P Ne X Nz H) as [Hok E]. destruct (G _ _ _ _ _ _ _ _ _ P' Ne' X' Nz' H') as [Hok' E'].
  rewrite E in E'. apply app_inv_tail in E'. exact (colored_inj _ _ Hok Hok' E').
Qed.

(** With --concrete-name, the disambiguation and prefix bytes of the name are shown, as
    RegisterConcrete uses them. *)
Theorem C72_name : forall fuel env parse args name rest d p, args <> [] -> parse args = Some (false, name, rest) -> name <> [] ->
  name_to_disfix env name = EOk (d, p) -> bytes_ok d -> bytes_ok p ->
  exists hd hp, hex_text d hd /\ hex_text p hp /\
    tool_main fuel env parse args = MEnd (bs "Disamb bytes: " ++ hd ++ [10] ++ bs "Prefix bytes: " ++ hp ++ [10]).
Proof.
  intros fuel env parse args name rest d p Ne P Nn D Hd Hp. exists (hex_upper d), (hex_upper p).
  split; [apply hex_upper_text, Hd|]. split; [apply hex_upper_text, Hp|].
  destruct args as [|a args]; [contradiction|]. unfold tool_main. rewrite P. destruct name as [|c name]; [contradiction|].
  cbn [length Nat.ltb Nat.leb]. rewrite D. reflexivity.
Qed.

(** A number of 33 bits or more is shown modulo 2^32: this is key 1 of a message whose
    only entry has number 2^32 + 1. *)
Theorem C72_number_refuted : exists key num line,
  num64 key (num * 8) /\ 2 ^ 32 < num /\
  tool_field_key key (bs "  ") = (line, (hex_upper key, 0, length key, None)) /\
  line = bs "  8880808080" ++ bs "01 @1 (U)Varint" ++ [10].
Proof.
  exists [136; 128; 128; 128; 128; 1], (2 ^ 32 + 1), (bs "  8880808080" ++ bs "01 @1 (U)Varint" ++ [10]).
  split; [|split; [lia|split; [vm_compute; reflexivity|reflexivity]]].
  split; [|split; [lia|cbn; lia]]. exists [8; 0; 0; 0; 0], 1.
  split; [reflexivity|]. split; [repeat constructor; unfold digit128; lia|]. split; [unfold digit128; lia|vm_compute; reflexivity].
Qed.
(** The bytes are taken from the first argument, not from the first one that is no flag. *)
Theorem C72_argument_refuted : exists parse args rest arg bz,
  parse args = Some (false, [], arg :: rest) /\ hex_input arg bz /\
  forall fuel env, tool_main fuel env parse args = MPanics [] "encoding/hex"%string.
Proof.
  exists (fun _ => Some (false, [], [bs "0801"])), [bs "-color=false"; bs "0801"], [], (bs "0801"), [8; 1].
  split; [reflexivity|]. split; [apply C72_hex; reflexivity|]. intros. reflexivity.
Qed.

Definition no_flags (args : list bytes) : option (bool * bytes * list bytes) := Some (false, [], args).
Example C72_example :
  scans no_flags (bs "080312026869") [] [8; 3; 18; 2; 104; 105] /\
  tool_main 10 demo no_flags [bs "080312026869"] =
  MEnd (paint "33" (bs "## Root Struct (assumed)") ++ [10] ++
    bs "  08 @1 (U)Varint" ++ [10] ++ bs "  " ++ paint "36" (bs "03") ++ bs " (i64:-2 u64:3)" ++ [10] ++
    bs "  12 @2 ByteLength" ++ [10] ++ bs "  " ++ paint "36" (bs "02") ++ paint "32" (bs "6869") ++ bs " (2 bytes)" ++ [10] ++
    paint "33" (bs "## Root Struct END") ++ [10] ++
    (bs "08" ++ paint "36" (bs "03") ++ bs "12" ++ paint "36" (bs "02") ++ paint "32" (bs "6869") ++ paint "31" []) ++ bs " 6 <nil>" ++ [10]).
Proof.
  split; [split; [apply C72_hex; vm_compute; reflexivity|eexists; reflexivity]|]. vm_compute. reflexivity.
Qed.
Print Assumptions C72_same.
Print Assumptions C72_hex.
Print Assumptions C72_all_bytes.
Print Assumptions C72_report.
Print Assumptions C72_color.
Print Assumptions C72_name.
Print Assumptions C72_number_refuted.
Print Assumptions C72_argument_refuted.
