(** Length-prefixed messages cut short, continued or put one after another: C82. *)
From Coq Require Import ZArith String List Bool Lia.
From Coq Require Import ZifyBool ZifyNat.
From Verif Require Import Base Prims SpecWire PrimFacts PrimProps Types Codec BinEnc BinDec Amino Demo DemoFacts FuelFacts
  DecFacts Typing Registry SpecRegistry Sane DecSafe SpecNorm EncFacts RoundTrip TopFacts SpecSupported FrameFacts
  Properties_RoundTrip Stream SpecStream StreamFacts Properties_Stream SpecCut CutFacts.
Import ListNotations.
Local Open Scope Z_scope.

(** ** C82 *)

(** What MarshalBinaryLengthPrefixed writes, less any number of bytes at its end,
    is refused, whatever the receiving codec, type and variable; the variable
    keeps its contents. *)
Theorem C82_cut : forall k env c t v a b, marshal_length_prefixed k env c t v = EOk (a ++ b) -> b <> [] -> zlen (a ++ b) < 2 ^ 63 ->
  forall k' env' c' t' v0, exists e, unmarshal_length_prefixed k' env' c' a t' v0 = URet v0 (Some e).
Proof.
  intros k env c t v a b H Hb Hz k' env' c' t' v0. destruct (marshalled_framed _ _ _ _ _ _ H Hz) as (pre & body & F).
  exact (unmarshal_cut k' env' c' (a ++ b) pre body a b t' v0 F Hz eq_refl Hb).
Qed.

(** So is the message with more bytes after it. *)
Theorem C82_more : forall k env c t v bz x, marshal_length_prefixed k env c t v = EOk bz -> x <> [] -> zlen (bz ++ x) < 2 ^ 63 ->
  forall k' env' c' t' v0, exists e, unmarshal_length_prefixed k' env' c' (bz ++ x) t' v0 = URet v0 (Some e).
Proof.
  intros k env c t v bz x H Hx Hz k' env' c' t' v0. pose proof Hz as Hz'. rewrite zlen_app in Hz'. pose proof (zlen_nonneg x).
  destruct (marshalled_framed _ _ _ _ _ _ H ltac:(lia)) as (pre & body & F).
  exact (unmarshal_more k' env' c' bz pre body x t' v0 F Hz Hx).
Qed.

(** [bz] is a message: some value was written this way. *)
Definition message (bz : bytes) : Prop :=
  zlen bz < 2 ^ 63 /\ exists k env c t v, marshal_length_prefixed k env c t v = EOk bz.

(** The boundaries of messages put one after another are not a matter of
    interpretation: if some messages are the beginning of a stream of messages,
    they are its first messages.  In particular a stream is a sequence of messages
    in at most one way ([r = []]). *)
Theorem C82_boundaries : forall ms ms' r, Forall message ms -> Forall message ms' -> concat ms ++ r = concat ms' ->
  exists ms2, ms' = ms ++ ms2 /\ r = concat ms2.
Proof.
  induction ms as [|m ms IH]; intros ms' r H H' E; cbn [concat app] in E.
  - exists ms'. split; [reflexivity|exact E].
  - inversion H as [|? ? [Hz (k & env & c & t & v & Hm)] Hms]; subst.
    destruct (marshalled_framed _ _ _ _ _ _ Hm Hz) as (pre & body & F).
    destruct ms' as [|m' ms']; cbn [concat] in E.
    { exfalso. destruct F as (-> & (ds & last & -> & _) & _). destruct ds; discriminate E. }
    inversion H' as [|? ? [Hz' (k' & env' & c' & t' & v' & Hm')] Hms']; subst.
    destruct (marshalled_framed _ _ _ _ _ _ Hm' Hz') as (pre' & body' & F').
    rewrite <- app_assoc in E. destruct (framed_same _ _ _ _ _ _ _ _ F F' Hz Hz' E) as [-> E2].
    destruct (IH ms' r Hms Hms' E2) as (ms2 & -> & ->). exists ms2. split; reflexivity.
Qed.

(** A stream that ends before the message does: whatever pieces the reader
    delivers, and whether or not its error comes with the last of them, the call
    returns an error and the variable keeps its contents.  Unless the error comes
    with data, the count is that of the prefix bytes read, so it is zero exactly
    when the stream ended between messages. *)
Theorem C82_reader_cut : forall S (read : S -> nat -> bytes * option error * S) eof holds, chunked read eof holds -> ends read holds ->
  forall k env c t v a b, marshal_length_prefixed k env c t v = EOk (a ++ b) -> b <> [] -> zlen (a ++ b) < 2 ^ 63 ->
  forall fuel alloc unm v0 s max, 0 <= max < 2 ^ 63 -> (forall l, l < zlen (a ++ b) -> alloc l = true) -> (length (a ++ b) <= fuel)%nat ->
  holds s a ->
  exists n e s', unmarshal_reader S read fuel alloc unm v0 s max = RRet n v0 (Some e) s' /\
    (eof = false -> 0 <= n <= zlen a /\ (n = 0 <-> a = [])).
Proof.
  intros S read eof holds Hch Hend k env c t v a b H Hb Hz fuel alloc unm v0 s max Hm Ha Hf Hs.
  destruct (marshalled_framed _ _ _ _ _ _ H Hz) as (pre & body & F).
  assert (Hp : 0 < zlen pre).
  { destruct F as (_ & (ds & last & -> & _) & _). unfold zlen. rewrite app_length. cbn [length]. lia. }
  assert (L : zlen (a ++ b) = zlen pre + zlen body) by (destruct F as (-> & _); apply zlen_app).
  destruct (reader_cut S read eof holds Hch Hend fuel alloc unm v0 s max (a ++ b) pre body a b F Hz Hm) as (n & e & s' & Hr & Hn);
    [apply Ha; lia|unfold zlen in L; lia|reflexivity|exact Hb|exact Hs|].
  exists n, e, s'. split; [exact Hr|]. intros X. rewrite (Hn X). pose proof (zlen_nonneg a).
  split; [lia|]. destruct a as [|a0 a1]; [split; [reflexivity|intros _; unfold zlen; cbn [length]; lia]|].
  split; [|discriminate]. unfold zlen in *. cbn [length]. lia.
Qed.

(** Hence a stream of messages of supported types, cut anywhere: the whole
    messages are read back in order, each in its normal form, and then a call
    returns an error.  Missing: what is missing in [C21_stream_partial]. *)
Theorem C82_stream_partial : forall env h mem, wf_env env -> marshal_typed env -> clean env new_codec h = true ->
  supported env (run env new_codec h) mem ->
  forall W (write : W -> bytes -> nat * option error * W) S (read : S -> nat -> bytes * option error * S) eof holds,
  writer_ok write -> chunked read eof holds -> ends read holds ->
  forall k fd fuel alloc max msgs t v w w' log s a b, let c := run env new_codec h in
  Forall (fun m => mem (deref_type (fst m)) = true /\ struct_like env (deref_type (fst m)) = true /\ has_type env (fst m) (snd m) = true) msgs ->
  write_many (watched_write write) k env c (w, [], false) msgs = Some (w', log, false) ->
  marshal_length_prefixed k env c t v = EOk (a ++ b) -> b <> [] -> (eof = true -> a <> []) ->
  zlen log < 2 ^ 63 -> zlen (a ++ b) < 2 ^ 63 -> max = 0 \/ zlen log <= max < 2 ^ 63 -> (2 * k <= fd)%nat ->
  (length log <= fuel)%nat -> (length (a ++ b) <= fuel)%nat -> (forall l, alloc l = true) ->
  holds s (log ++ a) ->
  exists outs s', 
    read_many read fuel fd alloc env c max s (map (fun m => (fst m, zero env (fst m))) msgs) = Some (outs, s') /\
    Forall2 (fun m out => exists bz u nv, marshal_length_prefixed k env c (fst m) (snd m) = EOk bz /\ fst out = zlen bz /\
      under (snd m) = Some u /\ norm k env c (deref_type (fst m)) (set_num 1 no_opts) u = Some nv /\ snd out = ptrs (fst m) nv) msgs outs /\
    forall unm v0, exists n e s'', unmarshal_reader S read fuel alloc unm v0 s' max = RRet n v0 (Some e) s''.
Proof.
  intros env h mem We Hm Hc Hsup W write S read eof holds Hw Hch Hend k fd fuel alloc max msgs t v w w' log s a b c HF H Hl Hb He Hz Hz2 Hmax Hfd Hfuel Hfuel2 Ha F.
  destruct (C21_stream_partial env h mem We Hm Hc Hsup W write S read eof holds Hw Hch k fd fuel alloc max msgs w w' log s a HF H Hz Hmax Hfd Hfuel Ha F He)
    as (outs & s' & F' & Hr & Hf).
  exists outs, s'. split; [exact Hr|]. split; [exact Hf|]. intros unm v0. pose proof (zlen_nonneg log).
  destruct (C82_reader_cut S read eof holds Hch Hend k env c t v a b Hl Hb Hz2 fuel alloc unm v0 s' max ltac:(lia) ltac:(auto) Hfuel2 F') as (n & e & s'' & Hr2 & _).
  eauto.
Qed.

Lemma chunk_read_ends : ends chunk_read chunk_feeds.
Proof.
  intros s p [Hd Hne] Hp. destruct s as [|c s]; [cbn; eauto|]. inversion Hne as [|? ? Hc _]; subst.
  cbn [concat] in Hd. apply app_eq_nil in Hd. destruct Hd as [Hd _]. contradiction.
Qed.

(** A message of 133 bytes has a prefix of two; it is cut in the prefix, after it
    and in the body. *)
Definition t_text := TSlice (TPrim PUint8).
Definition long_text := VSlice (Some (repeat (VUint 7) 130)).
Example C82_example :
  chunked chunk_read false chunk_feeds /\ ends chunk_read chunk_feeds /\
  marshal_length_prefixed 5 demo new_codec t_text long_text = EOk ([133; 1; 10; 130; 1] ++ repeat 7 130) /\
  unmarshal_length_prefixed 5 demo new_codec ([133; 1; 10; 130; 1] ++ repeat 7 130) t_text (VSlice None) = URet long_text None /\
  unmarshal_length_prefixed 5 demo new_codec [133] t_text (VSlice None) = URet (VSlice None) (Some "Bytes left over"%string) /\
  unmarshal_length_prefixed 5 demo new_codec [133; 1] t_text (VSlice None) = URet (VSlice None) (Some "Not enough bytes to read"%string) /\
  unmarshal_length_prefixed 5 demo new_codec ([133; 1; 10; 130; 1] ++ repeat 7 129) t_text (VSlice None) = URet (VSlice None) (Some "Not enough bytes to read"%string) /\
  unmarshal_length_prefixed 5 demo new_codec ([133; 1; 10; 130; 1] ++ repeat 7 131) t_text (VSlice None) = URet (VSlice None) (Some "Bytes left over"%string) /\
  message [5; 8; 1; 16; 172; 2] /\ message [0] /\
  concat [[5; 8; 1; 16; 172; 2]] ++ [0; 0] = concat [[5; 8; 1; 16; 172; 2]; [0]; [0]] /\
  chunk_feeds [[5; 8]; [1; 16]] [5; 8; 1; 16] /\
  unmarshal_reader _ chunk_read 9 (fun _ => true) um_foo (foo 7 7) [[5; 8]; [1; 16]] 100 = RRet 1 (foo 7 7) (Some "unexpected EOF"%string) [] /\
  unmarshal_reader _ chunk_read 9 (fun _ => true) um_foo (foo 7 7) [] 100 = RRet 0 (foo 7 7) (Some "EOF"%string) [] /\
  read_many chunk_read 9 10 (fun _ => true) demo (run demo new_codec []) 9 [[5; 8]; [1; 16; 172]; [2; 2; 8]] [(t_foo, zero demo t_foo)]
    = Some ([(6, foo 1 300)], [[2; 8]]) /\
  unmarshal_reader _ chunk_read 9 (fun _ => true) um_foo (foo 7 7) [[2; 8]] 9 = RRet 1 (foo 7 7) (Some "unexpected EOF"%string) [].
Proof.
  split; [exact chunk_read_chunked|]. split; [exact chunk_read_ends|].
  do 6 (split; [vm_compute; reflexivity|]).
  split; [split; [reflexivity|]; exists 5%nat, demo, new_codec, t_foo, (foo 1 300); vm_compute; reflexivity|].
  split; [split; [reflexivity|]; exists 5%nat, demo, new_codec, t_foo, (foo 0 0); vm_compute; reflexivity|].
  split; [reflexivity|]. split; [split; [reflexivity|repeat constructor; discriminate]|].
  splits; vm_compute; reflexivity.
Qed.

(** None of this holds for the bare form: part of a message is a message, and two
    messages are one. *)
Theorem C82_bare_refuted : exists a b v va vb, b <> [] /\ v <> va /\
  marshal_bare 5 demo new_codec t_foo v = EOk (a ++ b) /\
  unmarshal_bare 10 demo new_codec a t_foo (zero demo t_foo) = URet va None /\
  marshal_bare 5 demo new_codec t_foo va = EOk a /\ marshal_bare 5 demo new_codec t_foo vb = EOk b /\
  unmarshal_bare 10 demo new_codec (a ++ b) t_foo (zero demo t_foo) = URet v None.
Proof.
  exists [8; 1], [16; 172; 2], (foo 1 300), (foo 1 0), (foo 0 300). split; [discriminate|]. split; [discriminate|].
  splits; vm_compute; reflexivity.
Qed.

(** The error does not tell a cut message from the end of the stream: in the
    prefix, and between the prefix and the body, it is io.EOF as well. *)
Theorem C82_eof_refuted : exists bz a1 b1 a2 b2,
  marshal_length_prefixed 5 demo new_codec t_text long_text = EOk bz /\
  bz = a1 ++ b1 /\ bz = a2 ++ b2 /\ a1 <> [] /\ b1 <> [] /\ a2 <> a1 /\ a2 <> [] /\ b2 <> [] /\
  unmarshal_reader _ chunk_read 200 (fun _ => true) um_foo (foo 7 7) [] 200 = RRet 0 (foo 7 7) (Some "EOF"%string) [] /\
  unmarshal_reader _ chunk_read 200 (fun _ => true) um_foo (foo 7 7) [a1] 200 = RRet 1 (foo 7 7) (Some "EOF"%string) [] /\
  unmarshal_reader _ chunk_read 200 (fun _ => true) um_foo (foo 7 7) [a2] 200 = RRet 2 (foo 7 7) (Some "EOF"%string) [].
Proof.
  exists ([133; 1; 10; 130; 1] ++ repeat 7 130), [133], ([1; 10; 130; 1] ++ repeat 7 130), [133; 1], ([10; 130; 1] ++ repeat 7 130).
  split; [vm_compute; reflexivity|]. split; [reflexivity|]. split; [reflexivity|]. do 5 (split; [discriminate|]).
  splits; vm_compute; reflexivity.
Qed.
Print Assumptions C82_cut.
Print Assumptions C82_more.
Print Assumptions C82_boundaries.
Print Assumptions C82_reader_cut.
Print Assumptions C82_stream_partial.
Print Assumptions C82_bare_refuted.
Print Assumptions C82_eof_refuted.
