(** Streams: C21, C22, C23, C56. *)
From Coq Require Import ZArith String List Bool Lia.
From Coq Require Import ZifyBool ZifyNat.
From Verif Require Import Base Prims SpecWire PrimFacts PrimProps Types Codec BinEnc BinDec Amino Demo DemoFacts FuelFacts
  DecFacts ValueInd Typing Registry SpecRegistry Sane DecSafe SpecNorm EncFacts RoundTrip TopFacts SpecSupported FrameFacts
  Properties_RoundTrip Stream SpecStream StreamFacts.
Import ListNotations.
Local Open Scope Z_scope.

(** ** C56 *)

(** The exported Encode functions with their arguments. *)
Inductive enc_call :=
| CInt8 (i : Z) | CInt16 (i : Z) | CInt32 (i : Z) | CInt64 (i : Z) | CVarint (i : Z)
| CByte (b : Z) | CUint8 (u : Z) | CUint16 (u : Z) | CUint32 (u : Z) | CUint64 (u : Z) | CUvarint (u : Z)
| CBool (b : bool) | CFloat32 (bits : Z) | CFloat64 (bits : Z) | CTime (s nsec : Z)
| CByteSlice (bz : bytes) | CString (s : bytes).

(** The call on a writer. *)
Definition enc_run {W} (write : W -> bytes -> nat * option error * W) (w : W) (c : enc_call) : wres W :=
  match c with
  | CInt8 i => w_int8 W write w i
  | CInt16 i => w_int16 W write w i
  | CInt32 i => w_int32 W write w i
  | CInt64 i => w_int64 W write w i
  | CVarint i => w_varint W write w i
  | CByte b => w_byte W write w b
  | CUint8 u => w_uint8 W write w u
  | CUint16 u => w_uint16 W write w u
  | CUint32 u => w_uint32 W write w u
  | CUint64 u => w_uint64 W write w u
  | CUvarint u => w_uvarint W write w u
  | CBool b => w_bool W write w b
  | CFloat32 f => w_float32 W write w f
  | CFloat64 f => w_float64 W write w f
  | CTime s n => w_time W write w s n
  | CByteSlice bz => w_byte_slice W write w bz
  | CString s => w_string W write w s
  end.

(** The bytes it stands for (the subject of C01-C10), and the error of its own
    (a time out of range). *)
Definition enc_out (c : enc_call) : eres (bytes * option error) :=
  let ok bz := EOk (bz, None) in
  match c with
  | CInt8 i => ok (encode_int8 i)
  | CInt16 i => ok (encode_int16 i)
  | CInt32 i => ok (encode_int32 i)
  | CInt64 i => ok (encode_int64 i)
  | CVarint i => ok (encode_varint i)
  | CByte b => ok (encode_byte b)
  | CUint8 u => ok (encode_uint8 u)
  | CUint16 u => ok (encode_uint16 u)
  | CUint32 u => ok (encode_uint32 u)
  | CUint64 u => ok (encode_uint64 u)
  | CUvarint u => ok (encode_uvarint u)
  | CBool b => ok (encode_bool b)
  | CFloat32 f => ok (encode_float32 f)
  | CFloat64 f => ok (encode_float64 f)
  | CTime s n => encode_time s n
  | CByteSlice bz => ok (encode_byte_slice bz)
  | CString s => ok (encode_string s)
  end.

(** Whatever a writer that keeps to the contract of [io.Writer] does: the call
    returns; what the writer accepted is a prefix of the encoding; without an
    error it is all of it; an error of the writer is returned, and an error is
    returned only for that reason or because the time is out of range. *)
Theorem C56_encoders : forall W (write : W -> bytes -> nat * option error * W), writer_ok write ->
  forall call w, exists out own e w' log failed,
    enc_out call = EOk (out, own) /\
    enc_run (watched_write write) (w, [], false) call = WRet e (w', log, failed) /\
    (exists rest, out = log ++ rest) /\
    (e = None -> log = out /\ own = None) /\
    (failed = true -> e <> None) /\
    (e <> None -> failed = true \/ own <> None).
Proof.
  intros W write Hok call w.
  assert (G : exists out own, enc_out call = EOk (out, own) /\
    wrote W [] false (enc_run (watched_write write) (w, [], false) call) out own).
  { destruct call; cbn [enc_run enc_out];
      try (do 2 eexists; split; [reflexivity|]; apply (write_wrote W write Hok)).
    - destruct b; (do 2 eexists; split; [reflexivity|]; apply (write_wrote W write Hok)).
    - apply (time_wrote W write Hok).
    - do 2 eexists; split; [reflexivity|]. apply (slice_wrote W write Hok).
    - do 2 eexists; split; [reflexivity|]. apply (slice_wrote W write Hok). }
  destruct G as (out & own & Ho & e & w' & acc & f' & Hr & Hp & Hn & Hf & Hf').
  exists out, own, e, w', acc, f'. split; [exact Ho|]. split; [exact Hr|]. split; [exact Hp|]. split; [exact Hn|]. split.
  - intros F. destruct (Hf' F) as [X|X]; [discriminate X|exact X].
  - intros E. destruct own as [o|]; [right; discriminate|]. left. apply Hf; [reflexivity|reflexivity|exact E].
Qed.

(** ... and the same for a whole message, where [n] counts the accepted bytes. *)
Theorem C56_marshal_writer : forall W (write : W -> bytes -> nat * option error * W), writer_ok write ->
  forall k env c w t v n e w' log failed,
  marshal_writer _ (watched_write write) k env c (w, [], false) t v = MRet n e (w', log, failed) ->
  n = zlen log /\
  (e = None -> marshal_length_prefixed k env c t v = EOk log) /\
  (forall bz, marshal_length_prefixed k env c t v = EOk bz -> (exists rest, bz = log ++ rest) /\ (failed = true <-> e <> None)) /\
  (forall e', marshal_length_prefixed k env c t v = EErr e' -> e = Some e' /\ log = [] /\ failed = false) /\
  (failed = true -> e <> None).
Proof.
  intros W write Hok k env c w t v n e w' log failed H. unfold marshal_writer in H.
  destruct (marshal_length_prefixed k env c t v) as [bz|er|p|]; try discriminate H.
  - unfold watched_write in H. pose proof (Hok w bz) as C. destruct (write w bz) as [[m e1] w1]. destruct C as [C1 C2].
    inversion H; subst. cbn [app]. split; [unfold zlen; rewrite firstn_length; lia|]. split.
    + intros ->. rewrite (C2 eq_refl), firstn_all. reflexivity.
    + split; [|split; [discriminate|]].
      * intros b Hb. apply EOk_inj in Hb. subst b. split; [exists (skipn m bz); symmetry; apply firstn_skipn|].
        destruct e; cbn [orb]; split; intros X; try discriminate; try reflexivity. contradiction.
      * destruct e; cbn; intros X; [discriminate|discriminate X].
  - inversion H; subst. split; [reflexivity|]. split; [discriminate|]. split; [discriminate|]. split; [|discriminate].
    intros e' He. inversion He. splits; reflexivity.
Qed.

(** A writer with room for so many bytes: it accepts what fits, and reports an error if that is not all. *)
Definition room_write (room : nat) (bz : bytes) : nat * option error * nat :=
  if (length bz <=? room)%nat then (length bz, None, room - length bz)%nat
  else (room, Some "no space"%string, 0%nat).
Example C56_example : writer_ok room_write /\
  enc_run (watched_write room_write) (3%nat, [], false) (CByteSlice [1; 2]) = WRet None (0%nat, [2; 1; 2], false) /\
  enc_run (watched_write room_write) (2%nat, [], false) (CByteSlice [1; 2]) = WRet (Some "no space"%string) (0%nat, [2; 1], true) /\
  enc_run (watched_write room_write) (3%nat, [], false) (CTime 300 1) = WRet (Some "no space"%string) (0%nat, [8; 172; 2], true) /\
  enc_run (watched_write room_write) (9%nat, [], false) (CTime max_seconds 1) = WRet (Some "invalid time: seconds"%string) (9%nat, [], false) /\
  marshal_writer _ (watched_write room_write) 5 demo new_codec (4%nat, [], false) t_foo (foo 1 300)
    = MRet 4 (Some "no space"%string) (0%nat, [5; 8; 1; 16], true) /\
  marshal_writer _ (watched_write room_write) 5 demo new_codec (9%nat, [], false) t_foo (foo 1 300)
    = MRet 6 None (3%nat, [5; 8; 1; 16; 172; 2], false).
Proof.
  split; [|splits; vm_compute; reflexivity].
  intros w bz. unfold room_write. destruct (length bz <=? w)%nat eqn:E; split; try lia; discriminate.
Qed.

(** The contract is needed: the count returned by Write is not looked at, so a
    short write without an error goes unnoticed. *)
Theorem C56_contract_needed : exists (write : unit -> bytes -> nat * option error * unit) call out log,
  enc_out call = EOk (out, None) /\
  enc_run (watched_write write) (tt, [], false) call = WRet None (tt, log, false) /\ log <> out.
Proof.
  exists (fun _ bz => (1%nat, None, tt)), (CByteSlice [1; 2]), [2; 1; 2], [2; 1].
  split; [reflexivity|]. split; [reflexivity|]. discriminate.
Qed.
Print Assumptions C56_encoders.
Print Assumptions C56_marshal_writer.
Print Assumptions C56_contract_needed.

(** ** C21 *)

(** Successive [MarshalBinaryLengthPrefixedWriter] calls; [None] as soon as one does not return nil. *)
Fixpoint write_many {W} (write : W -> bytes -> nat * option error * W) (k : nat) (env : tenv) (c : codec)
         (w : W) (msgs : list (gotype * value)) : option W :=
  match msgs with
  | [] => Some w
  | (t, v) :: msgs' =>
      match marshal_writer W write k env c w t v with
      | MRet n None w' => write_many write k env c w' msgs'
      | _ => None
      end
  end.

(** Successive [UnmarshalBinaryLengthPrefixedReader] calls, each into a variable of
    the given type and contents: the sizes returned and the variables afterwards. *)
Fixpoint read_many {S} (read : S -> nat -> bytes * option error * S) (fuel fd : nat) (alloc : Z -> bool) (env : tenv) (c : codec)
         (max : Z) (s : S) (targets : list (gotype * value)) : option (list (Z * value) * S) :=
  match targets with
  | [] => Some ([], s)
  | (t, v0) :: targets' =>
      match unmarshal_reader S read fuel alloc (fun bz => unmarshal_bare fd env c bz t v0) v0 s max with
      | RRet n v None s' =>
          match read_many read fuel fd alloc env c max s' targets' with
          | Some (l, s'') => Some ((n, v) :: l, s'')
          | None => None
          end
      | _ => None
      end
  end.

(** One call: whatever the reader's way of cutting the stream, a frame at its
    beginning is taken, nothing after it, and its body decoded; the count is the
    size of the frame. *)
Theorem C21_one_message_partial : forall S (read : S -> nat -> bytes * option error * S) eof feeds, chunked read eof feeds ->
  forall fuel fd alloc env c t v0 s max bz pre body rest,
  framed bz pre body -> zlen bz < 2 ^ 63 -> max = 0 \/ zlen bz <= max < 2 ^ 63 -> alloc (zlen body) = true ->
  (length body <= fuel)%nat -> feeds s (bz ++ rest) -> (eof = true -> body ++ rest <> []) ->
  exists s', feeds s' rest /\
    unmarshal_reader S read fuel alloc (fun bz => unmarshal_bare fd env c bz t v0) v0 s max =
      match unmarshal_bare fd env c body t v0 with
      | URet v e => RRet (zlen bz) v e s'
      | UPanic p => RPanic p
      | UFuel => RFuel
      end.
Proof.
  intros S read eof feeds Hch fuel fd alloc env c t v0 s max bz pre body rest Fr Hz Hm Ha Hf F He.
  exact (reader_frame S read eof feeds Hch fuel alloc (fun bz => unmarshal_bare fd env c bz t v0) v0 s max bz pre body rest Fr Hz Hm Ha Hf F He).
Qed.

(** The stream written is the concatenation of the messages. *)
Theorem C21_written : forall W (write : W -> bytes -> nat * option error * W), writer_ok write ->
  forall k env c msgs w log0 f0 w' log f,
  write_many (watched_write write) k env c (w, log0, f0) msgs = Some (w', log, f) ->
  exists bzs, Forall2 (fun m bz => marshal_length_prefixed k env c (fst m) (snd m) = EOk bz) msgs bzs /\ log = log0 ++ concat bzs.
Proof.
  intros W write Hok k env c. induction msgs as [|[t v] msgs IH]; intros w log0 f0 w' log f H; cbn [write_many] in H.
  - inversion H; subst. exists []. split; [constructor|]. cbn. rewrite app_nil_r. reflexivity.
  - unfold marshal_writer in H. destruct (marshal_length_prefixed k env c t v) as [bz|e|p|] eqn:E; try discriminate H.
    unfold watched_write in H at 1. pose proof (Hok w bz) as C. destruct (write w bz) as [[n e] w1]. destruct C as [C1 C2].
    destruct e; [discriminate H|]. rewrite (C2 eq_refl), firstn_all in H.
    apply IH in H. destruct H as (bzs & H1 & ->). exists (bz :: bzs). split; [constructor; [exact E|exact H1]|].
    cbn [concat]. rewrite app_assoc. reflexivity.
Qed.

Lemma read_many_frames S (read : S -> nat -> bytes * option error * S) eof feeds (Hch : chunked read eof feeds) fuel fd alloc env c max rest
  (Ha : forall l, alloc l = true) (He : eof = true -> rest <> []) :
  forall (msgs : list (gotype * value * bytes * value)) s,
  Forall (fun m => let '(t, v0, bz, v) := m in exists pre body, framed bz pre body /\
    unmarshal_bare fd env c body t v0 = URet v None /\ (length body <= fuel)%nat /\ zlen bz < 2 ^ 63 /\ (max = 0 \/ zlen bz <= max < 2 ^ 63)) msgs ->
  feeds s (concat (map (fun m => snd (fst m)) msgs) ++ rest) ->
  exists s', feeds s' rest /\
    read_many read fuel fd alloc env c max s (map (fun m => fst (fst m)) msgs) = Some (map (fun m => (zlen (snd (fst m)), snd m)) msgs, s').
Proof.
  induction msgs as [|[[[t v0] bz] v] msgs IH]; intros s HF F; cbn [map concat read_many fst snd] in *.
  - exists s. split; [exact F|reflexivity].
  - inversion HF as [|? ? Hh HF']; subst. cbv iota beta in Hh. destruct Hh as (pre & body & Fr & Hu & Hf & Hz & Hm). rewrite <- app_assoc in F.
    destruct (C21_one_message_partial S read eof feeds Hch fuel fd alloc env c t v0 s max bz pre body _ Fr Hz Hm (Ha _) Hf F) as (s1 & F1 & Hr).
    { intros E X. apply app_eq_nil in X. destruct X as [_ X]. apply app_eq_nil in X. exact (He E (proj2 X)). }
    rewrite Hr, Hu. destruct (IH s1 HF' F1) as (s2 & F2 & Hr2). exists s2. split; [exact F2|]. rewrite Hr2. reflexivity.
Qed.

(** A sequence of messages of supported types, written one after another, is read
    back in order, each in its normal form and with its own size, and nothing
    after the last is touched.  Missing for the full statement: readers that
    return (0, nil), or an error together with the last byte of a prefix, and the
    values left out by C11 (both refuted below or there). *)
Theorem C21_stream_partial : forall env h mem, wf_env env -> marshal_typed env -> clean env new_codec h = true ->
  supported env (run env new_codec h) mem ->
  forall W (write : W -> bytes -> nat * option error * W) S (read : S -> nat -> bytes * option error * S) eof feeds,
  writer_ok write -> chunked read eof feeds ->
  forall k fd fuel alloc max msgs w w' log s rest, let c := run env new_codec h in
  Forall (fun m => mem (deref_type (fst m)) = true /\ struct_like env (deref_type (fst m)) = true /\ has_type env (fst m) (snd m) = true) msgs ->
  write_many (watched_write write) k env c (w, [], false) msgs = Some (w', log, false) ->
  zlen log < 2 ^ 63 -> max = 0 \/ zlen log <= max < 2 ^ 63 -> (2 * k <= fd)%nat -> (length log <= fuel)%nat -> (forall l, alloc l = true) ->
  feeds s (log ++ rest) -> (eof = true -> rest <> []) ->
  exists outs s', feeds s' rest /\
    read_many read fuel fd alloc env c max s (map (fun m => (fst m, zero env (fst m))) msgs) = Some (outs, s') /\
    Forall2 (fun m out => exists bz u nv, marshal_length_prefixed k env c (fst m) (snd m) = EOk bz /\ fst out = zlen bz /\
      under (snd m) = Some u /\ norm k env c (deref_type (fst m)) (set_num 1 no_opts) u = Some nv /\ snd out = ptrs (fst m) nv) msgs outs.
Proof.
  intros env h mem We Hm Hc Hsup W write S read eof feeds Hw Hch k fd fuel alloc max msgs w w' log s rest c HF H Hz Hmax Hfd Hfuel Ha F He.
  apply (C21_written W write Hw) in H. destruct H as (bzs & H1 & Hlog). cbn [app] in Hlog. subst log.
  assert (Q : exists quads : list (gotype * value * bytes * value),
    map (fun m => fst (fst m)) quads = map (fun m => (fst m, zero env (fst m))) msgs /\ map (fun m => snd (fst m)) quads = bzs /\
    Forall (fun m => let '(t, v0, bz, v) := m in exists pre body, framed bz pre body /\
      unmarshal_bare fd env c body t v0 = URet v None /\ (length body <= fuel)%nat /\ zlen bz < 2 ^ 63 /\ (max = 0 \/ zlen bz <= max < 2 ^ 63)) quads /\
    Forall2 (fun m out => exists bz u nv, marshal_length_prefixed k env c (fst m) (snd m) = EOk bz /\ fst out = zlen bz /\
      under (snd m) = Some u /\ norm k env c (deref_type (fst m)) (set_num 1 no_opts) u = Some nv /\ snd out = ptrs (fst m) nv) msgs
      (map (fun m => (zlen (snd (fst m)), snd m)) quads)).
  { clear F. revert HF Hz Hmax Hfuel. induction H1 as [|[t v] bz msgs bzs E _ IH]; intros HF Hz Hmax Hfuel.
    - exists []. split; [reflexivity|]. split; [reflexivity|]. split; constructor.
    - cbn [concat] in *. rewrite zlen_app in *. rewrite app_length in Hfuel. pose proof (zlen_nonneg bz). pose proof (zlen_nonneg (concat bzs)).
      inversion HF as [|? ? (Hmem & Hsl & Ht) HF']; subst. cbn [fst snd] in *.
      destruct IH as (quads & Q1 & Q2 & Q3 & Q4); [exact HF'|lia|lia|lia|].
      unfold marshal_length_prefixed in E. destruct (marshal_bare k env c t v) as [body|e|p|] eqn:Eb; cbn [ebind] in E; try discriminate E.
      apply EOk_inj in E. subst bz. rewrite zlen_app in *. rewrite app_length in Hfuel. pose proof (zlen_nonneg body).
      pose proof (zlen_nonneg (encode_uvarint (zlen body))).
      destruct (C11_supported_partial env h mem We Hm Hc Hsup k fd t v body Hmem Hsl Ht Eb ltac:(lia) Hfd) as (u & nv & Hu & Hn & Hd).
      fold c in Hn, Hd.
      exists ((t, zero env t, encode_uvarint (zlen body) ++ body, ptrs t nv) :: quads). cbn [map fst snd].
      split; [rewrite Q1; reflexivity|]. split; [rewrite Q2; reflexivity|]. split.
      + constructor; [|exact Q3]. exists (encode_uvarint (zlen body)), body.
        assert (0 <= zlen body < 2 ^ 64) by lia.
        split; [|split; [exact Hd|split; [lia|rewrite zlen_app; lia]]]. split; [reflexivity|]. split.
        * destruct (encode_uvarint_leb (zlen body)) as (ds & last & L1 & L2 & L3 & L4 & _); [lia|]. exists ds, last. splits; assumption.
        * destruct (encode_uvarint_digits (zlen body)) as (ds & last & L1 & _ & _ & _ & _ & L2 & _); [lia|]. rewrite L1, app_length, map_length. cbn [length]. lia.
      + constructor; [|exact Q4]. exists (encode_uvarint (zlen body) ++ body), u, nv. cbn [fst snd].
        split; [unfold marshal_length_prefixed; rewrite Eb; reflexivity|]. splits; try assumption; reflexivity. }
  destruct Q as (quads & Q1 & Q2 & Q3 & Q4).
  destruct (read_many_frames S read eof feeds Hch fuel fd alloc env c max rest Ha He quads s Q3) as (s' & F' & Hr).
  { rewrite Q2. exact F. }
  exists (map (fun m => (zlen (snd (fst m)), snd m)) quads), s'. split; [exact F'|]. split; [|exact Q4].
  rewrite <- Q1. exact Hr.
Qed.

Lemma chunk_read_chunked : chunked chunk_read false chunk_feeds.
Proof.
  intros s d p [Hd Hne] Hnil Hp. destruct s as [|c s]; [cbn in Hd; subst d; contradiction|].
  inversion Hne as [|? ? Hc Hne']; subst. assert (0 < length c)%nat by (destruct c; [contradiction|cbn; lia]).
  cbn [chunk_read concat]. destruct (length c <=? p)%nat eqn:E.
  - exists c, (concat s), None, s. splits; try lia; try reflexivity; [left; reflexivity|split; [reflexivity|exact Hne']].
  - exists (firstn p c), (skipn p c ++ concat s), None, (skipn p c :: s).
    split; [reflexivity|]. split; [rewrite app_assoc, firstn_skipn; reflexivity|].
    split; [rewrite firstn_length; lia|]. split; [left; reflexivity|]. split; [reflexivity|].
    constructor; [|exact Hne']. intros X. apply (f_equal (@length Z)) in X. rewrite skipn_length in X. cbn [length] in X. lia.
Qed.

(** Two messages and the beginning of a third, in chunks that do not respect their boundaries. *)
Example C21_example :
  chunked chunk_read false chunk_feeds /\ chunk_feeds [[5; 8]; [1; 16; 172]; [2; 2; 8; 7; 9]] ([5; 8; 1; 16; 172; 2; 2; 8; 7] ++ [9]) /\
  Forall (fun m : gotype * value => demo_mem (deref_type (fst m)) = true /\ struct_like demo (deref_type (fst m)) = true /\ has_type demo (fst m) (snd m) = true)
    [(t_foo, foo 1 300); (TPtr t_foo, VPtr (Some (foo 7 0)))] /\
  write_many (watched_write room_write) 5 demo (run demo new_codec []) (100%nat, [], false) [(t_foo, foo 1 300); (TPtr t_foo, VPtr (Some (foo 7 0)))]
    = Some (91%nat, [5; 8; 1; 16; 172; 2; 2; 8; 7], false) /\
  read_many chunk_read 9 10 (fun _ => true) demo (run demo new_codec []) 9 [[5; 8]; [1; 16; 172]; [2; 2; 8; 7; 9]]
    [(t_foo, zero demo t_foo); (TPtr t_foo, zero demo (TPtr t_foo))]
    = Some ([(6, foo 1 300); (3, VPtr (Some (foo 7 0)))], [[9]]).
Proof.
  split; [exact chunk_read_chunked|]. split; [split; [reflexivity|repeat constructor; discriminate]|].
  split; [constructor; [vm_compute; splits; reflexivity|constructor; [vm_compute; splits; reflexivity|constructor]]|].
  split; [vm_compute; reflexivity|]. vm_compute; reflexivity.
Qed.

(** A Read of no bytes and no error is legal, but taken for a zero byte: here the
    first message is read as an empty one and the reader has not moved. *)
Theorem C21_empty_read_refuted : exists fd fuel bz v,
  reader_ok chunk_read /\
  marshal_length_prefixed 5 demo new_codec t_foo v = EOk bz /\ zlen bz <= 100 /\
  unmarshal_reader _ chunk_read fuel (fun _ => true) (fun bz => unmarshal_bare fd demo new_codec bz t_foo (zero demo t_foo)) (zero demo t_foo) [[]; bz] 100
    = RRet 1 (zero demo t_foo) None [bz] /\ v <> zero demo t_foo.
Proof.
  exists 10%nat, 10%nat, [5; 8; 1; 16; 172; 2], (foo 1 300).
  split. { intros s p. destruct s as [|c s]; cbn [chunk_read]; [cbn; lia|]. destruct (length c <=? p)%nat eqn:E; cbn [fst]; [lia|]. rewrite firstn_length. lia. }
  split; [vm_compute; reflexivity|]. split; [vm_compute; discriminate|]. split; [vm_compute; reflexivity|]. discriminate.
Qed.

(** [io.EOF] together with the last byte is legal too, but loses a message without a body. *)
Theorem C21_eof_with_data_refuted : exists fd fuel bz,
  reader_ok chunk_read_eof /\
  marshal_length_prefixed 5 demo new_codec t_foo (zero demo t_foo) = EOk bz /\
  unmarshal_reader _ chunk_read_eof fuel (fun _ => true) (fun bz => unmarshal_bare fd demo new_codec bz t_foo (foo 7 7)) (foo 7 7) [bz] 100
    = RRet 0 (foo 7 7) (Some "EOF"%string) [].
Proof.
  exists 10%nat, 10%nat, [0].
  split. { intros s p. destruct s as [|c s]; cbn [chunk_read_eof]; [cbn; lia|]. destruct (length c <=? p)%nat eqn:E; cbn [fst]; [lia|]. rewrite firstn_length. lia. }
  split; [vm_compute; reflexivity|]. vm_compute; reflexivity.
Qed.
Print Assumptions C21_one_message_partial.
Print Assumptions C21_written.
Print Assumptions C21_stream_partial.
Print Assumptions C21_empty_read_refuted.
Print Assumptions C21_eof_with_data_refuted.

(** ** C22 *)

(** With a positive maxSize, whatever the reader does: what is about to be
    allocated and read fits, together with the prefix, into maxSize. *)
Theorem C22_length_bound : forall S (read : S -> nat -> bytes * option error * S) s max n l s', 0 < max < 2 ^ 63 ->
  read_length S read s max = LLen n l s' -> 1 <= n /\ 0 <= l /\ n + l <= max.
Proof. intros S read s max n l s'. apply read_length_bound. Qed.

(** ... so the outcome does not depend on what allocating or decoding anything larger would do. *)
Theorem C22_nothing_larger : forall S (read : S -> nat -> bytes * option error * S) fuel alloc alloc' unm unm' v0 s max, 0 < max < 2 ^ 63 ->
  (forall l, 0 <= l -> l + 1 <= max -> alloc l = alloc' l) -> (forall bz, zlen bz + 1 <= max -> unm bz = unm' bz) ->
  unmarshal_reader S read fuel alloc unm v0 s max = unmarshal_reader S read fuel alloc' unm' v0 s max.
Proof. intros S read fuel alloc alloc' unm unm' v0 s max. apply reader_local. Qed.

(** Every well-formed message of at most maxSize bytes is accepted: it is decoded exactly like its body. *)
Theorem C22_accepts : forall S (read : S -> nat -> bytes * option error * S) feeds, chunked read false feeds ->
  forall fuel fd alloc env c t v0 s max bz pre body rest,
  framed bz pre body -> zlen bz <= max < 2 ^ 63 -> alloc (zlen body) = true -> (length body <= fuel)%nat -> feeds s (bz ++ rest) ->
  exists s', feeds s' rest /\
    unmarshal_reader S read fuel alloc (fun bz => unmarshal_bare fd env c bz t v0) v0 s max =
      match unmarshal_bare fd env c body t v0 with
      | URet v e => RRet (zlen bz) v e s'
      | UPanic p => RPanic p
      | UFuel => RFuel
      end.
Proof.
  intros S read feeds Hch fuel fd alloc env c t v0 s max bz pre body rest Fr Hm Ha Hf F.
  apply (C21_one_message_partial S read false feeds Hch fuel fd alloc env c t v0 s max bz pre body rest Fr); try assumption; try lia.
Qed.

(** At most maxSize bytes are taken from the reader, or ten if maxSize is less.
    Missing: the bound maxSize itself (see below). *)
Theorem C22_taken_partial : forall S (read : S -> nat -> bytes * option error * S), reader_ok read ->
  forall fuel alloc unm v0 s t max n v e s' t', 0 < max < 2 ^ 63 ->
  unmarshal_reader _ (counted_read read) fuel alloc unm v0 (s, t) max = RRet n v e (s', t') ->
  Z.of_nat t' <= Z.of_nat t + Z.max 10 max.
Proof. intros S read Hok fuel alloc unm v0 s t max n v e s' t'. apply reader_taken; exact Hok. Qed.

Definition um_foo (bz : bytes) : ures := unmarshal_bare 10 demo new_codec bz t_foo (zero demo t_foo).
Example C22_example :
  read_length _ chunk_read [[5; 8; 1; 16; 172; 2; 9]] 6 = LLen 1 5 [[8; 1; 16; 172; 2; 9]] /\
  unmarshal_reader _ (counted_read chunk_read) 10 (fun l => l <? 6) um_foo (zero demo t_foo) ([[5; 8; 1; 16; 172; 2; 9]], 0%nat) 6
    = RRet 6 (foo 1 300) None ([[9]], 6%nat) /\
  unmarshal_reader _ (counted_read chunk_read) 10 (fun l => l <? 6) um_foo (zero demo t_foo) ([[5; 8; 1; 16; 172; 2; 9]], 0%nat) 5
    = RRet 1 (zero demo t_foo) (Some "read overflow, length-prefixed object"%string) ([[8; 1; 16; 172; 2; 9]], 1%nat) /\
  unmarshal_reader _ (counted_read chunk_read) 10 (fun l => l <? 6) um_foo (zero demo t_foo) ([[255; 255; 255; 255; 15]], 0%nat) 1000
    = RRet 5 (zero demo t_foo) (Some "read overflow, object"%string) ([], 5%nat).
Proof. splits; vm_compute; reflexivity. Qed.

(** The error for a prefix that is itself too long is overwritten by the next
    Read: with maxSize 1, three bytes are taken. *)
Theorem C22_taken_refuted : exists s t' e s',
  unmarshal_reader _ (counted_read chunk_read) 10 (fun _ => true) um_foo (zero demo t_foo) (s, 0%nat) 1
    = RRet 3 (zero demo t_foo) (Some e) (s', t') /\ 1 < Z.of_nat t'.
Proof. exists [[128; 128; 0; 9]], 3%nat. do 2 eexists. split; [vm_compute; reflexivity|]. reflexivity. Qed.
Print Assumptions C22_length_bound.
Print Assumptions C22_nothing_larger.
Print Assumptions C22_accepts.
Print Assumptions C22_taken_partial.
Print Assumptions C22_taken_refuted.

(** ** C23 *)

(** A length taken from fewer than ten bytes is the number these bytes denote, and
    fits an int64: such prefixes are never misread and never make [make] panic.
    Missing: prefixes of ten bytes (see below). *)
Theorem C23_short_prefix_partial : forall S (read : S -> nat -> bytes * option error * S), reads_bytes read ->
  forall s max n l s', 0 <= max < 2 ^ 63 -> read_length S read s max = LLen n l s' -> n < 10 ->
  exists pre, takes read s pre s' /\ zlen pre = n /\ leb128 pre l /\ 0 <= l < 2 ^ 63.
Proof. intros S read Hrb s max n l s'. apply read_length_valid; exact Hrb. Qed.

(** With maxSize from 1 to 9 that is every prefix: any other yields an error. *)
Theorem C23_small_limit_partial : forall S (read : S -> nat -> bytes * option error * S), reads_bytes read ->
  forall s max, 0 < max < 10 ->
  (exists pre n l s', read_length S read s max = LLen n l s' /\ takes read s pre s' /\ zlen pre = n /\ leb128 pre l /\ 0 <= l < 2 ^ 63) \/
  (forall fuel alloc unm v0, exists n e s', unmarshal_reader S read fuel alloc unm v0 s max = RRet n v0 (Some e) s').
Proof.
  intros S read Hrb s max Hm. destruct (read_length S read s max) as [n e s'|n l s'] eqn:E.
  - right. intros. unfold unmarshal_reader. destruct (max <? 0) eqn:E1; [lia|]. rewrite E. eauto.
  - left. assert (Hm63 : 0 < max < 2 ^ 63) by lia. destruct (read_length_bound _ _ _ _ _ _ _ Hm63 E) as (B1 & B2 & B3).
    destruct (read_length_valid S read Hrb s max n l s' ltac:(lia) E ltac:(lia)) as (pre & P1 & P2 & P3 & P4).
    exists pre, n, l, s'. splits; try assumption; try reflexivity; lia.
Qed.

(** With maxSize up to 10, a prefix that does not end within ten bytes yields an error. *)
Theorem C23_unterminated_partial : forall S (read : S -> nat -> bytes * option error * S) s pre s' max,
  takes read s pre s' -> length pre = 10%nat -> Forall (fun x => 128 <= x) pre -> 0 < max <= 10 ->
  forall fuel alloc unm v0, exists n e s'', unmarshal_reader S read fuel alloc unm v0 s max = RRet n v0 (Some e) s''.
Proof.
  intros S read s pre s' max T L F Hm fuel alloc unm v0. unfold unmarshal_reader, read_length. destruct (max <? 0) eqn:E1; [lia|].
  destruct (read_prefix_unterminated S read s pre s' T F max 0 [] None) as (e & E);
    [destruct pre; [discriminate|congruence]|unfold zlen; lia|].
  rewrite L in E. rewrite E. eauto.
Qed.

(** With a positive maxSize no prefix causes a panic: only decoding the message can. *)
Theorem C23_no_panic_partial : forall S (read : S -> nat -> bytes * option error * S) fuel alloc unm v0 s max p, 0 < max < 2 ^ 63 ->
  (forall l, 0 <= l -> l + 1 <= max -> alloc l = true) ->
  unmarshal_reader S read fuel alloc unm v0 s max = RPanic p -> exists bz, unm bz = UPanic p.
Proof. intros S read fuel alloc unm v0 s max p. apply reader_panic. Qed.

Example C23_example :
  read_length _ chunk_read [[133; 0; 8; 1]] 9 = LLen 2 5 [[8; 1]] /\ takes chunk_read [[133; 0; 8; 1]] [133; 0] [[8; 1]] /\ leb128 [133; 0] 5 /\
  unmarshal_reader _ chunk_read 10 (fun _ => true) um_foo (zero demo t_foo) [repeat 128 10] 9
    = RRet 10 (zero demo t_foo) (Some "read overflow, length prefix"%string) [] /\
  takes chunk_read [repeat 128 11] (repeat 128 10) [[128]] /\
  unmarshal_reader _ chunk_read 10 (fun _ => true) um_foo (zero demo t_foo) [repeat 128 11] 10
    = RRet 10 (zero demo t_foo) (Some "read overflow, length prefix"%string) [[128]] /\
  unmarshal_reader _ chunk_read 10 (fun _ => true) um_foo (zero demo t_foo) [repeat 255 9 ++ [2]] 9
    = RRet 10 (zero demo t_foo) (Some "read overflow, length-prefixed object"%string) [].
Proof.
  split; [vm_compute; reflexivity|].
  split. { eapply takes_cons; [reflexivity|lia|]. eapply takes_cons; [reflexivity|lia|]. cbn. constructor. }
  split. { exists [5], 0. splits; try reflexivity; try (unfold digit128; lia). constructor; [unfold digit128; lia|constructor]. }
  split; [vm_compute; reflexivity|]. split; [repeat (eapply takes_cons; [reflexivity|lia|]); constructor|].
  splits; vm_compute; reflexivity.
Qed.

(** Ten bytes that all carry the continuation bit are no uvarint; with a larger
    maxSize they pass for the length 0, and a message is "decoded". *)
Theorem C23_unterminated_refuted : exists s max,
  (forall pre rest u, s = pre ++ rest -> (length pre <= 10)%nat -> ~ leb128 pre u) /\
  unmarshal_reader _ chunk_read 10 (fun _ => true) um_foo (foo 7 7) [s] max = RRet 10 (zero demo t_foo) None [].
Proof.
  exists (repeat 128 10), 100. split; [|vm_compute; reflexivity].
  intros pre rest u E L (ds & last & P & _ & Hl & _). subst pre.
  assert (I : In last (repeat 128 10)) by (rewrite E; apply in_or_app; left; apply in_or_app; right; left; reflexivity).
  apply repeat_spec in I. subst last. unfold digit128 in Hl. lia.
Qed.

(** So do ten bytes whose value does not fit 64 bits, even without a limit. *)
Theorem C23_overflow_refuted : exists s u,
  leb128 s u /\ 2 ^ 64 <= u /\
  unmarshal_reader _ chunk_read 10 (fun _ => true) um_foo (foo 7 7) [s] 0 = RRet 10 (zero demo t_foo) None [].
Proof.
  exists (repeat 128 9 ++ [2]), (2 ^ 64). split; [|split; [lia|vm_compute; reflexivity]].
  exists (repeat 0 9), 2. split; [reflexivity|]. split; [|split; [unfold digit128; lia|reflexivity]].
  apply Forall_forall. intros x Hx. apply repeat_spec in Hx. subst x. unfold digit128. lia.
Qed.

(** A length that fits 64 bits but no int64 makes the call panic if there is no limit. *)
Theorem C23_negative_length_refuted : exists s u,
  leb128 s u /\ 2 ^ 63 <= u < 2 ^ 64 /\
  unmarshal_reader _ chunk_read 10 (fun _ => true) um_foo (foo 7 7) [s] 0 = RPanic "makeslice: len out of range"%string.
Proof.
  exists (repeat 128 9 ++ [1]), (2 ^ 63). split; [|split; [lia|vm_compute; reflexivity]].
  exists (repeat 0 9), 1. split; [reflexivity|]. split; [|split; [unfold digit128; lia|reflexivity]].
  apply Forall_forall. intros x Hx. apply repeat_spec in Hx. subst x. unfold digit128. lia.
Qed.
Print Assumptions C23_short_prefix_partial.
Print Assumptions C23_small_limit_partial.
Print Assumptions C23_unterminated_partial.
Print Assumptions C23_no_panic_partial.
Print Assumptions C23_unterminated_refuted.
Print Assumptions C23_overflow_refuted.
Print Assumptions C23_negative_length_refuted.
