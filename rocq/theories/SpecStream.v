(** What readers and writers promise, and how to watch them.  Nothing here refers
    to the model of the amino functions. *)
From Coq Require Import ZArith String List Bool.
From Verif Require Import Base.
Import ListNotations.

(** ** Writers *)

(** The contract of [io.Writer]: 0 <= n <= len(p), and an error whenever n < len(p). *)
Definition writer_ok {W} (write : W -> bytes -> nat * option error * W) : Prop :=
  forall w bz, let '(n, e, _) := write w bz in
    (n <= length bz)%nat /\ (e = None -> n = length bz).

(** A writer watched from outside: the bytes it accepted so far and whether it
    ever returned an error. *)
Definition watched_write {W} (write : W -> bytes -> nat * option error * W)
           (x : W * bytes * bool) (bz : bytes) : nat * option error * (W * bytes * bool) :=
  let '(w, log, failed) := x in
  let '(n, e, w') := write w bz in
  (n, e, (w', log ++ firstn n bz, failed || match e with Some _ => true | None => false end)).

(** ** Readers *)

(** The contract of [io.Reader]: at most [len(p)] bytes are stored. *)
Definition reader_ok {S} (read : S -> nat -> bytes * option error * S) : Prop :=
  forall s p, (length (fst (fst (read s p))) <= p)%nat.

(** A reader with a counter of the bytes taken from it. *)
Definition counted_read {S} (read : S -> nat -> bytes * option error * S)
           (x : S * nat) (p : nat) : bytes * option error * (S * nat) :=
  let '(s, taken) := x in
  let '(b, e, s') := read s p in (b, e, (s', taken + length b)%nat).

(** [feeds s d]: the reader in state [s] will deliver (at least) the bytes [d],
    in pieces of its own choosing: any Read returns between one and [len(p)] of
    them.  With [eof] it may report an error together with the last byte of [d],
    as [io.Reader] permits at the end of a stream.  [feeds] stands for any
    relation closed under this step. *)
Definition chunked {S} (read : S -> nat -> bytes * option error * S) (eof : bool)
           (feeds : S -> bytes -> Prop) : Prop :=
  forall s d p, feeds s d -> d <> [] -> (0 < p)%nat ->
    exists b d' e s', read s p = (b, e, s') /\ d = b ++ d' /\ (0 < length b <= p)%nat /\
      (e = None \/ (eof = true /\ d' = [])) /\ feeds s' d'.

(** ** A reader over a list of chunks *)

(** Each Read delivers from the first chunk, as much as fits; an empty chunk is a
    Read of no bytes, the end of the list is [io.EOF]. *)
Definition chunk_read (s : list bytes) (p : nat) : bytes * option error * list bytes :=
  match s with
  | [] => ([], Some "EOF"%string, [])
  | c :: s' =>
      if (length c <=? p)%nat then (c, None, s') else (firstn p c, None, skipn p c :: s')
  end.

(** The same, but [io.EOF] comes together with the last byte. *)
Definition chunk_read_eof (s : list bytes) (p : nat) : bytes * option error * list bytes :=
  match s with
  | [] => ([], Some "EOF"%string, [])
  | c :: s' =>
      if (length c <=? p)%nat then (c, match s' with [] => Some "EOF"%string | _ => None end, s')
      else (firstn p c, None, skipn p c :: s')
  end.

(** The bytes of a list of non-empty chunks. *)
Definition chunk_feeds (s : list bytes) (d : bytes) : Prop :=
  concat s = d /\ Forall (fun c => c <> []) s.
