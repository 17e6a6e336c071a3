(** Basic vocabulary shared by the whole model: byte strings, wrapping of
    machine integers, Go errors and panics, results of encoders and decoders. *)
From Coq Require Import ZArith String Ascii List Bool.
Import ListNotations.
Local Open Scope Z_scope.

(** A Go [byte] is a [Z]; [byte_ok] says it is in range.  A [[]byte] is a list. *)
Definition bytes := list Z.

Definition byte_ok (b : Z) : bool := (0 <=? b) && (b <? 256).
Definition bytes_ok (bz : bytes) : Prop := Forall (fun b => 0 <= b < 256) bz.

(** Conversions between machine integers.  Go's [uint64(x)] is [u64 x],
    [int64(x)] is [i64 x] and so on (two's complement wrap-around). *)
Definition uwrap (w : Z) (z : Z) : Z := z mod 2 ^ w.
Definition iwrap (w : Z) (z : Z) : Z :=
  let u := z mod 2 ^ w in if u <? 2 ^ (w - 1) then u else u - 2 ^ w.

Definition u64 (z : Z) : Z := uwrap 64 z.
Definition i64 (z : Z) : Z := iwrap 64 z.
Definition u32 (z : Z) : Z := uwrap 32 z.
Definition i32 (z : Z) : Z := iwrap 32 z.

Definition in_int (w : Z) (z : Z) : bool := (- 2 ^ (w - 1) <=? z) && (z <? 2 ^ (w - 1)).
Definition in_uint (w : Z) (z : Z) : bool := (0 <=? z) && (z <? 2 ^ w).

(** Go [len], as a [Z]. *)
Definition zlen {A} (l : list A) : Z := Z.of_nat (length l).

(** Go errors and panics.  Messages are kept without their arguments. *)
Definition error := string.
Definition panicmsg := string.

(** Result of an encoder working on an in-memory buffer (writes cannot fail).
    [EFuel] is "the model ran out of fuel"; it is never a success. *)
Inductive eres (A : Type) :=
| EOk (a : A)
| EErr (e : error)
| EPanic (p : panicmsg)
| EFuel.
Arguments EOk {A} _.
Arguments EErr {A} _.
Arguments EPanic {A} _.
Arguments EFuel {A}.

(** Result of a Go decoder [(a, n, err)]: all three parts are there also when
    [err != nil], as in Go. *)
Inductive dres (A : Type) :=
| DRet (a : A) (n : nat) (e : option error)
| DPanic (p : panicmsg)
| DFuel.
Arguments DRet {A} _ _ _.
Arguments DPanic {A} _.
Arguments DFuel {A}.

Definition ebind {A B} (r : eres A) (f : A -> eres B) : eres B :=
  match r with
  | EOk a => f a
  | EErr e => EErr e
  | EPanic p => EPanic p
  | EFuel => EFuel
  end.

Declare Scope amino_scope.
Delimit Scope amino_scope with amino.
Notation "'elet' x ':=' r 'in' k" := (ebind r (fun x => k))
  (at level 200, x pattern, r at level 100, k at level 200, right associativity) : amino_scope.

(** reflect.go:49-58 [slide]: drop [_n] bytes, panic when there are fewer. *)
Definition slide {A} (bz : bytes) (n : nat) (k : bytes -> dres A) : dres A :=
  if (length bz <? n)%nat then DPanic "impossible slide"%string else k (skipn n bz).

(** String literals as byte strings. *)
Fixpoint bs (s : string) : bytes :=
  match s with
  | EmptyString => []
  | String c s' => Z.of_nat (nat_of_ascii c) :: bs s'
  end.

(** Byte-string equality (Go [==] on strings, [bytes.Equal]). *)
Fixpoint beqb (a b : bytes) : bool :=
  match a, b with
  | [], [] => true
  | x :: a', y :: b' => (x =? y) && beqb a' b'
  | _, _ => false
  end.

(** Functional update of the [i]-th element. *)
Fixpoint upd {A} (i : nat) (x : A) (l : list A) : list A :=
  match l, i with
  | [], _ => []
  | _ :: l', O => x :: l'
  | y :: l', S i' => y :: upd i' x l'
  end.

(** Pointwise test of two lists of the same length. *)
Definition forall2b {A B} (f : A -> B -> bool) : list A -> list B -> bool :=
  fix go (la : list A) (lb : list B) {struct lb} : bool :=
    match la, lb with
    | [], [] => true
    | a :: la', b :: lb' => f a b && go la' lb'
    | _, _ => false
    end.
