(** Specification: what aminoscan shows of a message. *)
From Coq Require Import ZArith String List Bool.
From Verif Require Import Base SpecWire SpecJson SpecScan SpecPrint.
Import ListNotations.
Local Open Scope Z_scope.

(** Text in a color, on a terminal: ESC [ code m text ESC [ 0 m *)
Definition paint (code : string) (s : bytes) : bytes := [27; 91] ++ bs code ++ [109] ++ s ++ [27; 91; 48; 109].
(** What can be read on the terminal: escape sequences end at the letter m. *)
Fixpoint visible_from (inside : bool) (s : bytes) : bytes :=
  match s with
  | [] => []
  | c :: s' => if inside then visible_from (negb (c =? 109)) s' else if c =? 27 then visible_from true s' else c :: visible_from false s'
  end.
Definition visible (s : bytes) : bytes := visible_from false s.

(** Hexadecimal input: digits of either case. *)
Definition hex_digit_of (c d : Z) : Prop := 0 <= d < 16 /\ (c = hexit d \/ c = nth (Z.to_nat d) (bs "0123456789abcdef") 0).
Inductive hex_input : bytes -> bytes -> Prop :=
| hi_nil : hex_input [] []
| hi_byte a b x y s r : hex_digit_of a x -> hex_digit_of b y -> hex_input s r -> hex_input (a :: b :: s) (x * 16 + y :: r).

(** [report bz lines]: [bz] is a sequence of entries, and [lines] says of each one its
    number and type, and of its payload the bytes and what they mean. *)
Definition key_line (key : bytes) (num : Z) (typ : string) (line : bytes) : Prop :=
  exists hk dn, hex_text key hk /\ decimal dn (num mod 2 ^ 32) /\ line = bs "  " ++ hk ++ bs " @" ++ dn ++ bs " " ++ bs typ ++ [10].
Inductive report : bytes -> list bytes -> Prop :=
| rp_nil : report [] []
| rp_varint key num k p i hp di du r l : num64 key (num * 8) -> key_line key num "(U)Varint" k ->
    num64 p (zigzag i) -> hex_text p hp -> decimal di i -> decimal du (zigzag i) -> report r l ->
    report (key ++ p ++ r) (k :: (bs "  " ++ paint "36" hp ++ bs " (i64:" ++ di ++ bs " u64:" ++ du ++ bs ")" ++ [10]) :: l)
| rp_64 key num k p hp r l : num64 key (num * 8 + 1) -> key_line key num "8Byte" k ->
    length p = 8%nat -> hex_text p hp -> report r l ->
    report (key ++ p ++ r) (k :: (bs "  " ++ paint "34" hp ++ [10]) :: l)
| rp_len key num k n p hn hp dn r l : num64 key (num * 8 + 2) -> key_line key num "ByteLength" k ->
    num64 n (zlen p) -> zlen p < 2 ^ 63 -> hex_text n hn -> hex_text p hp -> decimal dn (zlen p) -> report r l ->
    report (key ++ n ++ p ++ r) (k :: (bs "  " ++ paint "36" hn ++ paint "32" hp ++ bs " (" ++ dn ++ bs " bytes)" ++ [10]) :: l)
| rp_32 key num k p hp r l : num64 key (num * 8 + 5) -> key_line key num "4Byte" k ->
    length p = 4%nat -> hex_text p hp -> report r l ->
    report (key ++ p ++ r) (k :: (bs "  " ++ paint "34" hp ++ [10]) :: l).
