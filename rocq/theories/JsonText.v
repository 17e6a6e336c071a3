(** The parts of Go's encoding/json, encoding/base64, unicode/utf8 and fmt that
    json-encode.go and json-decode.go call, on byte strings (Go 1.13, the version in
    /repo/.circleci/config.yml).  This is standard library code: it is not in /repo
    and is modelled from its documented behaviour. *)
From Coq Require Import ZArith String List Bool.
From Verif Require Import Base.
Import ListNotations.
Local Open Scope Z_scope.

(** ** Integers *)

(** fmt's [%d] and json.Marshal of an integer (json-encode.go:103-113). *)
Fixpoint dec_digits (k : nat) (z : Z) (acc : bytes) : bytes :=
  match k with
  | O => acc
  | S k' =>
      let acc := (48 + z mod 10) :: acc in
      if z <? 10 then acc else dec_digits k' (z / 10) acc
  end.
Definition dec (z : Z) : bytes := dec_digits (S (Z.to_nat (Z.log2 z))) z [].
Definition itoa (z : Z) : bytes := if z <? 0 then 45 :: dec (- z) else dec z.

Definition is_digit (b : Z) : bool := (48 <=? b) && (b <=? 57).
(** strconv.ParseUint(s, 10, 64) without the range check *)
Fixpoint parse_digits (s : bytes) (acc : Z) : option Z :=
  match s with
  | [] => Some acc
  | b :: r => if is_digit b then parse_digits r (acc * 10 + (b - 48)) else None
  end.
Definition parse_uint (s : bytes) : option Z :=
  match s with [] => None | _ => parse_digits s 0 end.
(** strconv.ParseInt(s, 10, 64) without the range check; JSON numbers have no sign [+] *)
Definition parse_int (s : bytes) : option Z :=
  match s with
  | b :: r => if b =? 45 then option_map Z.opp (parse_uint r) else parse_uint s
  | [] => None
  end.

(** ** UTF-8 *)

Definition cont (b : Z) : bool := (128 <=? b) && (b <? 192).
(** utf8.DecodeRune of a non-empty string; [None] is (RuneError, 1). *)
Definition decode_rune (s : bytes) : option (Z * nat) :=
  match s with
  | [] => None
  | b0 :: r =>
      if b0 <? 128 then Some (b0, 1%nat)
      else if (194 <=? b0) && (b0 <? 224) then
        match r with
        | b1 :: _ => if cont b1 then Some ((b0 - 192) * 64 + (b1 - 128), 2%nat) else None
        | _ => None
        end
      else if (224 <=? b0) && (b0 <? 240) then
        match r with
        | b1 :: b2 :: _ =>
            if cont b1 && cont b2 && (negb (b0 =? 224) || (160 <=? b1)) && (negb (b0 =? 237) || (b1 <? 160))
            then Some ((b0 - 224) * 4096 + (b1 - 128) * 64 + (b2 - 128), 3%nat) else None
        | _ => None
        end
      else if (240 <=? b0) && (b0 <? 245) then
        match r with
        | b1 :: b2 :: b3 :: _ =>
            if cont b1 && cont b2 && cont b3 && (negb (b0 =? 240) || (144 <=? b1)) && (negb (b0 =? 244) || (b1 <? 144))
            then Some ((b0 - 240) * 262144 + (b1 - 128) * 4096 + (b2 - 128) * 64 + (b3 - 128), 4%nat) else None
        | _ => None
        end
      else None
  end.
(** utf8.EncodeRune *)
Definition encode_rune (c : Z) : bytes :=
  if c <? 128 then [c]
  else if c <? 2048 then [192 + c / 64; 128 + c mod 64]
  else if (1114111 <? c) || ((55296 <=? c) && (c <? 57344)) then [239; 191; 189]
  else if c <? 65536 then [224 + c / 4096; 128 + c / 64 mod 64; 128 + c mod 64]
  else [240 + c / 262144; 128 + c / 4096 mod 64; 128 + c / 64 mod 64; 128 + c mod 64].

(** ** Strings *)

Definition hex_digit (d : Z) : Z := if d <? 10 then 48 + d else 87 + d.
Definition hex_val (b : Z) : option Z :=
  if (48 <=? b) && (b <=? 57) then Some (b - 48)
  else if (97 <=? b) && (b <=? 102) then Some (b - 87)
  else if (65 <=? b) && (b <=? 70) then Some (b - 55)
  else None.
Definition is_hex (b : Z) : bool := match hex_val b with Some _ => true | None => false end.

(** One ASCII character as json.Marshal writes it, HTML characters escaped. *)
Definition esc_ascii (b : Z) : bytes :=
  if (b =? 34) || (b =? 92) then [92; b]
  else if b =? 10 then [92; 110]
  else if b =? 13 then [92; 114]
  else if b =? 9 then [92; 116]
  else if (b <? 32) || (b =? 60) || (b =? 62) || (b =? 38) then [92; 117; 48; 48; hex_digit (b / 16); hex_digit (b mod 16)]
  else [b].
(** The characters of a string, invalid bytes as �, U+2028 and U+2029 escaped. *)
Fixpoint quote_body (k : nat) (s : bytes) : bytes :=
  match k, s with
  | S k', b :: r =>
      if b <? 128 then esc_ascii b ++ quote_body k' r
      else match decode_rune s with
           | None => [92; 117; 102; 102; 102; 100] ++ quote_body k' r
           | Some (c, n) =>
               (if (c =? 8232) || (c =? 8233) then [92; 117; 50; 48; 50; hex_digit (c mod 16)] else firstn n s) ++
               quote_body k' (skipn n s)
           end
  | _, _ => []
  end.
(** json.Marshal of a string *)
Definition quote (s : bytes) : bytes := 34 :: quote_body (length s) s ++ [34].

(** getu4: four hexadecimal digits *)
Definition hex4 (a b c d : Z) : option Z :=
  match hex_val a, hex_val b, hex_val c, hex_val d with
  | Some w, Some x, Some y, Some z => Some (((w * 16 + x) * 16 + y) * 16 + z)
  | _, _, _, _ => None
  end.
(** utf16.DecodeRune; [None] when the two are not a surrogate pair *)
Definition surrogates (a b : Z) : option Z :=
  if (55296 <=? a) && (a <? 56320) && (56320 <=? b) && (b <? 57344)
  then Some ((a - 55296) * 1024 + (b - 56320) + 65536) else None.
(** unquoteBytes: what a JSON string (without its quotes) stands for *)
Fixpoint unquote (k : nat) (s : bytes) : option bytes :=
  match k, s with
  | _, [] => Some []
  | O, _ => None
  | S k', b :: r0 =>
      if b =? 92 then
        match r0 with
        | [] => None
        | e :: r =>
            if (e =? 34) || (e =? 92) || (e =? 47) || (e =? 39) then option_map (cons e) (unquote k' r)
            else if e =? 98 then option_map (cons 8) (unquote k' r)
            else if e =? 102 then option_map (cons 12) (unquote k' r)
            else if e =? 110 then option_map (cons 10) (unquote k' r)
            else if e =? 114 then option_map (cons 13) (unquote k' r)
            else if e =? 116 then option_map (cons 9) (unquote k' r)
            else if e =? 117 then
              match r with
              | a :: b :: c :: d :: r1 =>
                  match hex4 a b c d with
                  | None => None
                  | Some u =>
                      if (55296 <=? u) && (u <? 57344) then
                        match r1 with
                        | x :: y :: a' :: b' :: c' :: d' :: r2 =>
                            match (if (x =? 92) && (y =? 117) then hex4 a' b' c' d' else None) with
                            | Some u' =>
                                match surrogates u u' with
                                | Some p => option_map (app (encode_rune p)) (unquote k' r2)
                                | None => option_map (app [239; 191; 189]) (unquote k' r1)
                                end
                            | None => option_map (app [239; 191; 189]) (unquote k' r1)
                            end
                        | _ => option_map (app [239; 191; 189]) (unquote k' r1)
                        end
                      else option_map (app (encode_rune u)) (unquote k' r1)
                  end
              | _ => None
              end
            else None
        end
      else if (b =? 34) || (b <? 32) then None
      else if b <? 128 then option_map (cons b) (unquote k' r0)
      else match decode_rune s with
           | None => option_map (app [239; 191; 189]) (unquote k' r0)
           | Some (_, n) => option_map (app (firstn n s)) (unquote k' (skipn n s))
           end
  end.
Definition unquoted (s : bytes) : option bytes := unquote (length s) s.

(** ** Base64 (StdEncoding) *)

Definition b64_digit (d : Z) : Z :=
  if d <? 26 then 65 + d else if d <? 52 then 71 + d else if d <? 62 then d - 4 else if d =? 62 then 43 else 47.
Definition b64_val (b : Z) : option Z :=
  if (65 <=? b) && (b <=? 90) then Some (b - 65)
  else if (97 <=? b) && (b <=? 122) then Some (b - 71)
  else if (48 <=? b) && (b <=? 57) then Some (b + 4)
  else if b =? 43 then Some 62
  else if b =? 47 then Some 63
  else None.
Fixpoint b64_encode (s : bytes) : bytes :=
  match s with
  | [] => []
  | [a] => [b64_digit (a / 4); b64_digit (a mod 4 * 16); 61; 61]
  | [a; b] => [b64_digit (a / 4); b64_digit (a mod 4 * 16 + b / 16); b64_digit (b mod 16 * 4); 61]
  | a :: b :: c :: r =>
      b64_digit (a / 4) :: b64_digit (a mod 4 * 16 + b / 16) :: b64_digit (b mod 16 * 4 + c / 64) :: b64_digit (c mod 64) :: b64_encode r
  end.
(** Decode ignores line ends; bits left over before padding are not looked at. *)
Fixpoint b64_decode (s : bytes) : option bytes :=
  match s with
  | [] => Some []
  | a :: b :: c :: d :: r =>
      match r, d =? 61 with
      | [], true =>
          if c =? 61 then match b64_val a, b64_val b with Some w, Some x => Some [w * 4 + x / 16] | _, _ => None end
          else match b64_val a, b64_val b, b64_val c with
               | Some w, Some x, Some y => Some [w * 4 + x / 16; x mod 16 * 16 + y / 4]
               | _, _, _ => None
               end
      | _, _ =>
          match b64_val a, b64_val b, b64_val c, b64_val d with
          | Some w, Some x, Some y, Some z =>
              option_map (app [w * 4 + x / 16; x mod 16 * 16 + y / 4; y mod 4 * 64 + z]) (b64_decode r)
          | _, _, _, _ => None
          end
      end
  | _ => None
  end.
Definition b64_clean (s : bytes) : bytes := filter (fun b => negb ((b =? 10) || (b =? 13))) s.

(** ** The scanner *)

Definition is_ws (b : Z) : bool := (b =? 32) || (b =? 9) || (b =? 13) || (b =? 10).
Fixpoint skip_ws (s : bytes) : bytes :=
  match s with b :: r => if is_ws b then skip_ws r else s | [] => [] end.

(** After the opening quote: contents and rest. *)
Fixpoint scan_string (s : bytes) : option (bytes * bytes) :=
  match s with
  | [] => None
  | b :: r0 =>
      if b =? 34 then Some ([], r0)
      else if b =? 92 then
        match r0 with
        | [] => None
        | e :: r =>
            if (e =? 34) || (e =? 92) || (e =? 47) || (e =? 98) || (e =? 102) || (e =? 110) || (e =? 114) || (e =? 116) then
              match scan_string r with Some (l, r') => Some (92 :: e :: l, r') | None => None end
            else if e =? 117 then
              match r with
              | w :: x :: y :: z :: r1 =>
                  if is_hex w && is_hex x && is_hex y && is_hex z then
                    match scan_string r1 with Some (l, r') => Some (92 :: e :: w :: x :: y :: z :: l, r') | None => None end
                  else None
              | _ => None
              end
            else None
        end
      else if b <? 32 then None
      else match scan_string r0 with Some (l, r') => Some (b :: l, r') | None => None end
  end.

Fixpoint take_digits (s : bytes) : bytes * bytes :=
  match s with
  | b :: r => if is_digit b then let '(d, r') := take_digits r in (b :: d, r') else ([], s)
  | [] => ([], [])
  end.
(** Digits, at least one. *)
Definition digits1 (s : bytes) : option (bytes * bytes) :=
  match take_digits s with ([], _) => None | (d, r) => Some (d, r) end.
Definition scan_frac (s : bytes) : option (bytes * bytes) :=
  match s with
  | b :: r => if b =? 46 then match digits1 r with Some (d, r') => Some (46 :: d, r') | None => None end else Some ([], s)
  | [] => Some ([], [])
  end.
Definition scan_exp (s : bytes) : option (bytes * bytes) :=
  match s with
  | b :: r =>
      if (b =? 101) || (b =? 69) then
        match r with
        | g :: r1 =>
            if (g =? 43) || (g =? 45)
            then match digits1 r1 with Some (d, r') => Some (b :: g :: d, r') | None => None end
            else match digits1 r with Some (d, r') => Some (b :: d, r') | None => None end
        | [] => None
        end
      else Some ([], s)
  | [] => Some ([], [])
  end.
Definition scan_int (s : bytes) : option (bytes * bytes) :=
  match s with
  | b :: r => if b =? 48 then Some ([48], r) else digits1 s
  | [] => None
  end.
Definition scan_unsigned (s : bytes) : option (bytes * bytes) :=
  match scan_int s with
  | None => None
  | Some (i, r) =>
      match scan_frac r with
      | None => None
      | Some (f, r1) => match scan_exp r1 with None => None | Some (e, r2) => Some (i ++ f ++ e, r2) end
      end
  end.
Definition scan_number (s : bytes) : option (bytes * bytes) :=
  match s with
  | b :: r => if b =? 45 then match scan_unsigned r with Some (n, r') => Some (45 :: n, r') | None => None end else scan_unsigned s
  | [] => None
  end.

(** A JSON text, its first level taken apart: numbers as written, strings and keys
    without quotes but still escaped, elements and members as raw texts. *)
Inductive jtop :=
| JNull
| JBool (b : bool)
| JNum (n : bytes)
| JStr (s : bytes)
| JArr (l : list bytes)
| JObj (l : list (bytes * bytes)).

(** The part of [s] before [r]. *)
Definition before (s r : bytes) : bytes := firstn (length s - length r) s.

Section Level.
  (** One value (the scanner stands on its first byte): raw text and rest. *)
  Variable rec : bytes -> option (bytes * bytes).

  (** Elements up to the closing bracket. *)
  Fixpoint scan_elems (k : nat) (s : bytes) : option (list bytes * bytes) :=
    match k with
    | O => None
    | S k' =>
        match rec (skip_ws s) with
        | None => None
        | Some (raw, r) =>
            match skip_ws r with
            | x :: r1 =>
                if x =? 44 then match scan_elems k' r1 with Some (l, r2) => Some (raw :: l, r2) | None => None end
                else if x =? 93 then Some ([raw], r1)
                else None
            | [] => None
            end
        end
    end.
  (** A name, a colon and a value. *)
  Definition scan_member (s : bytes) : option (bytes * bytes * bytes) :=
    match s with
    | q :: s1 =>
        if q =? 34 then
          match scan_string s1 with
          | None => None
          | Some (key, s2) =>
              match skip_ws s2 with
              | x :: s3 =>
                  if x =? 58 then match rec (skip_ws s3) with Some (raw, r) => Some (key, raw, r) | None => None end
                  else None
              | [] => None
              end
          end
        else None
    | [] => None
    end.
  (** Members up to the closing brace. *)
  Fixpoint scan_members (k : nat) (s : bytes) : option (list (bytes * bytes) * bytes) :=
    match k with
    | O => None
    | S k' =>
        match scan_member (skip_ws s) with
        | None => None
        | Some (m, r) =>
            match skip_ws r with
            | x :: r1 =>
                if x =? 44 then match scan_members k' r1 with Some (l, r2) => Some (m :: l, r2) | None => None end
                else if x =? 125 then Some ([m], r1)
                else None
            | [] => None
            end
        end
    end.

  Definition scan_word (w : bytes) (j : jtop) (s : bytes) : option (jtop * bytes) :=
    if beqb (firstn (length w) s) w then Some (j, skipn (length w) s) else None.
  Definition scan_level (s : bytes) : option (jtop * bytes) :=
    match s with
    | [] => None
    | b :: r =>
        if b =? 110 then scan_word (bs "null") JNull s
        else if b =? 116 then scan_word (bs "true") (JBool true) s
        else if b =? 102 then scan_word (bs "false") (JBool false) s
        else if b =? 34 then match scan_string r with Some (l, r') => Some (JStr l, r') | None => None end
        else if b =? 91 then
          match skip_ws r with
          | [] => None
          | x :: r1 =>
              if x =? 93 then Some (JArr [], r1)
              else match scan_elems (length r) r with Some (l, r') => Some (JArr l, r') | None => None end
          end
        else if b =? 123 then
          match skip_ws r with
          | [] => None
          | x :: r1 =>
              if x =? 125 then Some (JObj [], r1)
              else match scan_members (length r) r with Some (l, r') => Some (JObj l, r') | None => None end
          end
        else match scan_number s with Some (n, r') => Some (JNum n, r') | None => None end
    end.
End Level.
Fixpoint scan_value (k : nat) (s : bytes) : option (bytes * bytes) :=
  match k with
  | O => None
  | S k' => match scan_level (scan_value k') s with Some (_, r) => Some (before s r, r) | None => None end
  end.
(** checkValid and the first level of json.Unmarshal. *)
Definition json_top (bz : bytes) : option jtop :=
  let s := skip_ws bz in
  match scan_level (scan_value (length s)) s with
  | Some (j, r) => match skip_ws r with [] => Some j | _ => None end
  | None => None
  end.

(** ** json.Unmarshal into the types that json-decode.go uses *)

Definition type_error : error := "json: cannot unmarshal into Go value"%string.
Definition with_top {A} (bz : bytes) (f : jtop -> eres A) : eres A :=
  match json_top bz with None => EErr "invalid character"%string | Some j => f j end.
Definition unq (s : bytes) : eres bytes :=
  match unquoted s with Some b => EOk b | None => EPanic "JSON decoder out of sync"%string end.

(** [[]json.RawMessage] (json-decode.go:273, 334) *)
Definition raw_list (bz : bytes) : eres (list bytes) :=
  with_top bz (fun j => match j with JArr l => EOk l | JNull => EOk [] | _ => EErr type_error end).

(** [map[string]json.RawMessage] (json-decode.go:380, 441): later members replace
    earlier ones. *)
Fixpoint map_put (key raw : bytes) (m : list (bytes * bytes)) : list (bytes * bytes) :=
  match m with
  | [] => [(key, raw)]
  | (k, r) :: m' => if beqb k key then (k, raw) :: m' else (k, r) :: map_put key raw m'
  end.
Fixpoint fill_map (l m : list (bytes * bytes)) : eres (list (bytes * bytes)) :=
  match l with
  | [] => EOk m
  | (key, raw) :: l' => ebind (unq key) (fun k => fill_map l' (map_put k raw m))
  end.
Definition raw_map (bz : bytes) : eres (list (bytes * bytes)) :=
  with_top bz (fun j => match j with JObj l => fill_map l [] | JNull => EOk [] | _ => EErr type_error end).

(** [*disfixWrapper] (json-decode.go:482-500): keys match regardless of case; null leaves
    the name as it is; a name that is not a string is an error, after everything was read. *)
Definition lower (b : Z) : Z := if (65 <=? b) && (b <=? 90) then b + 32 else b.
Record wrapper := { wr_name : bytes; wr_data : bytes; wr_bad : bool }.
Fixpoint fill_wrapper (l : list (bytes * bytes)) (w : wrapper) : eres wrapper :=
  match l with
  | [] => EOk w
  | (key, raw) :: l' =>
      ebind (unq key) (fun k =>
      if beqb (map lower k) (bs "type") then
        match json_top raw with
        | Some (JStr s) => ebind (unq s) (fun n => fill_wrapper l' {| wr_name := n; wr_data := wr_data w; wr_bad := wr_bad w |})
        | Some JNull => fill_wrapper l' w
        | _ => fill_wrapper l' {| wr_name := wr_name w; wr_data := wr_data w; wr_bad := true |}
        end
      else if beqb (map lower k) (bs "value") then fill_wrapper l' {| wr_name := wr_name w; wr_data := raw; wr_bad := wr_bad w |}
      else fill_wrapper l' w)
  end.
Definition raw_wrapper (bz : bytes) : eres wrapper :=
  let w0 := {| wr_name := []; wr_data := []; wr_bad := false |} in
  with_top bz (fun j => match j with
    | JObj l => ebind (fill_wrapper l w0) (fun w => if wr_bad w then EErr type_error else EOk w)
    | JNull => EOk w0
    | _ => EErr type_error
    end).

(** [[]byte] (json-decode.go:253, 311): a string in base64, or an array of numbers.  An
    array is read into the bytes [old] that are there, null leaves them as they are
    (spare capacity is taken to hold zeros). *)
Fixpoint byte_elems (l : list bytes) (old : bytes) : eres bytes :=
  match l with
  | [] => EOk []
  | e :: l' =>
      ebind (with_top e (fun j => match j with
        | JNum n => match parse_uint n with Some z => if in_uint 8 z then EOk z else EErr type_error | None => EErr type_error end
        | JNull => EOk (hd 0 old)
        | _ => EErr type_error
        end)) (fun b => ebind (byte_elems l' (tl old)) (fun r => EOk (b :: r)))
  end.
Definition raw_bytes (bz old : bytes) : eres bytes :=
  with_top bz (fun j => match j with
    | JStr s => ebind (unq s) (fun b => match b64_decode (b64_clean b) with Some r => EOk r | None => EErr "illegal base64 data"%string end)
    | JNull => EOk []
    | JArr l => byte_elems l old
    | _ => EErr type_error
    end).
