(** Model of cmd/aminoscan, with what it prints: aminoscan.go and colors.go.  [Scan.v] has
    the same functions without the text; [Properties_Tool.v] shows that they agree. *)
From Coq Require Import ZArith String List Bool.
From Verif Require Import Base Prims Types Codec JsonText Scan Print.
Import ListNotations.
Local Open Scope Z_scope.

(** colors.go:12-18: ESC [ d d m *)
Definition ansi (code : bytes) : bytes := [27; 91] ++ code ++ [109].
Definition reset : bytes := ansi (bs "0").
(** colors.go:23-28 [treat] *)
Definition treat (s col : bytes) : bytes :=
  if (2 <? length s)%nat && beqb (firstn 2 s) [27; 91] then s else col ++ s ++ reset.
(** colors.go:30-36 [treatAll] of one string; the slice starts with an empty string for
    the argument, which adds nothing when joined *)
Definition treat_all (col s : bytes) : bytes := concat ([[]] ++ [treat s col]).
(** colors.go:38-56 *)
Definition red := treat_all (ansi (bs "31")).
Definition green := treat_all (ansi (bs "32")).
Definition yellow := treat_all (ansi (bs "33")).
Definition blue := treat_all (ansi (bs "34")).
Definition cyan := treat_all (ansi (bs "36")).
(** colors.go:58-68 [ColoredBytes]; string(b) of a byte below 128 is that byte *)
Definition colored_bytes (data : bytes) (text_color bytes_color : bytes -> bytes) : bytes :=
  flat_map (fun b => if (33 <=? b) && (b <? 127) then text_color [b] else bytes_color (hex_upper [b])) data.

(** Results of the scan functions: what was printed, then [(s, n, err)], a panic, or no
    more fuel. *)
Inductive tout :=
| TRet (s : bytes) (n : nat) (e : option error)
| TPanic (p : panicmsg)
| TFuel.
Definition tres := (bytes * tout)%type.
Definition after (p : bytes) (r : tres) : tres := (p ++ fst r, snd r).

(** aminoscan.go:296-303 [slide] *)
Definition tool_slide (bz : bytes) (n : nat) (k : bytes -> tres) : tres :=
  if (length bz <? n)%nat then ([], TPanic "eof"%string) else k (skipn n bz).

(** aminoscan.go:85-119 [scanVarint] *)
Definition tool_varint (bz indent : bytes) : tres :=
  let err := match bz with [] => Some "EOF while reading (U)Varint"%string | _ => None end in
  let '(i, n) := varint bz in
  let okI64 := negb (n <=? 0) in
  let n := if n <=? 0 then 0 else n in
  let '(u, n') := uvarint bz in
  let okU64 := (n =? n') in
  let n := if okU64 then n else 0 in
  if negb okI64 && negb okU64 then ([], TRet [] (Z.to_nat n) (Some "invalid (u)varint"%string))
  else
    let s := cyan (hex_upper (firstn (Z.to_nat n) bz)) in
    (indent ++ s ++ bs " (" ++ (if okI64 then bs "i64:" ++ itoa i ++ bs " " else []) ++
     (if okU64 then bs "u64:" ++ itoa u else []) ++ bs ")" ++ [10], TRet s (Z.to_nat n) err).

(** aminoscan.go:121-130 [scan8Byte] *)
Definition tool_8byte (bz indent : bytes) : tres :=
  if (length bz <? 8)%nat then ([], TRet [] 0 (Some "while reading 8byte field, EOF was encountered"%string))
  else let s := blue (hex_upper (firstn 8 bz)) in (indent ++ s ++ [10], TRet s 8 None).

(** aminoscan.go:190-199 [scan4Byte] *)
Definition tool_4byte (bz indent : bytes) : tres :=
  if (length bz <? 4)%nat then ([], TRet [] 0 (Some "while reading 8byte field, EOF was encountered"%string))
  else let s := blue (hex_upper (firstn 4 bz)) in (indent ++ s ++ [10], TRet s 4 None).

(** aminoscan.go:132-152 [scanByteLength] *)
Definition tool_byte_length (bz indent : bytes) : tres :=
  let '(l64, n) := uvarint bz in
  let len := i64 l64 in
  if zlen bz <=? len then ([], TRet [] 0 (Some "while reading 8byte field, EOF was encountered"%string))
  else if n <? 0 then ([], TPanic "slice bounds out of range"%string)
  else
    let s := cyan (hex_upper (firstn (Z.to_nat n) bz)) in
    tool_slide bz (Z.to_nat n) (fun bz1 =>
      if len <? 0 then ([], TPanic "slice bounds out of range"%string)
      else
        let s := s ++ green (hex_upper (firstn (Z.to_nat len) bz1)) in
        tool_slide bz1 (Z.to_nat len) (fun _ =>
          (indent ++ s ++ bs " (" ++ itoa len ++ bs " bytes)" ++ [10], TRet s (Z.to_nat n + Z.to_nat len) None))).

(** aminoscan.go:69-83 [scanAny] *)
Definition tool_any (typ : Z) (bz indent : bytes) : tres :=
  if typ =? Typ3Varint then tool_varint bz indent
  else if typ =? Typ38Byte then tool_8byte bz indent
  else if typ =? Typ3ByteLength then tool_byte_length bz indent
  else if typ =? Typ3_4Byte then tool_4byte bz indent
  else ([], TPanic "should not happen"%string).

(** aminoscan.go:175-188 [scanFieldKey]: what is printed, and (s, typ, n, err) *)
Definition tool_field_key (bz indent : bytes) : bytes * (bytes * Z * nat * option error) :=
  let '(u, n) := uvarint bz in
  if n <? 0 then ([], ([], 0, 0%nat, Some "error decoding uvarint"%string))
  else
    let typ := Z.land u 7 in
    let number := u32 (Z.shiftr u 3) in
    let s := hex_upper (firstn (Z.to_nat n) bz) in
    (indent ++ s ++ bs " @" ++ itoa number ++ bs " " ++ typ3_string typ ++ [10], (s, typ, Z.to_nat n, None)).

(** aminoscan.go:154-173 [scanStruct]; [s] and [n] are the result variables *)
Fixpoint tool_loop (fuel : nat) (is_root : bool) (indent bz s : bytes) (n : nat) : tres :=
  match fuel with
  | O => ([], TFuel)
  | S fuel' =>
      if is_root && (length bz =? 0)%nat then ([], TRet s n None)
      else
        let '(p1, (s1, typ, n1, e1)) := tool_field_key bz (indent ++ bs "  ") in
        after p1 (tool_slide bz n1 (fun bz1 =>
          match e1 with
          | Some e => ([], TRet (s ++ s1) (n + n1) (Some e))
          | None =>
              match tool_any typ bz1 (indent ++ bs "  ") with
              | (p2, TRet s2 n2 e2) =>
                  after p2 (tool_slide bz1 n2 (fun bz2 =>
                    match e2 with
                    | Some e => ([], TRet ((s ++ s1) ++ s2) (n + n1 + n2) (Some e))
                    | None => tool_loop fuel' is_root indent bz2 ((s ++ s1) ++ s2) (n + n1 + n2)
                    end))
              | r => r
              end
          end))
  end.
Definition tool_struct (fuel : nat) (bz indent : bytes) (is_root : bool) : tres := tool_loop fuel is_root indent bz [] 0.

(** aminoscan.go:310-316 [hexDecode] with encoding/hex.DecodeString: two digits of either
    case for a byte; anything else is an error, for which it panics. *)
Definition from_hex (c : Z) : option Z :=
  if (48 <=? c) && (c <=? 57) then Some (c - 48)
  else if (97 <=? c) && (c <=? 102) then Some (c - 87)
  else if (65 <=? c) && (c <=? 70) then Some (c - 55)
  else None.
Fixpoint hex_decode (s : bytes) : option bytes :=
  match s with
  | [] => Some []
  | a :: b :: s' =>
      match from_hex a, from_hex b, hex_decode s' with
      | Some x, Some y, Some r => Some (x * 16 + y :: r)
      | _, _, _ => None
      end
  | _ => None
  end.

(** fmt.Println of an error: its text, or <nil> *)
Definition print_err (e : option error) : bytes := match e with Some e => bs e | None => bs "<nil>" end.

(** Outcome of the program: what it printed, and whether it came to its end. *)
Inductive mres :=
| MEnd (out : bytes)
| MPanics (out : bytes) (p : panicmsg)
| MLoop (out : bytes).

(** aminoscan.go:14-67 [main].  [args] is os.Args[1:]; [parse] is what flag.Parse makes of
    it: the two flags and the remaining arguments, or an exit with a message of its own. *)
Definition tool_main (fuel : nat) (env : tenv) (parse : list bytes -> option (bool * bytes * list bytes)) (args : list bytes) : mres :=
  match args with
  | [] => MEnd (bs "Usage: aminoscan <STRUCT HEXBYTES> or --help" ++ [10])
  | arg1 :: _ =>
      match parse args with
      | None => MEnd []
      | Some (colorize, name, rest) =>
          if colorize then
            match rest with
            | [] | [] :: _ => MEnd (bs "Usage: aminoscan --color <HEXBYTES>" ++ [10])
            | arg :: _ =>
                match hex_decode arg with
                | None => MPanics [] "encoding/hex"%string
                | Some bz => MEnd (colored_bytes bz green blue ++ [10])
                end
            end
          else if (0 <? length name)%nat then
            match name_to_disfix env name with
            | EOk (db, pb) => MEnd (bs "Disamb bytes: " ++ hex_upper db ++ [10] ++ bs "Prefix bytes: " ++ hex_upper pb ++ [10])
            | EPanic p => MPanics [] p
            | _ => MLoop []
            end
          else
            match hex_decode arg1 with
            | None => MPanics [] "encoding/hex"%string
            | Some bz =>
                let head := yellow (bs "## Root Struct (assumed)") ++ [10] in
                match tool_struct fuel bz [] true with
                | (p, TRet s n e) =>
                    let s := s ++ red (hex_upper (skipn n bz)) in
                    MEnd (head ++ p ++ yellow (bs "## Root Struct END") ++ [10] ++
                          s ++ bs " " ++ itoa (Z.of_nat n) ++ bs " " ++ print_err e ++ [10])
                | (p, TPanic m) => MPanics (head ++ p) m
                | (p, TFuel) => MLoop (head ++ p)
                end
            end
      end
  end.
