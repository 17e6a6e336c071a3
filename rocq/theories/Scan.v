(** Model of cmd/aminoscan/aminoscan.go: the struct scanner. *)
From Coq Require Import ZArith String List Bool.
From Verif Require Import Base Prims.
Import ListNotations.
Local Open Scope Z_scope.

(** The string [s] built by the scanner is the concatenation of colored
    hexadecimal forms of byte strings; here it is the list of these byte strings
    with their colors.  What is printed on the way ([fmt.Printf] with indentation
    and numbers) is not modelled. *)
Inductive color := Plain | Cyan | Blue | Green.
Definition part := (color * bytes)%type.

(** Result of a scan function: [(s, n, err)], a panic, or no more fuel. *)
Inductive sres :=
| SRet (s : list part) (n : nat) (e : option error)
| SPanic (p : panicmsg)
| SFuel.

(** aminoscan.go:296-303 [slide] *)
Definition scan_slide (bz : bytes) (n : nat) (k : bytes -> sres) : sres :=
  if (length bz <? n)%nat then SPanic "eof"%string else k (skipn n bz).

(** aminoscan.go:85-119.  A missing byte sets [err] without returning; [n] is that
    of [binary.Varint], zeroed when not positive, and is compared with that of
    [binary.Uvarint]. *)
Definition scan_varint (bz : bytes) : sres :=
  let err := match bz with [] => Some "EOF while reading (U)Varint"%string | _ => None end in
  let '(_, n) := varint bz in
  let okI64 := negb (n <=? 0) in
  let n := if n <=? 0 then 0 else n in
  let '(_, n') := uvarint bz in
  let okU64 := (n =? n') in
  let n := if okU64 then n else 0 in
  if negb okI64 && negb okU64 then SRet [] (Z.to_nat n) (Some "invalid (u)varint"%string)
  else SRet [(Cyan, firstn (Z.to_nat n) bz)] (Z.to_nat n) err.

(** aminoscan.go:121-130 *)
Definition scan_8byte (bz : bytes) : sres :=
  if (length bz <? 8)%nat then SRet [] 0 (Some "while reading 8byte field, EOF was encountered"%string)
  else SRet [(Blue, firstn 8 bz)] 8 None.

(** aminoscan.go:190-199 *)
Definition scan_4byte (bz : bytes) : sres :=
  if (length bz <? 4)%nat then SRet [] 0 (Some "while reading 8byte field, EOF was encountered"%string)
  else SRet [(Blue, firstn 4 bz)] 4 None.

(** aminoscan.go:132-152.  [if n < 0] tests the result variable, which is 0, not
    the count of [binary.Uvarint]; a negative count makes [bz[:_n]] panic, and a
    length between [len(bz)-_n] and [len(bz)] makes [slide] panic. *)
Definition scan_byte_length (bz : bytes) : sres :=
  let '(l64, n) := uvarint bz in
  let len := i64 l64 in
  if zlen bz <=? len then SRet [] 0 (Some "while reading 8byte field, EOF was encountered"%string)
  else if n <? 0 then SPanic "slice bounds out of range"%string
  else
    scan_slide bz (Z.to_nat n) (fun bz1 =>
      if len <? 0 then SPanic "slice bounds out of range"%string
      else scan_slide bz1 (Z.to_nat len) (fun _ =>
        SRet [(Cyan, firstn (Z.to_nat n) bz); (Green, firstn (Z.to_nat len) bz1)] (Z.to_nat n + Z.to_nat len) None)).

(** aminoscan.go:69-83 *)
Definition scan_any (typ : Z) (bz : bytes) : sres :=
  if typ =? Typ3Varint then scan_varint bz
  else if typ =? Typ38Byte then scan_8byte bz
  else if typ =? Typ3ByteLength then scan_byte_length bz
  else if typ =? Typ3_4Byte then scan_4byte bz
  else SPanic "should not happen"%string.

(** aminoscan.go:175-188: the result is (s, typ, n, err) *)
Definition scan_field_key (bz : bytes) : list part * Z * nat * option error :=
  let '(u, n) := uvarint bz in
  if n <? 0 then ([], 0, 0%nat, Some "error decoding uvarint"%string)
  else ([(Plain, firstn (Z.to_nat n) bz)], Z.land u 7, Z.to_nat n, None).

(** aminoscan.go:154-173: the loop; [s] and [n] are the result variables. *)
Fixpoint scan_loop (fuel : nat) (is_root : bool) (bz : bytes) (s : list part) (n : nat) : sres :=
  match fuel with
  | O => SFuel
  | S fuel' =>
      if is_root && (length bz =? 0)%nat then SRet s n None
      else
        let '(s1, typ, n1, e1) := scan_field_key bz in
        scan_slide bz n1 (fun bz1 =>
          match e1 with
          | Some e => SRet (s ++ s1) (n + n1) (Some e)
          | None =>
              match scan_any typ bz1 with
              | SRet s2 n2 e2 =>
                  scan_slide bz1 n2 (fun bz2 =>
                    match e2 with
                    | Some e => SRet (s ++ s1 ++ s2) (n + n1 + n2) (Some e)
                    | None => scan_loop fuel' is_root bz2 (s ++ s1 ++ s2) (n + n1 + n2)
                    end)
              | r => r
              end
          end)
  end.
Definition scan_struct (fuel : nat) (bz : bytes) (is_root : bool) : sres := scan_loop fuel is_root bz [] 0.
