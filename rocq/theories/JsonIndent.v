(** Model of the rest of amino.go's JSON entry points: MustMarshalJSON, MustUnmarshalJSON
    and MarshalJSONIndent, with json.Indent of Go 1.13's standard library. *)
From Coq Require Import ZArith String List Bool.
From Verif Require Import Base Prims Types Codec BinEnc BinDec Amino JsonText Json.
Import ListNotations.
Local Open Scope Z_scope.
Local Open Scope amino_scope.

(** encoding/json/indent.go [newline] *)
Definition newline (prefix indent : bytes) (depth : nat) : bytes :=
  10 :: prefix ++ concat (repeat indent depth).

(** encoding/json/indent.go [Indent], the loop over a text known to be valid.  The
    state of Go's scanner comes down to whether we are inside a string ([str]) and just
    after a backslash in it ([esc]); [need] is needIndent; [started] says that
    something has been written: white space before the value is dropped, white space
    after it is kept. *)
Fixpoint indent_from (prefix indent : bytes) (s : bytes) (depth : nat) (need started str esc : bool) : bytes :=
  match s with
  | [] => []
  | b :: r =>
      let go := indent_from prefix indent r in
      if str then
        b :: (if esc then go depth need started true false
              else if b =? 92 then go depth need started true true
              else go depth need started (negb (b =? 34)) false)
      else if is_ws b then
        if started && (depth =? 0)%nat && negb need then b :: go depth need started false false
        else go depth need started false false
      else
        let close := (b =? 125) || (b =? 93) in
        let entering := need && negb close in
        let depth1 := if entering then S depth else depth in
        let pre := if entering then newline prefix indent depth1 else [] in
        if (b =? 123) || (b =? 91) then pre ++ b :: go depth1 true true false false
        else if b =? 44 then pre ++ b :: newline prefix indent depth1 ++ go depth1 false true false false
        else if b =? 58 then pre ++ b :: 32 :: go depth1 false true false false
        else if close then
          if need then b :: go depth false true false false
          else newline prefix indent (pred depth) ++ b :: go (pred depth) false true false false
        else pre ++ b :: go depth1 false true (b =? 34) false
  end.
(** [json.Indent] into an empty buffer; on a syntax error nothing is left in it. *)
Definition json_indent (bz prefix indent : bytes) : eres bytes :=
  match json_top bz with
  | None => EErr "invalid character"%string
  | Some _ => EOk (indent_from prefix indent bz 0 false false false false)
  end.

(** amino.go:579-590 [MarshalJSONIndent] *)
Definition marshal_json_indent (fuel : nat) (env : tenv) (je : jenv) (c : codec) (t : gotype) (v : value)
           (prefix indent : bytes) : eres bytes :=
  elet bz := marshal_json fuel env je c t v in
  json_indent bz prefix indent.

(** amino.go:531-537 [MustMarshalJSON] *)
Definition must_marshal_json (fuel : nat) (env : tenv) (je : jenv) (c : codec) (t : gotype) (v : value) : eres bytes :=
  must (marshal_json fuel env je c t v).
(** amino.go:571-575 [MustUnmarshalJSON] *)
Definition must_unmarshal_json (fuel : nat) (env : tenv) (je : jenv) (c : codec) (bz : bytes) (t : gotype) (v0 : value) : eres value :=
  must (unmarshal_json fuel env je c bz t v0).
