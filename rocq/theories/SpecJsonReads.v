(** Specification: which JSON texts are read into a variable of a type, and what it holds
    afterwards.  The texts are described by the grammar of RFC 8259 (SpecJson.v). *)
From Coq Require Import ZArith String List Bool.
From Verif Require Import Base SpecWire Types Codec SpecNorm Json SpecJson SpecJsonSafe SpecMembers.
Import ListNotations.
Local Open Scope Z_scope.

(** ** Numbers, booleans, strings *)

(** Integer types: signed?, size, in quotes? *)
Definition int_type (p : prim) : option (bool * Z * bool) :=
  match p with
  | PInt8 => Some (true, 8, false) | PInt16 => Some (true, 16, false) | PInt32 => Some (true, 32, false)
  | PInt64 | PInt => Some (true, 64, true)
  | PUint8 => Some (false, 8, false) | PUint16 => Some (false, 16, false) | PUint32 => Some (false, 32, false)
  | PUint64 | PUint => Some (false, 64, true)
  | _ => None
  end.
Definition int_val (signed : bool) (z : Z) : value := if signed then VInt z else VUint z.
Definition int_fits (signed : bool) (size z : Z) : Prop :=
  if signed then - 2 ^ (size - 1) <= z < 2 ^ (size - 1) else 0 <= z < 2 ^ size.
(** A decimal numeral; signed types also take minus zero. *)
Definition whole (signed : bool) (n : bytes) (z : Z) : Prop := decimal n z \/ signed = true /\ n = bs "-0" /\ z = 0.

Inductive read_prim (p : prim) : bytes -> value -> Prop :=
| rp_bool (b : bool) : p = PBool -> read_prim p (if b then bs "true" else bs "false") (VBool b)
| rp_string s n : p = PString -> jchars s -> denotes s n -> read_prim p (34 :: s ++ [34]) (VStr n)
| rp_number signed size n z : int_type p = Some (signed, size, false) -> whole signed n z -> int_fits signed size z ->
    read_prim p n (int_val signed z)
| rp_quoted signed size w n w' z : int_type p = Some (signed, size, true) -> spaces w -> spaces w' ->
    whole signed n z -> int_fits signed size z -> read_prim p (34 :: (w ++ n ++ w') ++ [34]) (int_val signed z)
| rp_quoted_null signed size w w' : int_type p = Some (signed, size, true) -> spaces w -> spaces w' ->
    read_prim p (34 :: (w ++ bs "null" ++ w') ++ [34]) (int_val signed 0).

(** ** Bytes *)

(** RFC 4648, section 4; the bits left over in the last group are ignored. *)
Definition base64_alphabet : bytes := bs "ABCDEFGHIJKLMNOPQRSTUVWXYZabcdefghijklmnopqrstuvwxyz0123456789+/".
Definition sym (c v : Z) : Prop := 0 <= v /\ nth_error base64_alphabet (Z.to_nat v) = Some c.
Inductive base64 : bytes -> bytes -> Prop :=
| b6_nil : base64 [] []
| b6_one a b w x : sym a w -> sym b x -> base64 [a; b; 61; 61] [w * 4 + x / 16]
| b6_two a b c w x y : sym a w -> sym b x -> sym c y -> base64 [a; b; c; 61] [w * 4 + x / 16; x mod 16 * 16 + y / 4]
| b6_more a b c d w x y z s n : sym a w -> sym b x -> sym c y -> sym d z -> base64 s n ->
    base64 (a :: b :: c :: d :: s) (w * 4 + x / 16 :: x mod 16 * 16 + y / 4 :: y mod 4 * 64 + z :: n).
Definition without_line_ends (s : bytes) : bytes := filter (fun b => negb ((b =? 10) || (b =? 13))) s.

(** A string in base64, or an array of numbers; null keeps the byte that was there. *)
Inductive byte_each : list bytes -> bytes -> bytes -> Prop :=
| be_nil old : byte_each [] old []
| be_cons e l x old r : (decimal e x /\ 0 <= x < 256 \/ e = bs "null" /\ x = hd 0 old) -> byte_each l (tl old) r ->
    byte_each (e :: l) old (x :: r).
Inductive read_bytes (old : bytes) : bytes -> bytes -> Prop :=
| rb_string s n r : jchars s -> denotes s n -> base64 (without_line_ends n) r -> read_bytes old (34 :: s ++ [34]) r
| rb_array l b r : jarray l b -> byte_each l old r -> read_bytes old b r.

(** ** Types *)

(** What a pointer, or a chain of them, points to; zero behind nil. *)
Fixpoint contents (env : tenv) (t : gotype) (v : value) : value :=
  match t with TPtr e => contents env e (pointee env e v) | _ => v end.

(** A wrapper around a registered value: the name and the text of the value. *)
Definition wrapper_of (b name x : bytes) : Prop :=
  exists l, jobject l b /\ only_strings l /\ string_member (bs "type") l name /\ name <> [] /\ text_member (bs "value") l x.

(** The names of the members, each once, in the order they first occur. *)
Fixpoint firsts (l : list bytes) (seen : list bytes) : list bytes :=
  match l with
  | [] => []
  | n :: l' => if existsb (beqb n) seen then firsts l' seen else n :: firsts l' (n :: seen)
  end.

Section Reads.
  Variable env : tenv.
  Variable je : jenv.
  Variable c : codec.
  (** [R t v0 b v]: the text [b], read into a variable of type [t] holding [v0], leaves [v]. *)
  Variable R : gotype -> value -> bytes -> value -> Prop.

  (** The members [l] of an object, read into the fields of a struct: fields that are
      hidden or left out ("-") keep their contents, and so do omitempty fields without
      a member; other fields without a member become zero. *)
  Inductive read_fields (l : list (bytes * bytes)) : list sfield -> list value -> list value -> Prop :=
  | rs_nil : read_fields l [] [] []
  | rs_hidden f fs v vs ws : json_opts f = None -> read_fields l fs vs ws -> read_fields l (f :: fs) (v :: vs) (v :: ws)
  | rs_absent f fs o v vs ws : json_opts f = Some o -> known env c (sf_type f) = true -> no_member (fo_json_name o) l -> read_fields l fs vs ws ->
      read_fields l (f :: fs) (v :: vs) ((if fo_omitempty o then v else zero env (sf_type f)) :: ws)
  | rs_member f fs o v vs w ws x : json_opts f = Some o -> known env c (sf_type f) = true -> last_member (fo_json_name o) l x -> R (sf_type f) v x w ->
      read_fields l fs vs ws -> read_fields l (f :: fs) (v :: vs) (w :: ws).

  (** Texts other than null, and types that are not pointers. *)
  Inductive reads_from (t : gotype) (v0 : value) (b : bytes) : value -> Prop :=
  | rf_time x s ns : t = TTime -> b = 34 :: x ++ [90; 34] -> je_untime je b = EOk (s, ns) -> reads_from t v0 b (VTime s ns)
  | rf_method id g v : t = TNamed id -> je_unmarshal je id = Some g -> g b v0 = EOk v -> reads_from t v0 b v
  | rf_amino id r g x v : t = TNamed id -> je_unmarshal je id = None -> te_unmarshal env id = Some (UOk r g) -> known env c r = true ->
      R r (zero env r) b x -> g v0 x = EOk (v, None) -> reads_from t v0 b v
  | rf_prim p v : unread env je t -> resolve env t = RPrim p -> read_prim p b v -> reads_from t v0 b v
  | rf_bytes e r : unread env je t -> resolve env t = RSlice e -> is_uint8 env e = true ->
      read_bytes (match v0 with VSlice (Some l) => val_bytes l | _ => [] end) b r -> reads_from t v0 b (slice_of (bytes_val r))
  | rf_byte_array n r : unread env je t -> resolve env t = RArray n (TPrim PUint8) -> read_bytes [] b r -> length r = n ->
      reads_from t v0 b (VArr (bytes_val r))
  | rf_slice e l vs : unread env je t -> resolve env t = RSlice e -> is_uint8 env e = false -> known env c e = true ->
      jarray l b -> Forall2 (R e (zero env e)) l vs -> reads_from t v0 b (slice_of vs)
  | rf_array n e l vs ws : unread env je t -> resolve env t = RArray n e -> is_uint8 env e = false -> known env c e = true ->
      jarray l b -> length l = n -> v0 = VArr vs -> Forall2 (fun p w => R e (fst p) (snd p) w) (combine vs l) ws -> reads_from t v0 b (VArr ws)
  | rf_struct fs l vs ws : unread env je t -> resolve env t = RStruct fs -> jobject l b -> v0 = VStruct vs -> read_fields l fs vs ws ->
      reads_from t v0 b (VStruct ws)
  | rf_map vt l names es : unread env je t -> resolve env t = RMap (TPrim PString) vt -> known env c vt = true -> jobject l b ->
      Forall2 (fun m n => called n m) l names ->
      Forall2 (fun n e => fst e = VStr n /\ exists x, last_member n l x /\ R vt (zero env vt) x (snd e)) (firsts names []) es ->
      reads_from t v0 b (VMap (Some es))
  | rf_empty_map kt vt : unread env je t -> resolve env t = RMap kt vt -> resolve env kt = RPrim PString -> known env c vt = true -> jobject [] b ->
      reads_from t v0 b (VMap (Some []))
  | rf_iface i name x ct ptr v : t = TIface i -> wrapper_of b name x -> registration c ct = Some (name, ptr) ->
      te_impl env (if ptr then TPtr ct else ct) i = true -> R ct (zero env ct) x v ->
      reads_from t v0 b (VIface (Some (if ptr then TPtr ct else ct, if ptr then VPtr (Some v) else v))).
End Reads.

(** [reads k t v0 b v]: the text [b] nested at most [k] deep, read into a variable of type
    [t] holding [v0], leaves [v].  Null makes it zero.  Pointers are followed, and set
    where they are nil; there are no pointers to interfaces. *)
Fixpoint reads (env : tenv) (je : jenv) (c : codec) (k : nat) (t : gotype) (v0 : value) (b : bytes) (v : value) : Prop :=
  match k with
  | O => False
  | S k' =>
      (is_ptr t = true -> is_iface (deref_type t) = false) /\
      (b = bs "null" /\ v = zero env t \/
       b <> bs "null" /\ exists w, reads_from env je c (reads env je c k') (deref_type t) (contents env t v0) b w /\ v = ptrs t w)
  end.
(** The whole text: a registered type is wrapped. *)
Definition reads_top (env : tenv) (je : jenv) (c : codec) (k : nat) (t : gotype) (v0 : value) (b : bytes) (v : value) : Prop :=
  known env c t = true /\
  match registration c (deref_type t) with
  | None => reads env je c k t v0 b v
  | Some (name, _) => exists x, wrapper_of b name x /\ reads env je c k t v0 x v
  end.
