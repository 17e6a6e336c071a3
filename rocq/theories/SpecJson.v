(** Specification: JSON texts (RFC 8259), UTF-8, decimal numerals, and the value that
    is read back after writing a value as JSON. *)
From Coq Require Import ZArith String List Bool.
From Verif Require Import Base SpecWire Types Codec SpecNorm Json.
Import ListNotations.
Local Open Scope Z_scope.

(** ** Characters *)

(** The UTF-8 encoding of a Unicode scalar value. *)
Inductive utf8_char : Z -> bytes -> Prop :=
| u8_1 c : 0 <= c < 128 -> utf8_char c [c]
| u8_2 c : 128 <= c < 2048 -> utf8_char c [192 + c / 64; 128 + c mod 64]
| u8_3 c : 2048 <= c < 65536 -> ~ 55296 <= c < 57344 ->
    utf8_char c [224 + c / 4096; 128 + c / 64 mod 64; 128 + c mod 64]
| u8_4 c : 65536 <= c < 1114112 ->
    utf8_char c [240 + c / 262144; 128 + c / 4096 mod 64; 128 + c / 64 mod 64; 128 + c mod 64].
Inductive utf8 : bytes -> Prop :=
| u8_nil : utf8 []
| u8_cons c b s : utf8_char c b -> utf8 s -> utf8 (b ++ s).

(** ** Texts *)

Definition space (b : Z) : Prop := b = 32 \/ b = 9 \/ b = 10 \/ b = 13.
Definition spaces (w : bytes) : Prop := Forall space w.
Definition digit (b : Z) : Prop := 48 <= b <= 57.
Definition hexdigit (b : Z) : Prop := 48 <= b <= 57 \/ 65 <= b <= 70 \/ 97 <= b <= 102.

(** The inside of a string: RFC 8259, section 7. *)
Inductive jchars : bytes -> Prop :=
| jc_nil : jchars []
| jc_plain b s : 32 <= b -> b <> 34 -> b <> 92 -> jchars s -> jchars (b :: s)
| jc_escape e s : In e [34; 92; 47; 98; 102; 110; 114; 116] -> jchars s -> jchars (92 :: e :: s)
| jc_hex w x y z s : hexdigit w -> hexdigit x -> hexdigit y -> hexdigit z -> jchars s ->
    jchars (92 :: 117 :: w :: x :: y :: z :: s).

(** What the inside of a string stands for.  Bytes that are not UTF-8, and halves of
    surrogate pairs, stand for U+FFFD. *)
Definition hexval (w v : Z) : Prop :=
  48 <= w <= 57 /\ v = w - 48 \/ 65 <= w <= 70 /\ v = w - 55 \/ 97 <= w <= 102 /\ v = w - 87.
Inductive code_unit : bytes -> Z -> Prop :=
| cu_intro w x y z a b c d : hexval w a -> hexval x b -> hexval y c -> hexval z d ->
    code_unit [92; 117; w; x; y; z] (4096 * a + 256 * b + 16 * c + d).
Definition replacement : bytes := [239; 191; 189].
Inductive denotes : bytes -> bytes -> Prop :=
| dn_nil : denotes [] []
| dn_char c b s n : utf8_char c b -> 32 <= c -> c <> 34 -> c <> 92 -> denotes s n -> denotes (b ++ s) (b ++ n)
| dn_bad b s n : 128 <= b -> (forall c u r, utf8_char c u -> b :: s <> u ++ r) -> denotes s n ->
    denotes (b :: s) (replacement ++ n)
| dn_escape e x s n : In (e, x) [(34, 34); (92, 92); (47, 47); (98, 8); (102, 12); (110, 10); (114, 13); (116, 9)] ->
    denotes s n -> denotes (92 :: e :: s) (x :: n)
| dn_unit e u b s n : code_unit e u -> ~ 55296 <= u < 57344 -> utf8_char u b -> denotes s n -> denotes (e ++ s) (b ++ n)
| dn_pair e f u v b s n : code_unit e u -> code_unit f v -> 55296 <= u < 56320 -> 56320 <= v < 57344 ->
    utf8_char (65536 + 1024 * (u - 55296) + (v - 56320)) b -> denotes s n -> denotes (e ++ f ++ s) (b ++ n)
| dn_half e u s n : code_unit e u -> 55296 <= u < 57344 ->
    (forall f v r, code_unit f v -> s = f ++ r -> ~ (u < 56320 /\ 56320 <= v < 57344)) ->
    denotes s n -> denotes (e ++ s) (replacement ++ n).

(** Numbers: section 6. *)
Definition digits1 (d : bytes) : Prop := d <> [] /\ Forall digit d.
Definition int_part (d : bytes) : Prop := d = [48] \/ exists x r, d = x :: r /\ digit x /\ x <> 48 /\ Forall digit r.
Definition frac_part (d : bytes) : Prop := d = [] \/ exists r, d = 46 :: r /\ digits1 r.
Definition exp_part (d : bytes) : Prop :=
  d = [] \/ exists e g r, d = e :: g ++ r /\ (e = 101 \/ e = 69) /\ (g = [] \/ g = [43] \/ g = [45]) /\ digits1 r.
Inductive jnumber : bytes -> Prop :=
| jn_intro m i f e : (m = [] \/ m = [45]) -> int_part i -> frac_part f -> exp_part e -> jnumber (m ++ i ++ f ++ e).

(** Values; elements and members, each with surrounding blanks. *)
Inductive jtext : bytes -> Prop :=
| jt_null : jtext (bs "null")
| jt_true : jtext (bs "true")
| jt_false : jtext (bs "false")
| jt_number n : jnumber n -> jtext n
| jt_string s : jchars s -> jtext (34 :: s ++ [34])
| jt_array l b : jarray l b -> jtext b
| jt_object l b : jobject l b -> jtext b

(** An array and the texts of its elements. *)
with jarray : list bytes -> bytes -> Prop :=
| ja_empty w : spaces w -> jarray [] (91 :: w ++ [93])
| ja_elems l b : jelems l b -> jarray l (91 :: b ++ [93])
with jelems : list bytes -> bytes -> Prop :=
| jl_one w v w' : spaces w -> jtext v -> spaces w' -> jelems [v] (w ++ v ++ w')
| jl_cons w v w' l b : spaces w -> jtext v -> spaces w' -> jelems l b -> jelems (v :: l) (w ++ v ++ w' ++ 44 :: b)

(** An object and its members: the inside of the name, and the text of the value. *)
with jobject : list (bytes * bytes) -> bytes -> Prop :=
| jo_empty w : spaces w -> jobject [] (123 :: w ++ [125])
| jo_members l b : jmembers l b -> jobject l (123 :: b ++ [125])
with jmembers : list (bytes * bytes) -> bytes -> Prop :=
| jm_one w k w1 w2 v w' : spaces w -> jchars k -> spaces w1 -> spaces w2 -> jtext v -> spaces w' ->
    jmembers [(k, v)] (w ++ 34 :: k ++ 34 :: w1 ++ 58 :: w2 ++ v ++ w')
| jm_cons w k w1 w2 v w' l b : spaces w -> jchars k -> spaces w1 -> spaces w2 -> jtext v -> spaces w' -> jmembers l b ->
    jmembers ((k, v) :: l) (w ++ 34 :: k ++ 34 :: w1 ++ 58 :: w2 ++ v ++ w' ++ 44 :: b).

Scheme jtext_min := Minimality for jtext Sort Prop
  with jarray_min := Minimality for jarray Sort Prop
  with jelems_min := Minimality for jelems Sort Prop
  with jobject_min := Minimality for jobject Sort Prop
  with jmembers_min := Minimality for jmembers Sort Prop.
Combined Scheme json_grammar from jtext_min, jarray_min, jelems_min, jobject_min, jmembers_min.

(** ** Decimal numerals *)

Inductive numeral : bytes -> Z -> Prop :=
| nm_one d : 0 <= d <= 9 -> numeral [48 + d] d
| nm_more b z d : numeral b z -> z <> 0 -> 0 <= d <= 9 -> numeral (b ++ [48 + d]) (10 * z + d).
Inductive decimal : bytes -> Z -> Prop :=
| dc_pos b z : numeral b z -> decimal b z
| dc_neg b z : numeral b z -> z <> 0 -> decimal (45 :: b) (- z).

(** ** What is read back after a value was written as JSON *)

(** UTF-8, as a test (that it agrees with [utf8] is proved in JsonTextFacts.v). *)
Fixpoint utf8_from (k : nat) (s : bytes) : bool :=
  match k, s with
  | _, [] => true
  | O, _ => false
  | S k', _ => match JsonText.decode_rune s with Some (_, n) => utf8_from k' (skipn n s) | None => false end
  end.
Definition valid_utf8 (s : bytes) : bool := forallb byte_ok s && utf8_from (length s) s.
(** A string that JSON needs no escapes for. *)
Definition unescaped (s : bytes) : bool :=
  valid_utf8 s && forallb (fun b => (32 <=? b) && negb (b =? 34) && negb (b =? 92)) s.
Fixpoint distinct (l : list bytes) : bool :=
  match l with
  | [] => true
  | x :: l' => negb (existsb (beqb x) l') && distinct l'
  end.

(** Equal to the zero value of its type; floats also have a negative zero. *)
Fixpoint zero_like (env : tenv) (t : gotype) (v : value) {struct v} : bool :=
  match v with
  | VBool b => negb b
  | VInt z | VUint z => z =? 0
  | VFloat b =>
      match resolve env t with
      | RPrim PFloat32 => (b =? 0) || (b =? 2 ^ 31)
      | RPrim PFloat64 => (b =? 0) || (b =? 2 ^ 63)
      | _ => false
      end
  | VStr s => match s with [] => true | _ => false end
  | VTime s ns => (s =? -62135596800) && (ns =? 0)   (* year 1 *)
  | VArr l => match resolve env t with RArray _ e => forallb (zero_like env e) l | _ => false end
  | VStruct l => match resolve env t with RStruct fs => forall2b (fun f w => zero_like env (sf_type f) w) fs l | _ => false end
  | VSlice None | VMap None | VIface None | VPtr None | VFunc true | VOther => true
  | _ => false
  end.
(** A field that omitempty leaves out.  What is under a pointer counts as empty only if
    it has length 0. *)
Definition omitted (env : tenv) (t : gotype) (v : value) : bool :=
  match under v with
  | None => true
  | Some w =>
      (negb (is_ptr t) && zero_like env t w) ||
      match w with VSlice (None | Some []) | VArr [] | VStr [] => true | _ => false end
  end.
(** The options of a field, none if it is skipped. *)
Definition json_opts (f : sfield) : option fopts := if sf_exported f then parse_field_options f else None.
Definition json_names (fs : list sfield) : list bytes :=
  flat_map (fun f => match json_opts f with Some o => [fo_json_name o] | None => [] end) fs.

(** The name a type is registered under, and whether as a pointer. *)
Definition registration (c : codec) (t : gotype) : option (bytes * bool) :=
  match find (fun ci => gotype_eqb (ci_type ci) t) (cd_concretes c) with
  | Some ci => match ci_reg ci with Some r => Some (ri_name r, ri_ptr r) | None => None end
  | None => None
  end.

Section JNorm.
  Variable env : tenv.
  Variable c : codec.
  Variable jnorm : gotype -> value -> option value.

  Definition jnorm_field (f : sfield) (v : value) : option value :=
    match json_opts f with
    | None => Some (zero env (sf_type f))
    | Some o =>
        if negb (known env c (sf_type f)) then None
        else if fo_omitempty o && omitted env (sf_type f) v then Some (zero env (sf_type f))
        else jnorm (sf_type f) v
    end.
  Fixpoint jnorm_fields (fs : list sfield) (l : list value) : option (list value) :=
    match fs, l with
    | [], [] => Some []
    | f :: fs', v :: l' =>
        match jnorm_field f v, jnorm_fields fs' l' with
        | Some w, Some r => Some (w :: r)
        | _, _ => None
        end
    | _, _ => None
    end.
  Definition map_keys (l : list (value * value)) : list bytes :=
    map (fun p => match fst p with VStr s => s | _ => [] end) l.
  Definition jnorm_iface (i : ifid) (ct : gotype) (cv : value) : option value :=
    let t := deref_type ct in
    match registration c t, under cv with
    | Some (name, ptr), Some w =>
        let form := if ptr then TPtr t else t in
        if te_impl env form i && unescaped name && negb (beqb name []) then
          match jnorm t w with
          | Some w' => Some (VIface (Some (form, if ptr then VPtr (Some w') else w')))
          | None => None
          end
        else None
    | _, _ => None
    end.
  (** Types without methods.  Floats cannot be decoded.  Strings must be UTF-8.
      Lists of a declared byte type are decoded only as slices, and encoded only
      in some places.  Maps must have keys of type string itself; nil maps are read
      back as empty. *)
  Definition jnorm_plain (t : gotype) (w : value) : option value :=
    match resolve env t, w with
    | RPrim (PFloat32 | PFloat64), _ => None
    | RPrim PString, VStr s => if valid_utf8 s then Some w else None
    | RPrim _, _ => Some w
    | RArray _ e, VArr l =>
        if is_uint8 env e then (if gotype_eqb e (TPrim PUint8) then Some w else None)
        else if known env c e then option_map VArr (opt_map (jnorm e) l) else None
    | RSlice e, VSlice (Some l) =>
        if is_uint8 env e then (if gotype_eqb e (TPrim PUint8) then Some (slice_of l) else None)
        else if known env c e then option_map slice_of (opt_map (jnorm e) l) else None
    | RStruct fs, VStruct l =>
        if distinct (json_names fs) && forallb valid_utf8 (json_names fs)
        then option_map VStruct (jnorm_fields fs l) else None
    | RMap kt vt, VMap None => if gotype_eqb kt (TPrim PString) && known env c vt then Some (VMap (Some [])) else None
    | RMap kt vt, VMap (Some l) =>
        if gotype_eqb kt (TPrim PString) && known env c vt && distinct (map_keys l) && forallb valid_utf8 (map_keys l)
        then option_map (fun r => VMap (Some r))
               (opt_map (fun p => match jnorm vt (snd p) with Some w' => Some (fst p, w') | None => None end) l)
        else None
    | RIface i, VIface (Some (ct, cv)) => jnorm_iface i ct cv
    | _, _ => None
    end.
End JNorm.

(** [None]: cannot be read back.  Otherwise, whether the value is written as null (and
    then read back as zero), and what it is read back as.  Pointers to interfaces cannot be
    decoded.  MarshalJSON and UnmarshalJSON must come together, the former on the value,
    and likewise MarshalAmino and UnmarshalAmino. *)
Fixpoint jform (k : nat) (env : tenv) (je : jenv) (c : codec) (t : gotype) (v : value) : option (bool * value) :=
  match k with
  | O => None
  | S k' =>
      let go := jform k' env je c in
      let b := deref_type t in
      let null := Some (true, zero env t) in
      let text (w : value) := Some (false, ptrs t w) in
      let plain (w : value) :=
        match w with
        | VSlice None | VIface None => null
        | _ => match jnorm_plain env c (fun t v => option_map snd (go t v)) b w with Some w' => text w' | None => None end
        end in
      if (is_ptr t && is_iface b) || negb (known env c t) then None
      else match under v with
           | None => null
           | Some w =>
               match b with
               | TTime => match w with VTime s ns => match je_time je s ns with EOk _ => text w | _ => None end | _ => None end
               | TNamed id =>
                   match je_marshal je id, je_unmarshal je id with
                   | Some (true, f), Some g =>
                       match f w with
                       | EOk bz =>
                           if beqb bz (bs "null") then null
                           else match g bz (zero env b) with EOk w' => text w' | _ => None end
                       | _ => None
                       end
                   | None, None =>
                       match te_marshal env id, te_unmarshal env id with
                       | None, None => plain w
                       | Some (MOk r f), Some (UOk r' g) =>
                           match f w with
                           | EOk x =>
                               if gotype_eqb r r' then
                                 match go r x with
                                 | Some (true, _) => null
                                 | Some (false, x') => match g (zero env b) x' with EOk (w', None) => text w' | _ => None end
                                 | None => None
                                 end
                               else None
                           | _ => None
                           end
                       | _, _ => None
                       end
                   | _, _ => None
                   end
               | _ => plain w
               end
           end
  end.
Definition jnorm (k : nat) (env : tenv) (je : jenv) (c : codec) (t : gotype) (v : value) : option value :=
  option_map snd (jform k env je c t v).

(** What the standard library and the JSON methods of the program are trusted with: they
    write JSON texts; the text of a time is a string ending in Z, and reads as that time. *)
Record jenv_ok (je : jenv) : Prop := {
  jo_time : forall s ns b, je_time je s ns = EOk b -> jtext b /\ utf8 b /\ exists m, b = 34 :: m ++ [90; 34];
  jo_untime : forall s ns b, 0 <= ns <= 999999999 -> je_time je s ns = EOk b -> je_untime je b = EOk (s, ns);
  jo_float : forall p x b, je_float je p x = EOk b -> jtext b /\ utf8 b;
  jo_marshal : forall id byval f v b, je_marshal je id = Some (byval, f) -> f v = EOk b -> jtext b /\ utf8 b
}.

(** ** Supported types *)

(** What Go strings and maps are, and JSON can carry: strings in UTF-8, distinct keys. *)
Fixpoint json_value (v : value) : bool :=
  match v with
  | VStr s => valid_utf8 s
  | VArr l | VSlice (Some l) | VStruct l => forallb json_value l
  | VPtr (Some w) | VIface (Some (_, w)) => json_value w
  | VMap (Some l) => distinct (map_keys l) && forallb (fun p => json_value (fst p) && json_value (snd p)) l
  | _ => true
  end.

Section JSupported.
  Variable env : tenv.
  Variable je : jenv.
  Variable c : codec.
  Variable mem : gotype -> bool.   (* the set of types; it holds no pointer types *)

  (** The type of an element or field: pointers to interfaces cannot be decoded. *)
  Definition jpart_ok (t : gotype) : bool := mem (deref_type t) && negb (is_ptr t && is_iface (deref_type t)).
  Definition jlist_ok (e : gotype) : bool := if is_uint8 env e then gotype_eqb e (TPrim PUint8) else jpart_ok e.
  Definition jfield_ok (f : sfield) : bool := match json_opts f with Some _ => jpart_ok (sf_type f) | None => true end.
  (** Registered implementations: their names need no escapes, and the registered form
      implements the interface too. *)
  Definition jiface_ok (i : ifid) : bool :=
    forallb (fun ci =>
      match ci_reg ci with
      | Some r =>
          negb (te_impl env (TPtr (ci_type ci)) i) ||
          (mem (ci_type ci) && unescaped (ri_name r) && negb (beqb (ri_name r) []) &&
           te_impl env (if ri_ptr r then TPtr (ci_type ci) else ci_type ci) i)
      | None => true
      end) (cd_concretes c).
  Definition jplain_ok (t : gotype) : bool :=
    match resolve env t with
    | RPrim (PFloat32 | PFloat64) => false
    | RPrim _ => true
    | RArray _ e | RSlice e => jlist_ok e
    | RStruct fs => distinct (json_names fs) && forallb valid_utf8 (json_names fs) && forallb jfield_ok fs
    | RMap kt vt => gotype_eqb kt (TPrim PString) && known env c vt && jpart_ok vt
    | RIface i => jiface_ok i
    | _ => false
    end.
  (** Methods come in pairs and the second reads what the first writes. *)
  Definition jtype_ok (t : gotype) : Prop :=
    match t with
    | TTime => True
    | TNamed id =>
        match je_marshal je id, je_unmarshal je id with
        | Some (true, f), Some g =>
            forall v bz, has_type env t v = true -> f v = EOk bz -> bz <> bs "null" -> exists v', g bz (zero env t) = EOk v'
        | None, None =>
            match te_marshal env id, te_unmarshal env id with
            | None, None => jplain_ok t = true
            | Some (MOk r f), Some (UOk r' g) =>
                r = r' /\ mem r = true /\
                (forall v w, has_type env t v = true -> json_value v = true -> f v = EOk w -> json_value w = true) /\
                (forall k v w w', has_type env t v = true -> f v = EOk w -> jform k env je c r w = Some (false, w') ->
                   exists v', g (zero env t) w' = EOk (v', None))
            | _, _ => False
            end
        | _, _ => False
        end
    | _ => jplain_ok t = true
    end.
  Definition jsupported : Prop := forall t, mem t = true -> jtype_ok t.
End JSupported.

(** Registered names that need no escapes (they are written as they are), and field names
    made of bytes. *)
Definition unescaped_names (c : codec) : Prop := forall t name ptr, registration c t = Some (name, ptr) -> unescaped name = true.
Definition byte_names (env : tenv) : Prop :=
  forall t fs name, resolve env t = RStruct fs -> In name (json_names fs) -> forallb byte_ok name = true.

(** If the type is registered, then under such a name. *)
Definition name_ok (c : codec) (t : gotype) : Prop :=
  forall name ptr, registration c (deref_type t) = Some (name, ptr) -> unescaped name = true /\ name <> [].

(** Types holding integers of 64 bits. *)
Definition wide (env : tenv) (t : gotype) : bool :=
  match resolve env t with RPrim (PInt64 | PInt | PUint64 | PUint) => true | _ => false end.
(** Types without methods that replace the JSON form. *)
Definition methodless (env : tenv) (je : jenv) (t : gotype) : Prop :=
  match t with
  | TNamed id => je_marshal je id = None /\ je_unmarshal je id = None /\ te_marshal env id = None /\ te_unmarshal env id = None
  | _ => True
  end.
(** The value of such a type that holds the number [z]. *)
Definition int_value (env : tenv) (t : gotype) (z : Z) : value :=
  match resolve env t with RPrim (PUint64 | PUint) => VUint z | _ => VInt z end.

(** ** The wrapper around registered values *)

(** A member name that reads [word], in capitals or not. *)
Definition key_is (word k : bytes) : Prop :=
  exists n, denotes k n /\ Forall2 (fun x y => x = y \/ 97 <= y <= 122 /\ x = y - 32) n word.
(** The string in the last such member that is not null. *)
Definition string_member (word : bytes) (l : list (bytes * bytes)) (name : bytes) : Prop :=
  exists l1 k s l2, l = l1 ++ (k, 34 :: s ++ [34]) :: l2 /\ key_is word k /\ denotes s name /\
    Forall (fun p => key_is word (fst p) -> snd p = bs "null") l2.
(** The text of the last such member. *)
Definition text_member (word : bytes) (l : list (bytes * bytes)) (text : bytes) : Prop :=
  exists l1 k l2, l = l1 ++ (k, text) :: l2 /\ key_is word k /\ Forall (fun p => ~ key_is word (fst p)) l2.
