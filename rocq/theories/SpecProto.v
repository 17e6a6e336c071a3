(** Specification: the proto3 wire format of a value.  A message is a list of
    entries (field number and payload); [wire] says which payload a value of a type
    is written as.  No byte is mentioned here except through base-128 and base-256
    numerals (SpecWire.v). *)
From Coq Require Import ZArith String List Bool.
From Verif Require Import Base SpecWire Types Codec SpecNorm.
Import ListNotations.
Local Open Scope Z_scope.

(** ** Messages *)

Inductive payload :=
| Pvarint (u : Z)          (* wire type 0 *)
| P64 (u : Z)              (* wire type 1 *)
| Plen (b : bytes)         (* wire type 2 *)
| P32 (u : Z).             (* wire type 5 *)
Definition wire_type (q : payload) : Z :=
  match q with Pvarint _ => 0 | P64 _ => 1 | Plen _ => 2 | P32 _ => 5 end.
Definition zero_payload (q : payload) : bool :=
  match q with Pvarint u => u =? 0 | Plen b => match b with [] => true | _ => false end | _ => false end.

Definition digit256 (d : Z) : Prop := 0 <= d < 256.
Inductive payload_bytes : payload -> bytes -> Prop :=
| pb_varint u b : leb128_min b u -> payload_bytes (Pvarint u) b
| pb_64 b : length b = 8%nat -> Forall digit256 b -> payload_bytes (P64 (val256 b)) b
| pb_32 b : length b = 4%nat -> Forall digit256 b -> payload_bytes (P32 (val256 b)) b
| pb_len l b : leb128_min l (zlen b) -> payload_bytes (Plen b) (l ++ b).

Definition entry : Type := (Z * payload).
(** A message is written as, for each entry, the key and the payload. *)
Inductive message : list entry -> bytes -> Prop :=
| msg_nil : message [] []
| msg_cons num q key b es bs :
    leb128_min key (num * 8 + wire_type q) -> payload_bytes q b -> message es bs ->
    message ((num, q) :: es) (key ++ b ++ bs).

(** ** A schema-less reader of messages *)

Fixpoint take_varint (b : bytes) : option (Z * bytes) :=
  match b with
  | [] => None
  | x :: r =>
      if x <? 128 then Some (x, r)
      else match take_varint r with Some (u, r') => Some (x - 128 + 128 * u, r') | None => None end
  end.
Definition take_bytes (n : Z) (b : bytes) : option (bytes * bytes) :=
  if zlen b <? n then None else Some (firstn (Z.to_nat n) b, skipn (Z.to_nat n) b).
Definition take_payload (wt : Z) (b : bytes) : option (payload * bytes) :=
  if wt =? 0 then match take_varint b with Some (u, r) => Some (Pvarint u, r) | None => None end
  else if wt =? 1 then match take_bytes 8 b with Some (x, r) => Some (P64 (val256 x), r) | None => None end
  else if wt =? 2 then
    match take_varint b with
    | Some (n, r) => match take_bytes n r with Some (x, r') => Some (Plen x, r') | None => None end
    | None => None
    end
  else if wt =? 5 then match take_bytes 4 b with Some (x, r) => Some (P32 (val256 x), r) | None => None end
  else None.
Fixpoint read_message (k : nat) (b : bytes) : option (list entry) :=
  match b, k with
  | [], _ => Some []
  | _, O => None
  | _, S k' =>
      match take_varint b with
      | None => None
      | Some (key, r) =>
          match take_payload (key mod 8) r with
          | None => None
          | Some (q, r') =>
              match read_message k' r' with Some es => Some ((key / 8, q) :: es) | None => None end
          end
      end
  end.

(** Numbers increase, except that length-delimited entries may share one. *)
Fixpoint ordered (es : list entry) : Prop :=
  match es with
  | [] => True
  | e :: r =>
      Forall (fun e' => fst e < fst e' \/ (fst e = fst e' /\ wire_type (snd e) = 2 /\ wire_type (snd e') = 2)) r /\ ordered r
  end.

(** ** Values *)

Definition prim_wire (p : prim) (o : fopts) (v : value) : option payload :=
  match p, v with
  | PBool, VBool b => Some (Pvarint (if b then 1 else 0))
  | PInt64, VInt z => Some (if fo_fixed64 o then P64 (z mod 2 ^ 64) else Pvarint (z mod 2 ^ 64))
  | PInt32, VInt z => Some (if fo_fixed32 o then P32 (z mod 2 ^ 32) else Pvarint (z mod 2 ^ 64))
  | PInt, VInt z => Some (Pvarint (z mod 2 ^ 64))
  | PInt16, VInt z | PInt8, VInt z => Some (Pvarint (zigzag z))
  | PUint64, VUint z => Some (if fo_fixed64 o then P64 z else Pvarint z)
  | PUint32, VUint z => Some (if fo_fixed32 o then P32 z else Pvarint z)
  | PUint, VUint z | PUint16, VUint z | PUint8, VUint z => Some (Pvarint z)
  | PFloat64, VFloat b => Some (P64 b)
  | PFloat32, VFloat b => Some (P32 (quiet32 b))
  | PString, VStr s => Some (Plen s)
  | _, _ => None
  end.
(** The protobuf Timestamp message. *)
Definition time_entries (s ns : Z) : list entry :=
  (if s =? 0 then [] else [(1, Pvarint (s mod 2 ^ 64))]) ++ (if ns =? 0 then [] else [(2, Pvarint ns)]).

(** The elements of a list value. *)
Inductive items : value -> list value -> Prop :=
| it_array l : items (VArr l) l
| it_slice l : items (VSlice (Some l)) l
| it_nil : items (VSlice None) [].
Definition list_of (env : tenv) (t e : gotype) : Prop :=
  resolve env t = RSlice e \/ exists n, resolve env t = RArray n e.
(** Not represented by another type. *)
Definition plain (env : tenv) (t : gotype) : Prop :=
  forall id, t = TNamed id -> te_marshal env id = None.

(** Prefix bytes [p] do not tell which implementation of interface [i] follows,
    or the interface always wants disambiguation bytes. *)
Definition implementer (env : tenv) (c : codec) (i : ifid) (p : bytes) (ci : cinfo) : Prop :=
  In ci (cd_concretes c) /\ te_impl env (TPtr (ci_type ci)) i = true /\ exists r, ci_reg ci = Some r /\ ri_prefix r = p.
Definition ambiguous (env : tenv) (c : codec) (i : ifid) (p : bytes) : Prop :=
  (exists ii, In ii (cd_ifaces c) /\ ii_id ii = i /\ ii_always ii = true) \/
  (exists a b, implementer env c i p a /\ implementer env c i p b /\ ci_type a <> ci_type b).
(** How a concrete type is announced in an interface: prefix bytes, if these are
    ambiguous after a zero byte and disambiguation bytes. *)
Definition announces (env : tenv) (c : codec) (i : ifid) (t : gotype) (tag : bytes) : Prop :=
  exists ci r, In ci (cd_concretes c) /\ ci_type ci = t /\ ci_reg ci = Some r /\
    (ambiguous env c i (ri_prefix r) /\ tag = 0 :: ri_disamb r ++ ri_prefix r \/
     ~ ambiguous env c i (ri_prefix r) /\ tag = ri_prefix r).

(** What stands before the encoding of a type at top level. *)
Definition preamble (c : codec) (t : gotype) (pre : bytes) : Prop :=
  (exists ci r, In ci (cd_concretes c) /\ ci_type ci = t /\ ci_reg ci = Some r /\ pre = ri_prefix r) \/
  ((forall ci, In ci (cd_concretes c) -> ci_type ci <> t) /\ pre = []).

Section Wire.
  Variable env : tenv.
  Variable c : codec.

  (** [wire t o v msg q]: a value [v] of the non-pointer type [t], under options
      [o], has payload [q].  [msg] tells messages and lists, which stand without length
      at top level and in interfaces, from strings and bytes, which do not. *)
  Inductive wire : gotype -> fopts -> value -> bool -> payload -> Prop :=
  | w_prim t o v p q : plain env t -> resolve env t = RPrim p -> prim_wire p o v = Some q -> wire t o v false q
  | w_time t o s ns b : plain env t -> resolve env t = RTime -> message (time_entries s ns) b -> wire t o (VTime s ns) true (Plen b)
  | w_bytes t e o v b : plain env t -> list_of env t e -> is_uint8 env e = true -> items v (map VUint b) -> wire t o v false (Plen b)
  | w_packed t e o v l b : plain env t -> list_of env t e -> is_uint8 env e = false -> delimited env e = false ->
      items v l -> packed e o l b -> wire t o v true (Plen b)
  | w_list t e o v l es b : plain env t -> list_of env t e -> is_uint8 env e = false -> delimited env e = true ->
      items v l -> elems (fo_num o) e o l es -> message es b -> wire t o v true (Plen b)
  | w_struct t fs o l es b : plain env t -> resolve env t = RStruct fs -> fields 1 fs l es -> message es b ->
      wire t o (VStruct l) true (Plen b)
  | w_nil i o : wire (TIface i) o (VIface None) false (Plen [])
  | w_iface i o ct cv w m q tag body : under cv = Some w -> announces env c i (deref_type ct) tag -> wire (deref_type ct) o w m q ->
      (if m then q = Plen body else payload_bytes q body) -> wire (TIface i) o (VIface (Some (ct, cv))) true (Plen (tag ++ body))
  | w_method id r f o v w m q : te_marshal env id = Some (MOk r f) -> f v = EOk w -> wire r o w m q -> wire (TNamed id) o v m q

  (** Packed elements; a nil pointer stands for zero. *)
  with packed : gotype -> fopts -> list value -> bytes -> Prop :=
  | pk_nil e o : packed e o [] []
  | pk_cons e o v l m q b bs :
      wire (deref_type e) o (match under v with Some w => w | None => zero env (deref_type e) end) m q ->
      payload_bytes q b -> packed e o l bs -> packed e o (v :: l) (b ++ bs)

  (** One entry per element. *)
  with elems : Z -> gotype -> fopts -> list value -> list entry -> Prop :=
  | el_nil num e o : elems num e o [] []
  | el_default num e o v l es : defaultv v = true -> elems num e o l es -> elems num e o (v :: l) ((num, Plen []) :: es)
  | el_cons num e o v w l m q es : defaultv v = false -> under v = Some w -> wire (deref_type e) (set_num 1 o) w m q -> wire_type q = 2 ->
      elems num e o l es -> elems num e o (v :: l) ((num, q) :: es)

  (** Fields in declaration order. *)
  with fields : Z -> list sfield -> list value -> list entry -> Prop :=
  | fl_nil num : fields num [] [] []
  | fl_skip num f fs v l es : field_opts num f = None -> fields num fs l es -> fields num (f :: fs) (v :: l) es
  | fl_default num f fs v l o es : field_opts num f = Some o -> defaultv v = true -> fo_write_empty o = false ->
      fields (num + 1) fs l es -> fields num (f :: fs) (v :: l) es
  | fl_list num f fs v l o e vs es' es : field_opts num f = Some o -> entries env (sf_type f) = true ->
      defaultv v && negb (fo_write_empty o) = false -> list_of env (sf_type f) e -> items v vs -> elems num e o vs es' ->
      fields (num + 1) fs l es -> fields num (f :: fs) (v :: l) (es' ++ es)
  | fl_zero num f fs v w l o m q es : field_opts num f = Some o -> entries env (sf_type f) = false ->
      defaultv v && negb (fo_write_empty o) = false -> fo_write_empty o = false -> is_ptr (sf_type f) = false ->
      under v = Some w -> wire (deref_type (sf_type f)) o w m q -> zero_payload q = true -> fields (num + 1) fs l es -> fields num (f :: fs) (v :: l) es
  | fl_one num f fs v w l o m q es : field_opts num f = Some o -> entries env (sf_type f) = false ->
      defaultv v && negb (fo_write_empty o) = false -> under v = Some w -> wire (deref_type (sf_type f)) o w m q ->
      fo_write_empty o || is_ptr (sf_type f) || negb (zero_payload q) = true ->
      fields (num + 1) fs l es -> fields num (f :: fs) (v :: l) ((num, q) :: es).
End Wire.

(** ** Types to which the format applies *)

(** The wire type that proto3 gives a type. *)
Definition type_wire (env : tenv) (t : gotype) (o : fopts) : option Z :=
  match resolve env t with
  | RPrim (PBool | PInt | PInt8 | PInt16 | PUint | PUint8 | PUint16) => Some 0
  | RPrim (PInt64 | PUint64) => Some (if fo_fixed64 o then 1 else 0)
  | RPrim (PInt32 | PUint32) => Some (if fo_fixed32 o then 5 else 0)
  | RPrim PFloat64 => Some 1
  | RPrim PFloat32 => Some 5
  | RPrim PString | RTime | RArray _ _ | RSlice _ | RStruct _ | RIface _ => Some 2
  | _ => None
  end.

Section Regular.
  Variable env : tenv.
  Variable c : codec.
  Variable mem : gotype -> bool.   (* the set; it holds no pointer types *)

  (** A field: either a list written as entries, or a type of the set.  Numbers fit. *)
  Fixpoint regular_fields (num : Z) (fs : list sfield) : bool :=
    match fs with
    | [] => true
    | f :: fs' =>
        match field_opts num f with
        | None => regular_fields num fs'
        | Some o =>
            (num <? 2 ^ 29) &&
            (if entries env (sf_type f)
             then match resolve env (sf_type f) with RArray _ e | RSlice e => mem (deref_type e) | _ => false end
             else mem (deref_type (sf_type f))) &&
            regular_fields (num + 1) fs'
        end
    end.
  (** A type of the set.  A representation has the wire type of what it
      represents.  Lists of lists are written only as fields.  *)
  Definition regular_type (t : gotype) : Prop :=
    match (match t with TNamed id => te_marshal env id | _ => None end) with
    | Some (MOk r f) => mem r = true /\ forall o, type_wire env r o = type_wire env t o
    | Some (MBad _) => True
    | None =>
        match resolve env t with
        | RArray _ e | RSlice e => is_uint8 env e = true \/ (is_list env e = false /\ mem (deref_type e) = true)
        | RStruct fs => regular_fields 1 fs = true
        | RIface _ => forall ci, In ci (cd_concretes c) -> mem (ci_type ci) = true
        | _ => True
        end
    end.
  Definition regular : Prop := forall t, mem t = true -> regular_type t.
End Regular.
