(** Specification: which messages a type can be read from, and what they say.  This is
    about messages of any origin, not only those that amino writes. *)
From Coq Require Import ZArith String List Bool.
From Verif Require Import Base SpecWire Types Codec SpecNorm SpecProto.
Import ListNotations.
Local Open Scope Z_scope.

(** ** Numbers *)

(** Two's complement. *)
Definition signed (w u : Z) : Z := if u <? 2 ^ (w - 1) then u else u - 2 ^ w.
(** The number with a given zigzag code. *)
Definition unzig (u : Z) : Z := if Z.even u then u / 2 else - ((u + 1) / 2).
Definition within (lo hi z : Z) (v : value) : option value := if (lo <=? z) && (z <=? hi) then Some v else None.

(** What a payload says as a number, string or truth value; None if it says nothing.
    Superfluous high bits are an error, except for uint32.  Floats need the "unsafe" tag. *)
Definition prim_reads (p : prim) (o : fopts) (q : payload) : option value :=
  match q with
  | Pvarint u =>
      if 2 ^ 64 <=? u then None else
      match p with
      | PBool => if u =? 0 then Some (VBool false) else if u =? 1 then Some (VBool true) else None
      | PInt => Some (VInt (signed 64 u))
      | PInt64 => if fo_fixed64 o then None else Some (VInt (signed 64 u))
      | PInt32 => if fo_fixed32 o then None else within (- 2 ^ 31) (2 ^ 31 - 1) (signed 64 u) (VInt (signed 64 u))
      | PInt16 => within (- 2 ^ 15) (2 ^ 15 - 1) (unzig u) (VInt (unzig u))
      | PInt8 => within (- 2 ^ 7) (2 ^ 7 - 1) (unzig u) (VInt (unzig u))
      | PUint => Some (VUint u)
      | PUint64 => if fo_fixed64 o then None else Some (VUint u)
      | PUint32 => if fo_fixed32 o then None else Some (VUint (u mod 2 ^ 32))
      | PUint16 => within 0 (2 ^ 16 - 1) u (VUint u)
      | PUint8 => within 0 (2 ^ 8 - 1) u (VUint u)
      | PFloat32 | PFloat64 | PString => None
      end
  | P64 u =>
      match p with
      | PInt64 => if fo_fixed64 o then Some (VInt (signed 64 u)) else None
      | PUint64 => if fo_fixed64 o then Some (VUint u) else None
      | PFloat64 => if fo_unsafe o then Some (VFloat u) else None
      | _ => None
      end
  | P32 u =>
      match p with
      | PInt32 => if fo_fixed32 o then Some (VInt (signed 32 u)) else None
      | PUint32 => if fo_fixed32 o then Some (VUint u) else None
      | PFloat32 => if fo_unsafe o then Some (VFloat (quiet32 u)) else None
      | _ => None
      end
  | Plen b => match p with PString => Some (VStr b) | _ => None end
  end.

(** ** Times: seconds between the years 1 and 9999, nanoseconds, both optional. *)
Inductive timestamp : list entry -> Z -> Z -> Prop :=
| ts_none : timestamp [] 0 0
| ts_sec u : 0 <= u < 2 ^ 64 -> -62135596800 <= signed 64 u < 253402300800 -> timestamp [(1, Pvarint u)] (signed 64 u) 0
| ts_nano n : 0 <= n <= 999999999 -> timestamp [(2, Pvarint n)] 0 n
| ts_both u n : 0 <= u < 2 ^ 64 -> -62135596800 <= signed 64 u < 253402300800 -> 0 <= n <= 999999999 ->
    timestamp [(1, Pvarint u); (2, Pvarint n)] (signed 64 u) n.

(** ** Unknown fields: at least [lo], increasing, with payloads of any kind. *)
Fixpoint unknown (lo : Z) (es : list entry) : Prop :=
  match es with
  | [] => True
  | (num, q) :: r => lo <= num < 2 ^ 29 /\ match q with Pvarint u => u < 2 ^ 64 | _ => True end /\ unknown (num + 1) r
  end.

Section Read.
  Variable env : tenv.
  Variable c : codec.

  (** Not read through another type. *)
  Definition plainly_read (t : gotype) : Prop := forall id, t = TNamed id -> te_unmarshal env id = None.
  (** Neither [t] itself nor what it points to is a pointer to an interface. *)
  Definition direct (t : gotype) : bool := negb (is_ptr t && is_iface (deref_type t)).
  (** A list value of type [t] with the elements [l].  Empty slices are nil. *)
  Inductive filled (t : gotype) (l : list value) : value -> Prop :=
  | fi_slice e : resolve env t = RSlice e -> l <> [] -> filled t l (VSlice (Some l))
  | fi_empty e : resolve env t = RSlice e -> l = [] -> filled t l (VSlice None)
  | fi_array e : resolve env t = RArray (length l) e -> filled t l (VArr l).
  (** Slices of bytes, possibly through UnmarshalAmino. *)
  Inductive byte_slice : gotype -> Prop :=
  | bs_plain t e : plainly_read t -> resolve env t = RSlice e -> is_uint8 env e = true -> byte_slice t
  | bs_method id r g : te_unmarshal env id = Some (UOk r g) -> byte_slice r -> byte_slice (TNamed id).

  (** [tag] tells that the contents of an interface [i] have the type of [ci]: the
      disambiguation and prefix bytes of any registered type, or prefix bytes which only
      one implementation of [i] has. *)
  Definition tells (i : ifid) (tag : bytes) (ci : cinfo) (r : reginfo) : Prop :=
    In ci (cd_concretes c) /\ ci_reg ci = Some r /\
    (tag = 0 :: ri_disamb r ++ ri_prefix r \/
     tag = ri_prefix r /\ implementer env c i (ri_prefix r) ci /\
     forall ci', implementer env c i (ri_prefix r) ci' -> ci_type ci' = ci_type ci).

  (** [reads t o m q v]: a payload [q] is read by the non-pointer type [t] with options
      [o] as [v].  [m] tells messages and lists from strings, bytes and numbers; the first
      stand without length at top level and in interfaces. *)
  Inductive reads : gotype -> fopts -> bool -> payload -> value -> Prop :=
  | r_prim t o p q v : plainly_read t -> resolve env t = RPrim p -> prim_reads p o q = Some v -> reads t o false q v
  | r_time t o es b s ns : plainly_read t -> resolve env t = RTime -> timestamp es s ns -> message es b ->
      reads t o true (Plen b) (VTime s ns)
  | r_bytes t e o b v : plainly_read t -> list_of env t e -> is_uint8 env e = true ->
      e = TPrim PUint8 \/ (resolve env t = RSlice e /\ b = []) -> filled t (map VUint b) v -> reads t o false (Plen b) v
  | r_packed t e o l b v : plainly_read t -> list_of env t e -> is_uint8 env e = false -> delimited env e = false -> known env c e = true ->
      type_wire env (deref_type e) o <> None -> packed_reads e o b l -> filled t l v -> reads t o true (Plen b) v
  | r_list t e o cut es l b v : plainly_read t -> list_of env t e -> is_uint8 env e = false -> delimited env e = true -> known env c e = true ->
      0 <= fo_num o < 2 ^ 29 -> elems_read cut (fo_num o) e o es l -> message es (if cut then b ++ [0] else b) -> filled t l v -> reads t o true (Plen b) v
  | r_struct t fs o cut es b l : plainly_read t -> resolve env t = RStruct fs ->
      fields_read cut 1 fs es l -> message es (if cut then b ++ [0] else b) -> reads t o true (Plen b) (VStruct l)
  | r_iface i o tag ci r m q body w : known env c (TIface i) = true -> tells i tag ci r -> struct_like env (ci_type ci) = true ->
      te_impl env (if ri_ptr r then TPtr (ci_type ci) else ci_type ci) i = true ->
      reads (ci_type ci) o m q w -> (if m then q = Plen body else payload_bytes q body) ->
      reads (TIface i) o true (Plen (tag ++ body))
        (VIface (Some (if ri_ptr r then (TPtr (ci_type ci), VPtr (Some w)) else (ci_type ci, w))))
  | r_method id r g o m q w v : te_unmarshal env id = Some (UOk r g) -> known env c r = true -> reads r o m q w ->
      g (zero env (TNamed id)) w = EOk (v, None) -> reads (TNamed id) o m q v

  (** Packed elements; pointers to zero numbers are read as nil. *)
  with packed_reads : gotype -> fopts -> bytes -> list value -> Prop :=
  | kr_nil e o : packed_reads e o [] []
  | kr_cons e o m q w b bs l : direct e = true -> reads (deref_type e) o m q w -> payload_bytes q b -> packed_reads e o bs l ->
      packed_reads e o (b ++ bs) ((if is_ptr e && defaultv w then VPtr None else ptrs e w) :: l)

  (** One entry per element.  Empty entries are elements that are absent, unless the list
      has the empty_elements tag and holds struct pointers.  The length of
      an empty slice of bytes is not missed at the end: the entries are cut. *)
  with elems_read : bool -> Z -> gotype -> fopts -> list entry -> list value -> Prop :=
  | er_nil num e o : elems_read false num e o [] []
  | er_default cut num e o es l : is_ptr e && is_struct env (deref_type e) && fo_empty_elements o = false ->
      elems_read cut num e o es l -> elems_read cut num e o ((num, Plen []) :: es) (absent env e :: l)
  | er_cons cut num e o b m w es l : b <> [] \/ is_ptr e && is_struct env (deref_type e) && fo_empty_elements o = true ->
      direct e = true -> reads (deref_type e) (set_num 1 o) m (Plen b) w -> elems_read cut num e o es l ->
      elems_read cut num e o ((num, Plen b) :: es) (ptrs e w :: l)
  | er_cut num e o m w : byte_slice (deref_type e) -> reads (deref_type e) (set_num 1 o) m (Plen []) w ->
      elems_read true num e o [(num, Plen [])] [ptrs e w]

  (** Fields in declaration order, numbered from [num], then unknown fields.  A field
      without entry is absent; for a list with one entry per element this is
      only so if there are no entries any more, otherwise it has no elements. *)
  with fields_read : bool -> Z -> list sfield -> list entry -> list value -> Prop :=
  | fr_nil num es : unknown num es -> fields_read false num [] es []
  | fr_hidden cut num f fs es l : field_opts num f = None -> fields_read cut num fs es l ->
      fields_read cut num (f :: fs) es (zero env (sf_type f) :: l)
  | fr_absent cut num f fs o es l : field_opts num f = Some o -> num < 2 ^ 29 -> known env c (sf_type f) = true ->
      entries env (sf_type f) = false \/ es = [] -> fields_read cut (num + 1) fs es l ->
      fields_read cut num (f :: fs) es (absent env (sf_type f) :: l)
  | fr_one cut num f fs o m q w es l : field_opts num f = Some o -> num < 2 ^ 29 -> known env c (sf_type f) = true ->
      entries env (sf_type f) = false -> direct (sf_type f) = true ->
      type_wire env (deref_type (sf_type f)) o = Some (wire_type q) -> reads (deref_type (sf_type f)) o m q w ->
      fields_read cut (num + 1) fs es l -> fields_read cut num (f :: fs) ((num, q) :: es) (ptrs (sf_type f) w :: l)
  | fr_cut num f fs o m w l : field_opts num f = Some o -> num < 2 ^ 29 -> known env c (sf_type f) = true ->
      entries env (sf_type f) = false -> byte_slice (deref_type (sf_type f)) ->
      type_wire env (deref_type (sf_type f)) o = Some 2 -> reads (deref_type (sf_type f)) o m (Plen []) w ->
      fields_read false (num + 1) fs [] l -> fields_read true num (f :: fs) [(num, Plen [])] (ptrs (sf_type f) w :: l)
  | fr_list cut cut' num f fs o e es' es vs v l : field_opts num f = Some o -> num < 2 ^ 29 -> known env c (sf_type f) = true ->
      entries env (sf_type f) = true -> plainly_read (sf_type f) -> list_of env (sf_type f) e -> known env c e = true ->
      elems_read cut' num e o es' vs -> filled (sf_type f) vs v -> es' <> [] \/ es <> [] -> (cut' = true -> es = []) ->
      fields_read cut (num + 1) fs es l -> fields_read (cut || cut') num (f :: fs) (es' ++ es) (v :: l).
End Read.

(** ** Bytes and types for which nothing else is read *)

(** No base-128 number anywhere has superfluous zero digits.  (The decoder accepts
    such numbers, but goes astray after lengths written like this, see C19.) *)
Definition tidy (bz : bytes) : Prop := forall a x b, bz = a ++ x :: 0 :: b -> x < 128.

Section Readable.
  Variable env : tenv.
  Variable c : codec.
  Variable mem : gotype -> bool.   (* the set; it holds no pointer types *)

  Fixpoint readable_fields (num : Z) (fs : list sfield) : bool :=
    match fs with
    | [] => true
    | f :: fs' =>
        match field_opts num f with
        | None => readable_fields num fs'
        | Some o =>
            (num <? 2 ^ 29) &&
            (if entries env (sf_type f)
             then match sf_type f with TNamed id => match te_unmarshal env id with None => true | _ => false end | _ => true end &&
                  match resolve env (sf_type f) with RArray _ e | RSlice e => mem (deref_type e) | _ => false end
             else mem (deref_type (sf_type f))) &&
            readable_fields (num + 1) fs'
        end
    end.
  (** A type of the set.  No maps, no times and, except as fields, no lists with one entry per
      element: their frames may hold more than they read (see C19).  UnmarshalAmino is given a
      type with the same wire type.  Implementations of interfaces are structs. *)
  Definition readable_type (t : gotype) : Prop :=
    match t with
    | TNamed id =>
        match te_unmarshal env id with
        | Some (UOk r _) => mem r = true /\ (forall o, type_wire env r o = type_wire env t o)
        | _ => True
        end
    | _ => True
    end /\
    (forall k e, resolve env t <> RMap k e) /\
    (plainly_read env t ->
     match resolve env t with
     | RTime => False
     | RArray _ e | RSlice e => is_uint8 env e = true \/ (delimited env e = false /\ mem (deref_type e) = true)
     | RStruct fs => readable_fields 1 fs = true
     | RIface _ => forall ci, In ci (cd_concretes c) -> mem (ci_type ci) = true /\ plainly_read env (ci_type ci) /\ exists fs, resolve env (ci_type ci) = RStruct fs
     | _ => True
     end).
  Definition readable : Prop := forall t, mem t = true -> readable_type t.
End Readable.
