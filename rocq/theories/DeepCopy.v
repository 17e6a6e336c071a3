(** Model of deep_copy.go, over a heap. *)
From Coq Require Import ZArith String List Bool.
From Verif Require Import Base Types.
Import ListNotations.
Local Open Scope Z_scope.

(** ** Values with pointers *)

(** A location: a cell of the heap and a path into the arrays and structs in it
    (Go pointers may point into the middle of a variable). *)
Definition loc := (nat * list nat)%type.

(** Like [value] of Types.v, but pointers, slices and maps refer to the heap.  A
    slice is the location of its array with offset and length (its capacity is
    not modelled).  The location of a time and the bytes of a string are
    immutable and not represented.  [HFunc]/[HOther] carry whether they are nil. *)
Inductive hvalue :=
| HBool (b : bool)
| HInt (z : Z)
| HUint (z : Z)
| HFloat (bits : Z)
| HStr (s : bytes)
| HTime (s ns : Z)
| HArr (l : list hvalue)
| HStruct (l : list hvalue)
| HPtr (o : option loc)
| HSlice (o : option (loc * nat * nat))
| HIface (o : option (gotype * hvalue))
| HMap (o : option nat)
| HFunc (isnil : bool)
| HOther (isnil : bool).

(** A cell holds a variable, or the entries of a map. *)
Inductive cell :=
| CVal (v : hvalue)
| CMap (l : list (hvalue * hvalue)).
Definition heap := list cell.

Fixpoint at_path (p : list nat) (v : hvalue) : option hvalue :=
  match p with
  | [] => Some v
  | i :: p' =>
      match v with
      | HArr l | HStruct l => match nth_error l i with Some w => at_path p' w | None => None end
      | _ => None
      end
  end.
Definition load (h : heap) (l : loc) : option hvalue :=
  match nth_error h (fst l) with
  | Some (CVal v) => at_path (snd l) v
  | _ => None
  end.
Definition load_map (h : heap) (a : nat) : option (list (hvalue * hvalue)) :=
  match nth_error h a with
  | Some (CMap l) => Some l
  | _ => None
  end.
(** The elements of a slice. *)
Definition load_slice (h : heap) (l : loc) (off len : nat) : option (list hvalue) :=
  match load h l with
  | Some (HArr es) => if (off + len <=? length es)%nat then Some (firstn len (skipn off es)) else None
  | _ => None
  end.

(** [reflect.Zero]; a zero value refers to nothing. *)
Fixpoint hzero_of (v : value) : hvalue :=
  match v with
  | VBool b => HBool b
  | VInt z => HInt z
  | VUint z => HUint z
  | VFloat b => HFloat b
  | VStr s => HStr s
  | VTime s ns => HTime s ns
  | VArr l => HArr (map hzero_of l)
  | VStruct l => HStruct (map hzero_of l)
  | VPtr _ => HPtr None
  | VSlice _ => HSlice None
  | VIface _ => HIface None
  | VMap _ => HMap None
  | VFunc _ => HFunc true
  | VOther | VInvalid => HOther true
  end.
Definition hzero (env : tenv) (t : gotype) : hvalue := hzero_of (zero env t).

(** reflect.go:166-173 [isNil] *)
Definition h_isnil (v : hvalue) : bool :=
  match v with
  | HPtr None | HSlice None | HIface None | HMap None | HFunc true | HOther true => true
  | _ => false
  end.

(** The element kinds that deep_copy.go:56-62, 75-81 copies with [reflect.Copy]. *)
Definition flat_kind (env : tenv) (t : gotype) : bool :=
  match resolve env t with RPrim _ => true | _ => false end.

(** ** Copying *)

Inductive cres (A : Type) :=
| COk (h : heap) (a : A)
| CPanic (p : panicmsg)
| CFuel.
Arguments COk {A} _ _.
Arguments CPanic {A} _.
Arguments CFuel {A}.

(** The loops over elements and fields. *)
Fixpoint copy_each (f : heap -> hvalue -> cres hvalue) (h : heap) (l : list hvalue) : cres (list hvalue) :=
  match l with
  | [] => COk h []
  | v :: l' =>
      match f h v with
      | COk h1 v' =>
          match copy_each f h1 l' with
          | COk h2 l2 => COk h2 (v' :: l2)
          | CPanic p => CPanic p
          | CFuel => CFuel
          end
      | CPanic p => CPanic p
      | CFuel => CFuel
      end
  end.
(** deep_copy.go:107-114: unexported fields are skipped, they stay zero. *)
Fixpoint copy_fields (env : tenv) (f : heap -> gotype -> hvalue -> cres hvalue) (h : heap)
         (fs : list sfield) (l : list hvalue) : cres (list hvalue) :=
  match fs, l with
  | sf :: fs', v :: l' =>
      match (if sf_exported sf then f h (sf_type sf) v else COk h (hzero env (sf_type sf))) with
      | COk h1 v' =>
          match copy_fields env f h1 fs' l' with
          | COk h2 l2 => COk h2 (v' :: l2)
          | CPanic p => CPanic p
          | CFuel => CFuel
          end
      | CPanic p => CPanic p
      | CFuel => CFuel
      end
  | [], [] => COk h []
  | _, _ => CPanic "ill-typed struct"%string
  end.

(** ** Methods of the program *)

(** deep_copy.go:152-181, 213-253.  [cm_copy t]: the method DeepCopy in the method set of [t],
    if it has no arguments and one result; the type of the result and what it does.  [cm_amino
    t]: the methods MarshalAmino and UnmarshalAmino in the method set of the pointer type to
    [t], if they have the types that [canAminoCopy] asks for; both are given the pointer.  A
    method may do anything to the heap. *)
Record cmethods := {
  cm_copy : gotype -> option (gotype * (heap -> hvalue -> cres hvalue));
  cm_amino : gotype -> option ((heap -> hvalue -> cres (hvalue * option panicmsg)) *
                               (heap -> hvalue -> hvalue -> cres (option panicmsg)))
}.

(** deep_copy.go:152-178 [callDeepCopy]; [None] for false.  The new variable (166) is made
    here after the call. *)
Definition call_copy (cm : cmethods) (h : heap) (t : gotype) (v : hvalue) : option (cres hvalue) :=
  match cm_copy cm t with
  | Some (ot, f) =>
      if match t with TPtr e => gotype_eqb e ot | _ => false end then                 (* 164-171 *)
        Some (match f h v with
              | COk h1 x => COk (h1 ++ [CVal x]) (HPtr (Some (length h1, [])))
              | CPanic p => CPanic p
              | CFuel => CFuel
              end)
      else if gotype_eqb t ot then Some (f h v)                                       (* 172-176 *)
      else None
  | None => None
  end.
(** deep_copy.go:183-221 [callAminoCopy]; [addr] tells whether [src] is addressable.  If it is
    and is no pointer, [dst.Addr()] is stored to (207), which reflect does not allow.  The
    variable made at 189, which is not used, is left out. *)
Definition call_amino (env : tenv) (cm : cmethods) (addr : bool) (h : heap) (t : gotype) (v : hvalue) : option (cres hvalue) :=
  match t with
  | TPtr e =>
      match cm_amino cm e with
      | Some (mar, unm) =>
          let dst := HPtr (Some (length h, [])) in
          Some (match mar (h ++ [CVal (hzero env e)]) v with
                | COk h1 (repr, None) =>
                    match unm h1 dst repr with
                    | COk h2 None => COk h2 dst
                    | COk _ (Some p) => CPanic p
                    | CPanic p => CPanic p
                    | CFuel => CFuel
                    end
                | COk _ (_, Some p) => CPanic p
                | CPanic p => CPanic p
                | CFuel => CFuel
                end)
      | None => None
      end
  | _ =>
      if addr then
        match cm_amino cm t with
        | Some _ => Some (CPanic "reflect: reflect.flag.mustBeAssignable using unaddressable value"%string)
        | None => None
        end
      else None
  end.
(** deep_copy.go:32-37 *)
Definition call_methods (env : tenv) (cm : cmethods) (addr : bool) (h : heap) (t : gotype) (v : hvalue) : option (cres hvalue) :=
  match call_copy cm h t v with
  | Some r => Some r
  | None => call_amino env cm addr h t v
  end.

(** deep_copy.go:28-39 [deepCopy] (with [check]) and 41-146 [_deepCopy] (without:
    what a pointer points to is not tested for nil).  [t] is the type of [src];
    the result is the contents of [dst] and the heap with the new cells.  [addr]
    tells whether [src] is addressable: what a pointer points to and the elements
    of a slice are, fields and elements of arrays are if the whole is.  In Go the
    new variable is made before its contents are copied into it; here the cell is
    added afterwards.  Map keys different from themselves (NaN) are not modelled. *)
Fixpoint deep (fuel : nat) (env : tenv) (cm : cmethods) (check addr : bool) (h : heap) (t : gotype) (v : hvalue) : cres hvalue :=
  match fuel with
  | O => CFuel
  | S fuel' =>
      if check && h_isnil v then COk h v
      else
        match (if check then call_methods env cm addr h t v else None) with
        | Some r => r
        | None =>
        match resolve env t, v with
        | RPtr e, HPtr (Some l) =>                                            (* 44-48 *)
            match load h l with
            | Some x =>
                match deep fuel' env cm false true h e x with
                | COk h1 x' => COk (h1 ++ [CVal x']) (HPtr (Some (length h1, [])))
                | CPanic p => CPanic p
                | CFuel => CFuel
                end
            | None => CPanic "dangling pointer"%string
            end
        | RPtr _, HPtr None => CPanic "unsupported type invalid"%string
        | RIface _, HIface (Some (ct, x)) =>                                  (* 50-54 *)
            match deep fuel' env cm true false h ct x with
            | COk h1 x' => COk h1 (HIface (Some (ct, x')))
            | CPanic p => CPanic p
            | CFuel => CFuel
            end
        | RIface _, HIface None => CPanic "reflect: call of reflect.Value.Type on zero Value"%string
        | RArray n e, HArr l =>                                               (* 56-72 *)
            if flat_kind env e then COk h v
            else match copy_each (fun h x => deep fuel' env cm true addr h e x) h l with
                 | COk h1 l' => COk h1 (HArr l')
                 | CPanic p => CPanic p
                 | CFuel => CFuel
                 end
        | RSlice e, HSlice None => COk h v                                    (* 74-99, length 0 *)
        | RSlice e, HSlice (Some (l, off, len)) =>                            (* 74-99: dst.Set(src) *)
            if flat_kind env e then COk h v
            else match load_slice h l off len with
                 | Some es =>
                     match copy_each (fun h x => deep fuel' env cm true true h e x) h es with
                     | COk h1 _ => COk h1 v
                     | CPanic p => CPanic p
                     | CFuel => CFuel
                     end
                 | None => CPanic "dangling slice"%string
                 end
        | RTime, HTime _ _ => COk h v                                         (* 103-105 *)
        | RStruct fs, HStruct l =>                                            (* 106-115 *)
            match copy_fields env (fun h ft x => deep fuel' env cm true addr h ft x) h fs l with
            | COk h1 l' => COk h1 (HStruct l')
            | CPanic p => CPanic p
            | CFuel => CFuel
            end
        | RMap _ _, HMap o =>                                                 (* 118-126 *)
            match match o with Some a => load_map h a | None => Some [] end with
            | Some es => COk (h ++ [CMap es]) (HMap (Some (length h)))
            | None => CPanic "dangling map"%string
            end
        | RPrim _, _ => COk h v                                               (* 129-140 *)
        | _, _ => CPanic "unsupported type"%string                            (* 142-143 *)
        end
        end
  end.

(** deep_copy.go:18-26 [DeepCopy(o)], [o] holding [v] of type [t].  reflect.ValueOf(o) is not
    addressable. *)
Definition deep_copy (fuel : nat) (env : tenv) (cm : cmethods) (h : heap) (t : gotype) (v : hvalue) : cres hvalue :=
  deep fuel env cm true false h t v.
