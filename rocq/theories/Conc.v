(** Goroutines sharing one codec: the mutex of codec.go:131 and the accesses to the
    codec's maps, one at a time, in any interleaving. *)
From Coq Require Import ZArith String List Bool.
From Verif Require Import Base Prims Types Codec BinDec.
Import ListNotations.
Local Open Scope Z_scope.

(** The calls that touch the codec.  Marshal*/Unmarshal*/MarshalJSON/UnmarshalJSON
    touch it through the last six only. *)
Inductive call :=
| CIface (i : ifid) (o : option iopts)   (* codec.go:154 RegisterInterface *)
| CConc (t : gotype) (name : bytes)      (* codec.go:209 RegisterConcrete *)
| CSeal                                  (* codec.go:245 Seal *)
| CTypes                                 (* codec.go:259 PrintTypes, what it reads *)
| CGet (t : gotype)                      (* codec.go:366 getTypeInfoWlock *)
| CPrefix (i : ifid) (pb : bytes)        (* codec.go:394 getTypeInfoFromPrefixRlock *)
| CDisfix (df : bytes)                   (* codec.go:416 getTypeInfoFromDisfixRlock *)
| CName (n : bytes)                      (* codec.go:432 getTypeInfoFromNameRlock *)
| CAmbig (i : ifid) (pb : bytes).        (* binary-encode.go:248, no lock *)

(** What a call returns or panics with.  The [iinfo] in [AInfo] is what the pointer
    points to at that time; its Implementers, the only part that changes, are looked
    up again by the calls that use them. *)
Inductive answer :=
| ADone
| AInfo (i : tinfo)
| AConc (ci : cinfo)
| ATypes (l : list cinfo)
| AFlag (b : bool)
| AErr (e : error)
| APanic (p : panicmsg).

(** Code as a sequence of operations on the mutex and accesses to the codec. *)
Inductive prog :=
| PRet (a : answer)
| PLock (k : prog)
| PUnlock (k : prog)
| PRLock (k : prog)
| PRUnlock (k : prog)
| PRead (k : codec -> prog)
| PWrite (f : codec -> codec) (k : prog).

(** ** The code of the calls *)

Definition sealed_msg : panicmsg := "codec sealed"%string.

(** codec.go:329-336 assertNotSealed *)
Definition assert_not_sealed (k : prog) : prog :=
  PLock (PRead (fun c => if cd_sealed c then PUnlock (PRet (APanic sealed_msg)) else PUnlock k)).

Definition fail (p : panicmsg) : prog := PUnlock (PRet (APanic p)).   (* a panic with the deferred Unlock *)

(** codec.go:154-181; collectImplementersNolock and checkConflictsInPrioNolock work on
    the new TypeInfo, which is not shared yet *)
Definition iface_main (env : tenv) (i : ifid) (o : option iopts) : prog :=
  match new_iface_info env i o with
  | EOk info =>
      PLock (PRead (fun c =>
        let info := collect_implementers env (cd_concretes c) info in
        if negb (check_conflicts info) then fail "conflicts with other(s)"%string
        else PRead (fun c =>
          match find_iface i (cd_ifaces c) with
          | Some _ => fail "TypeInfo already exists"%string
          | None => PWrite (fun c => set_ifaces (cd_ifaces c ++ [info]) c) (PUnlock (PRet ADone))
          end)))
  | EPanic p => PRet (APanic p)
  | EErr e => PRet (APanic e)
  | EFuel => PRet (APanic "fuel"%string)
  end.

Definition set_nth (i : nat) (ii : iinfo) (c : codec) : codec :=
  set_ifaces (upd i ii (cd_ifaces c)) c.

(** codec.go:658-681 addCheckConflictsWithConcreteNolock, [n] interfaces from the
    [i]th on left *)
Fixpoint impl_loop (env : tenv) (ci : cinfo) (i n : nat) (k : prog) : prog :=
  match n with
  | O => k
  | S n' =>
      PRead (fun c =>
      match nth_error (cd_ifaces c) i with
      | None => fail "index out of range"%string
      | Some ii =>
          if negb (implements env ci ii) then impl_loop env ci (S i) n' k
          else
            PWrite (set_nth i (with_impls (add_impl (ci_prefix ci) ci (ii_impls ii)) ii))
            (PRead (fun c =>
             match nth_error (cd_ifaces c) i with
             | None => fail "index out of range"%string
             | Some ii' =>
                 if check_conflicts ii' then impl_loop env ci (S i) n' k
                 else PWrite (set_nth i (with_impls (restore_impl (ci_prefix ci) (ii_impls ii)) ii))
                        (fail "conflicts with other(s)"%string)
             end))
      end)
  end.

(** codec.go:338-364 setTypeInfoNolock, one map after the other *)
Definition set_types (t : gotype) (ci : cinfo) (c : codec) : codec :=
  {| cd_sealed := cd_sealed c; cd_types := (t, ci) :: cd_types c; cd_ifaces := cd_ifaces c;
     cd_concretes := cd_concretes c; cd_disfix := cd_disfix c; cd_names := cd_names c |}.
Definition set_concretes (ci : cinfo) (c : codec) : codec :=
  {| cd_sealed := cd_sealed c; cd_types := cd_types c; cd_ifaces := cd_ifaces c;
     cd_concretes := cd_concretes c ++ [ci]; cd_disfix := cd_disfix c; cd_names := cd_names c |}.
Definition set_disfix (ci : cinfo) (c : codec) : codec :=
  {| cd_sealed := cd_sealed c; cd_types := cd_types c; cd_ifaces := cd_ifaces c;
     cd_concretes := cd_concretes c; cd_disfix := (ci_disfix ci, ci) :: cd_disfix c; cd_names := cd_names c |}.
Definition set_names (name : bytes) (ci : cinfo) (c : codec) : codec :=
  {| cd_sealed := cd_sealed c; cd_types := cd_types c; cd_ifaces := cd_ifaces c;
     cd_concretes := cd_concretes c; cd_disfix := cd_disfix c; cd_names := (name, ci) :: cd_names c |}.
Definition set_prog (ci : cinfo) (name : bytes) : prog :=
  PRead (fun c =>
  match assoc gotype_eqb (ci_type ci) (cd_types c) with
  | Some _ => fail "TypeInfo already exists"%string
  | None =>
      PWrite (set_types (ci_type ci) ci)
      (PWrite (set_concretes ci)
      (PRead (fun c =>
       match assoc beqb (ci_disfix ci) (cd_disfix c) with
       | Some _ => fail "disfix already registered"%string
       | None =>
           PRead (fun c =>
           match assoc beqb name (cd_names c) with
           | Some _ => fail "name already registered"%string
           | None => PWrite (set_disfix ci) (PWrite (set_names name ci) (PUnlock (PRet ADone)))
           end)
       end)))
  end).

(** codec.go:212-243, after assertNotSealed *)
Definition conc_main (env : tenv) (t : gotype) (name : bytes) : prog :=
  let reg (rt : gotype) (ptr : bool) : prog :=
    match new_registered_info env rt ptr name with
    | EOk ci => PLock (PRead (fun c => impl_loop env ci 0 (length (cd_ifaces c)) (set_prog ci name)))
    | EPanic p => PRet (APanic p)
    | EErr e => PRet (APanic e)
    | EFuel => PRet (APanic "fuel"%string)
    end in
  match t with
  | TIface _ => PRet (APanic "expected a non-interface"%string)
  | TPtr (TPtr _) => PRet (APanic "registering pointer-pointers not yet supported"%string)
  | TPtr (TIface _) => PRet (APanic "registering interface-pointers not yet supported"%string)
  | TPtr e => reg e true
  | _ => reg t false
  end.

(** codec.go:366-390 getTypeInfoWlock.  The Unlock is not deferred: if
    newTypeInfoUnregistered panics, the mutex stays locked. *)
Definition get_prog (env : tenv) (t : gotype) : prog :=
  PLock (PRead (fun c =>
  match deref_type t with
  | TIface i =>
      match find_iface i (cd_ifaces c) with
      | Some ii => PUnlock (PRet (AInfo (TIFace ii)))
      | None => PUnlock (PRet (AErr "unregistered interface"%string))
      end
  | rt =>
      match assoc gotype_eqb rt (cd_types c) with
      | Some ci => PUnlock (PRet (AInfo (TIConc ci)))
      | None =>
          match new_type_info env rt with
          | EOk ci => PWrite (add_type rt ci) (PUnlock (PRet (AInfo (TIConc ci))))
          | EErr e => PUnlock (PRet (AErr e))
          | EPanic p => PRet (APanic p)
          | EFuel => PRet (APanic "fuel"%string)
          end
      end
  end)).

(** codec.go:394-414 getTypeInfoFromPrefixRlock; infos[0] of an empty list panics, and
    the RUnlock is not deferred either *)
Definition prefix_prog (i : ifid) (pb : bytes) : prog :=
  PRLock (PRead (fun c =>
  match find_iface i (cd_ifaces c) with
  | None => PRUnlock (PRet (AErr "unregistered interface"%string))
  | Some ii =>
      match type_info_from_prefix ii pb with
      | EOk ci => PRUnlock (PRet (AConc ci))
      | EErr e => PRUnlock (PRet (AErr e))
      | EPanic p => PRet (APanic p)
      | EFuel => PRet (APanic "fuel"%string)
      end
  end)).

Definition of_conc (r : eres cinfo) : answer :=
  match r with
  | EOk ci => AConc ci
  | EErr e => AErr e
  | EPanic p => APanic p
  | EFuel => APanic "fuel"%string
  end.
(** len(iinfo.Implementers[pb]) > 1 *)
Definition ambiguous (i : ifid) (pb : bytes) (c : codec) : bool :=
  match find_iface i (cd_ifaces c) with
  | Some ii => (1 <? length match assoc beqb pb (ii_impls ii) with Some l => l | None => [] end)%nat
  | None => false
  end.

Definition prog_of (env : tenv) (x : call) : prog :=
  match x with
  | CIface i o => assert_not_sealed (iface_main env i o)
  | CConc t n => assert_not_sealed (conc_main env t n)
  | CSeal => PLock (PWrite seal (PUnlock (PRet ADone)))
  | CTypes => PRLock (PRead (fun c => PRUnlock (PRet (ATypes (cd_concretes c)))))
  | CGet t => get_prog env t
  | CPrefix i pb => prefix_prog i pb
  | CDisfix df => PRLock (PRead (fun c => PRUnlock (PRet (of_conc (type_info_from_disfix c df)))))
  | CName n => PRLock (PRead (fun c => PRUnlock (PRet (of_conc (type_info_from_name c n)))))
  | CAmbig i pb => PRead (fun c => PRet (AFlag (ambiguous i pb c)))
  end.

(** ** Goroutines *)

(** What a goroutine does: calls, each chosen by the answers so far (panics are
    recovered). *)
Inductive client :=
| Stop
| Call (x : call) (k : answer -> client).

(** Between calls, or in a call [x] with [p] left to do.  [m] records which lock the call
    holds; no step looks at it. *)
Inductive mode := Out | W | R.
Inductive thread :=
| Idle (cl : client)
| Busy (x : call) (m : mode) (p : prog) (k : answer -> client).

(** sync.RWMutex: locked for writing, or by so many readers.  (That a waiting Lock
    makes later RLocks wait takes nothing but steps away; see C34.) *)
Record state := {
  st_codec : codec;
  st_writer : bool;
  st_readers : nat;
  st_threads : list thread;
  st_log : list (nat * call * answer)   (* the calls that have returned, and what *)
}.

Definition set_thread (i : nat) (th : thread) (s : state) : state :=
  {| st_codec := st_codec s; st_writer := st_writer s; st_readers := st_readers s;
     st_threads := upd i th (st_threads s); st_log := st_log s |}.
Definition set_lock (w : bool) (r : nat) (s : state) : state :=
  {| st_codec := st_codec s; st_writer := w; st_readers := r; st_threads := st_threads s; st_log := st_log s |}.
Definition set_codec (c : codec) (s : state) : state :=
  {| st_codec := c; st_writer := st_writer s; st_readers := st_readers s; st_threads := st_threads s; st_log := st_log s |}.
Definition add_log (e : nat * call * answer) (s : state) : state :=
  {| st_codec := st_codec s; st_writer := st_writer s; st_readers := st_readers s; st_threads := st_threads s; st_log := st_log s ++ [e] |}.

(** Thread [i] goes on with [p]; if nothing is left, the call returns. *)
Definition settle (i : nat) (x : call) (m : mode) (p : prog) (k : answer -> client) (s : state) : state :=
  match p with
  | PRet a => add_log (i, x, a) (set_thread i (Idle (k a)) s)
  | _ => set_thread i (Busy x m p k) s
  end.

(** One step of thread [i]; [None] if it has nothing to do or has to wait. *)
Definition tstep (env : tenv) (i : nat) (s : state) : option state :=
  match nth_error (st_threads s) i with
  | None => None
  | Some (Idle Stop) => None
  | Some (Idle (Call x k)) => Some (settle i x Out (prog_of env x) k s)
  | Some (Busy x m p k) =>
      match p with
      | PRet _ => None
      | PLock q => if st_writer s || (0 <? st_readers s)%nat then None
                   else Some (settle i x W q k (set_lock true 0 s))
      | PUnlock q => if st_writer s then Some (settle i x Out q k (set_lock false (st_readers s) s)) else None
      | PRLock q => if st_writer s then None
                    else Some (settle i x R q k (set_lock false (S (st_readers s)) s))
      | PRUnlock q => match st_readers s with
                      | O => None
                      | S r => Some (settle i x Out q k (set_lock (st_writer s) r s))
                      end
      | PRead f => Some (settle i x m (f (st_codec s)) k s)
      | PWrite f q => Some (settle i x m q k (set_codec (f (st_codec s)) s))
      end
  end.

Definition start (c : codec) (cls : list client) : state :=
  {| st_codec := c; st_writer := false; st_readers := 0; st_threads := map Idle cls; st_log := [] |}.

(** Any interleaving. *)
Inductive steps (env : tenv) : state -> state -> Prop :=
| ss_refl s : steps env s s
| ss_step s s' s'' i : steps env s s' -> tstep env i s' = Some s'' -> steps env s s''.

(** A given one. *)
Fixpoint sched (env : tenv) (l : list nat) (s : state) : option state :=
  match l with
  | [] => Some s
  | i :: l' => match tstep env i s with Some s' => sched env l' s' | None => None end
  end.
