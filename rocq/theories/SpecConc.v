(** Specification of concurrent use: the calls one after another, at once. *)
From Coq Require Import ZArith String List Bool.
From Verif Require Import Base Prims Types Codec Registry Conc.
Import ListNotations.
Local Open Scope Z_scope.

Definition outcome (r : rres) : codec * answer :=
  (fst r, match snd r with None => ADone | Some p => APanic p end).
Definition of_info (r : eres tinfo) : answer :=
  match r with
  | EOk i => AInfo i
  | EErr e => AErr e
  | EPanic p => APanic p
  | EFuel => APanic "fuel"%string
  end.

(** What a call answers and leaves when it runs by itself. *)
Definition reply (env : tenv) (c : codec) (x : call) : codec * answer :=
  match x with
  | CIface i o => outcome (step env c (OIface i o))
  | CConc t n => outcome (step env c (OConc t n))
  | CSeal => outcome (step env c OSeal)
  | CTypes => (c, ATypes (cd_concretes c))
  | CGet t => (fst (step env c (OUse t)), of_info (get_type_info env c t))
  | CPrefix i pb =>
      (c, match find_iface i (cd_ifaces c) with
          | Some ii => of_conc (type_info_from_prefix ii pb)
          | None => AErr "unregistered interface"%string
          end)
  | CDisfix df => (c, of_conc (type_info_from_disfix c df))
  | CName n => (c, of_conc (type_info_from_name c n))
  | CAmbig i pb => (c, AFlag (ambiguous i pb c))
  end.

Definition registers (x : call) : bool := match x with CIface _ _ | CConc _ _ => true | _ => false end.
Definition unlocked (x : call) : bool := match x with CAmbig _ _ => true | _ => false end.

Definition with_sealed (b : bool) (c : codec) : codec :=
  {| cd_sealed := b; cd_types := cd_types c; cd_ifaces := cd_ifaces c;
     cd_concretes := cd_concretes c; cd_disfix := cd_disfix c; cd_names := cd_names c |}.

(** The answered calls of a log, made one after another on [c], leave [c'].  Two
    exceptions: a registration may still go through on a sealed codec, if it was
    found unsealed before, and the answers of calls without lock are not explained. *)
Inductive replay (env : tenv) : codec -> list (nat * call * answer) -> codec -> Prop :=
| rp_nil c : replay env c [] c
| rp_call c i x a c' l c'' : unlocked x = false -> reply env c x = (c', a) -> replay env c' l c'' ->
    replay env c ((i, x, a) :: l) c''
| rp_late c i x a c' l c'' : registers x = true -> cd_sealed c = true -> reply env (with_sealed false c) x = (c', a) ->
    replay env (with_sealed true c') l c'' -> replay env c ((i, x, a) :: l) c''
| rp_unlocked c i x a l c'' : unlocked x = true -> replay env c l c'' -> replay env c ((i, x, a) :: l) c''.

(** The calls of a log that may change the codec. *)
Definition op_of (x : call) : list op :=
  match x with
  | CIface i o => [OIface i o]
  | CConc t n => [OConc t n]
  | CSeal => [OSeal]
  | CGet t => [OUse t]
  | _ => []
  end.
Definition ops_of (l : list (nat * call * answer)) : list op := flat_map (fun e => op_of (snd (fst e))) l.

(** Somebody is in a call and holds the write lock, a read lock. *)
Definition in_mode (m : mode) (th : thread) : bool :=
  match th, m with
  | Busy _ W _ _, W => true
  | Busy _ R _ _, R => true
  | _, _ => false
  end.
Definition writing (s : state) : bool := existsb (in_mode W) (st_threads s).
Definition reading (s : state) : nat := length (filter (in_mode R) (st_threads s)).

(** Every lock is held by a call in progress. *)
Definition no_leak (s : state) : Prop := (st_writer s = true -> writing s = true) /\ st_readers s = reading s.

(** Lookups that panicked. *)
Definition get_panic (e : nat * call * answer) : Prop :=
  match e with
  | (_, CGet _, APanic _) => True
  | _ => False
  end.
Definition prefix_panic (e : nat * call * answer) : Prop :=
  match e with
  | (_, CPrefix _ _, APanic _) => True
  | _ => False
  end.

Definition finished (th : thread) : bool := match th with Idle Stop => true | _ => false end.
(** Waiting for, or about to ask for, the write lock. *)
Definition wants_lock (th : thread) : bool := match th with Busy _ _ (PLock _) _ => true | _ => false end.
Definition wants_rlock (th : thread) : bool := match th with Busy _ _ (PRLock _) _ => true | _ => false end.

(** About to write, about to read or write. *)
Definition at_write (th : thread) : bool := match th with Busy _ _ (PWrite _ _) _ => true | _ => false end.
Definition at_access (th : thread) : bool := match th with Busy _ _ (PWrite _ _ | PRead _) _ => true | _ => false end.

(** In the middle of a registration. *)
Definition registering (th : thread) : bool := match th with Busy x _ _ _ => registers x | _ => false end.

(** What registrations change. *)
Definition tables (c : codec) : list iinfo * list cinfo * list (bytes * cinfo) * list (bytes * cinfo) :=
  (cd_ifaces c, cd_concretes c, cd_disfix c, cd_names c).

(** Goroutines that only look up: what Marshal and Unmarshal do to the codec. *)
Definition lookup (x : call) : bool := match x with CIface _ _ | CConc _ _ | CSeal => false | _ => true end.
Fixpoint lookups (cl : client) : Prop :=
  match cl with
  | Stop => True
  | Call x k => lookup x = true /\ forall a, lookups (k a)
  end.

(** Somebody can go on; if by taking a read lock, nobody waits for the write lock. *)
Definition can_go (env : tenv) (s : state) : Prop :=
  exists i th s', nth_error (st_threads s) i = Some th /\ tstep env i s = Some s' /\ (wants_rlock th = true -> existsb wants_lock (st_threads s) = false).

(** Nobody has sealed the codec. *)
Definition no_seal (l : list (nat * call * answer)) : Prop := forall i a, ~ In (i, CSeal, a) l.

(** The calls of a log, made one after another on [c], give these answers and leave [c']. *)
Fixpoint serial (env : tenv) (c : codec) (l : list (nat * call * answer)) (c' : codec) : Prop :=
  match l with
  | [] => c' = c
  | (_, x, a) :: l' => snd (reply env c x) = a /\ serial env (fst (reply env c x)) l' c'
  end.
