(** One connection per relay: EnsureRelay by many callers at once, the named locks and Close of the pool:
    /repo/pool.go:60-76, 158-207, 789-792; /repo/helpers.go:13-28; /repo/relay.go:52-71, 129. *)
From Verif Require Import Base Machine FilterModel StoreModel.
Import ListNotations.

Definition max_locks : nat := 50.                                   (* helpers.go:13 *)
Section Ensure.
Variable norm : str -> str.                                          (* NormalizeURL, normalize.go:15-62 *)
Variable memhash : str -> nat.                                       (* runtime.memhash with a seed that does not change, helpers.go:20-22 *)
(** namedLock, helpers.go:24-28: the index of the mutex of a name. *)
Definition lock_of (name : str) : nat := memhash name mod max_locks.

(** A call of EnsureRelay: waiting for its lock, past it (line 167), dialing (line 194), or returned with the relay or an error.
    Relays are the numbers of the connections made. penaltyBoxMu is held only for a few assignments and left out (the box itself is in PoolModel);
    the map never holds nil, so lines 170-178 do nothing. *)
Inductive ecall := EWaiting | EChecking | EDialing | EReturned (r : option nat).
Record estate := mkE {
  e_calls : list (str * ecall);          (* the url passed and how far the call is *)
  e_locks : list bool;                   (* namedMutexPool: which are locked *)
  e_relays : list (str * nat);           (* pool.Relays *)
  e_conns : list (str * bool);           (* connections made: the normalized url and whether the connection's context is alive *)
  e_open : bool }.                       (* pool.Context is alive *)
Inductive eaction :=
| ECall (url : str)                      (* somebody calls EnsureRelay *)
| ELock (i : nat)                        (* namedLock returns *)
| ECheck (i : nat)                       (* lines 169-182 *)
| EDial (i : nat) (ok : bool)            (* lines 184-206 *)
| EDropped (k : nat)                     (* Close of the relay, a read error or three pings lost *)
| EPoolClosed.                           (* pool.Close, lines 789-792 *)
Definition with_call (s : estate) (i : nat) (url : str) (c : ecall) : list (str * ecall) := upd (e_calls s) i (url, c).
Definition unlocked (s : estate) (url : str) : list bool := upd (e_locks s) (lock_of (norm url)) false.
Definition ensure_step (a : eaction) (s : estate) : option estate :=
  match a with
  | ECall url => Some (mkE (e_calls s ++ [(url, EWaiting)]) (e_locks s) (e_relays s) (e_conns s) (e_open s))
  | ELock i =>
      match nth_error (e_calls s) i with
      | Some (url, EWaiting) =>
          match nth_error (e_locks s) (lock_of (norm url)) with
          | Some false => Some (mkE (with_call s i url EChecking) (upd (e_locks s) (lock_of (norm url)) true) (e_relays s) (e_conns s) (e_open s))
          | _ => None
          end
      | _ => None
      end
  | ECheck i =>
      match nth_error (e_calls s) i with
      | Some (url, EChecking) =>
          match assoc (norm url) (e_relays s) with
          | Some k => match nth_error (e_conns s) k with
                      | Some (_, true) => Some (mkE (with_call s i url (EReturned (Some k))) (unlocked s url) (e_relays s) (e_conns s) (e_open s))
                      | _ => Some (mkE (with_call s i url EDialing) (e_locks s) (e_relays s) (e_conns s) (e_open s))
                      end
          | None => Some (mkE (with_call s i url EDialing) (e_locks s) (e_relays s) (e_conns s) (e_open s))
          end
      | _ => None
      end
  | EDial i ok =>
      match nth_error (e_calls s) i with
      | Some (url, EDialing) =>
          if ok then
            if e_open s then                                         (* the dial's context comes from pool.Context; the relay's does not, line 193 *)
              Some (mkE (with_call s i url (EReturned (Some (length (e_conns s))))) (unlocked s url)
                        (mset (norm url) (length (e_conns s)) (e_relays s)) (e_conns s ++ [(norm url, true)]) (e_open s))
            else None
          else Some (mkE (with_call s i url (EReturned None)) (unlocked s url) (e_relays s) (e_conns s) (e_open s))
      | _ => None
      end
  | EDropped k =>
      match nth_error (e_conns s) k with
      | Some (u, true) => Some (mkE (e_calls s) (e_locks s) (e_relays s) (upd (e_conns s) k (u, false)) (e_open s))
      | _ => None
      end
  | EPoolClosed => Some (mkE (e_calls s) (e_locks s) (e_relays s) (e_conns s) false)
  end.
Definition ensure_init : estate := mkE [] (repeat false max_locks) [] [] true.
End Ensure.
