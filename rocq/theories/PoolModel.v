(** The relay pool: queries over many relays, publishing to many, backoff. /repo/pool.go. *)
From Verif Require Import Base Machine.
Import ListNotations.

(** ** A query until the end of stored events, pool.go:582-688 (SubManyEose, subManyEoseNonOverwriteCheckDuplicate).
    One goroutine per URL; [rq_pending] are the events its subscription has ready (each in a dispatch goroutine, see SubModel),
    with a flag for those that arrived before the EOSE: the subscription gives its signal only after these (C43). The events
    themselves are represented by their ids. Middlewares are left out. *)
Inductive qphase := QConnecting | QRunning | QHold (id : str) (stored : bool) | QDone.
Record rq := mkRQ { rq_ph : qphase; rq_pending : list (str * bool); rq_eose : bool }.
Inductive qobs :=
| OMsg (i : nat) (id : str) (good late : bool)   (* an EVENT message; [good]: it matches and is signed; [late]: after the EOSE or the end *)
| ODeliver (i : nat) (id : str)
| OEarly (i : nat)                               (* CLOSED, a lost connection, a failed subscription, an auth retry *)
| OCancel
| OClose.
Record qstate := mkQ { q_relays : list rq; q_seen : list str; q_ctx : bool; q_closed : bool; q_log : list qobs }.

Inductive qaction :=
| YStart (i : nat) (ok : bool)
| YMsg (i : nat) (id : str) (good : bool)
| YEose (i : nat)
| YTake (i k : nat)        (* case evt := <-sub.Events, from the kth waiting dispatch *)
| YDeliver (i : nat)       (* events <- ie *)
| YEnd (i : nat)           (* case <-sub.EndOfStoredEvents *)
| YEarly (i : nat)         (* case <-sub.ClosedReason, or sub.Events closed *)
| YRetry (i : nat)         (* auth and goto subscribe *)
| YCtx (i : nat)           (* case <-ctx.Done() *)
| YCancel                  (* the caller's context ends *)
| YWait.                   (* wg.Wait(); cancel; close(events) *)

Fixpoint remove_nth {X} (k : nat) (l : list X) : list X :=
  match l, k with [], _ => [] | _ :: r, O => r | x :: r, S k' => x :: remove_nth k' r end.
Definition is_connecting (r : rq) : bool := match rq_ph r with QConnecting => true | _ => false end.
Definition is_done (r : rq) : bool := match rq_ph r with QDone => true | _ => false end.
Definition with_relay (s : qstate) (i : nat) (r : rq) (log : list qobs) : qstate :=
  mkQ (upd (q_relays s) i r) (q_seen s) (q_ctx s) (q_closed s) (log ++ q_log s).

Definition query_step (a : qaction) (s : qstate) : option qstate :=
  let on i (f : rq -> option qstate) := match nth_error (q_relays s) i with Some r => f r | None => None end in
  match a with
  | YStart i ok => on i (fun r =>
      match rq_ph r with
      | QConnecting => if ok then Some (with_relay s i (mkRQ QRunning (rq_pending r) (rq_eose r)) []) else Some (with_relay s i (mkRQ QDone [] false) [OEarly i])
      | _ => None
      end)
  | YMsg i id good => on i (fun r =>
      if is_connecting r then None else
        (* checkDuplicate: LoadOrStore *)
        let late := rq_eose r || is_done r in
        let o := OMsg i id good late in
        if existsb (seqb id) (q_seen s) then Some (mkQ (q_relays s) (q_seen s) (q_ctx s) (q_closed s) (o :: q_log s))
        else if good then Some (mkQ (upd (q_relays s) i (mkRQ (rq_ph r) (rq_pending r ++ [(id, negb (rq_eose r))]) (rq_eose r)))
                                    (id :: q_seen s) (q_ctx s) (q_closed s) (o :: q_log s))
        else Some (mkQ (q_relays s) (id :: q_seen s) (q_ctx s) (q_closed s) (o :: q_log s)))
  | YEose i => on i (fun r => if is_connecting r then None else Some (with_relay s i (mkRQ (rq_ph r) (rq_pending r) true) []))
  | YTake i k => on i (fun r =>
      match rq_ph r, nth_error (rq_pending r) k with
      | QRunning, Some (id, st) => Some (with_relay s i (mkRQ (QHold id st) (remove_nth k (rq_pending r)) (rq_eose r)) [])
      | _, _ => None
      end)
  | YDeliver i => on i (fun r =>
      match rq_ph r with QHold id st => Some (with_relay s i (mkRQ QRunning (rq_pending r) (rq_eose r)) [ODeliver i id]) | _ => None end)
  | YEnd i => on i (fun r =>
      match rq_ph r with
      | QRunning => if rq_eose r && negb (existsb snd (rq_pending r)) then Some (with_relay s i (mkRQ QDone (rq_pending r) (rq_eose r)) []) else None
      | _ => None
      end)
  | YEarly i => on i (fun r => match rq_ph r with QRunning => Some (with_relay s i (mkRQ QDone (rq_pending r) (rq_eose r)) [OEarly i]) | _ => None end)
  | YRetry i => on i (fun r => match rq_ph r with QRunning => Some (with_relay s i (mkRQ QRunning [] false) [OEarly i]) | _ => None end)
  | YCtx i => on i (fun r =>
      if q_ctx s then match rq_ph r with QRunning | QHold _ _ => Some (with_relay s i (mkRQ QDone (rq_pending r) (rq_eose r)) []) | _ => None end else None)
  | YCancel => if q_closed s then None else Some (mkQ (q_relays s) (q_seen s) true (q_closed s) (OCancel :: q_log s))
  | YWait => if forallb is_done (q_relays s) && negb (q_closed s) then Some (mkQ (q_relays s) (q_seen s) true true (OClose :: q_log s)) else None
  end.
Definition query_init (n : nat) : qstate := mkQ (repeat (mkRQ QConnecting [] false) n) [] false false [].

(** ** The end of a live subscription, pool.go:437-471 (subMany): pending, eoseWg and the deferred function. The work of the goroutines
    is left out: a goroutine sees its EOSE and, at some time, leaves. pending.Value() is read in one step (the striped counter may
    also be read while others change it). *)
Inductive gphase := GRun | GSeen | GClose | GEnd.
Record goroutine := mkG { g_ph : gphase; g_eosed : bool }.
Record mstate := mkM { m_gs : list goroutine; m_pending : Z; m_closes : nat; m_wg : Z; m_notified : nat; m_crash : bool }.
(** urls[i] is the first of its kind (slices.Index(urls, url) == i) *)
Fixpoint firsts (seen urls : list str) : list bool :=
  match urls with [] => [] | u :: r => negb (existsb (seqb u) seen) :: firsts (u :: seen) r end.
Definition fresh_count (urls : list str) : nat := length (filter (fun b => b) (firsts [] urls)).
Inductive maction := MEose (i : nat) | MDec (i : nat) | MCheck (i : nat) | MClose (i : nat) | MDone (i : nat) | MNotify.
Definition many_step (a : maction) (s : mstate) : option mstate :=
  let on i (f : goroutine -> option mstate) := match nth_error (m_gs s) i with Some g => f g | None => None end in
  if m_crash s then None else
  match a with
  | MEose i => on i (fun g =>    (* eosed.CompareAndSwap(false, true); eoseWg.Done() *)
      if g_eosed g then None else Some (mkM (upd (m_gs s) i (mkG (g_ph g) true)) (m_pending s) (m_closes s) (m_wg s - 1) (m_notified s) (Z.ltb (m_wg s - 1) 0)))
  | MDec i => on i (fun g => match g_ph g with GRun => Some (mkM (upd (m_gs s) i (mkG GSeen (g_eosed g))) (m_pending s - 1) (m_closes s) (m_wg s) (m_notified s) false) | _ => None end)
  | MCheck i => on i (fun g => match g_ph g with
      | GSeen => Some (mkM (upd (m_gs s) i (mkG (if Z.eqb (m_pending s) 0 then GClose else GEnd) (g_eosed g))) (m_pending s) (m_closes s) (m_wg s) (m_notified s) false)
      | _ => None end)
  | MClose i => on i (fun g => match g_ph g with      (* a second close panics *)
      | GClose => Some (mkM (upd (m_gs s) i (mkG GEnd (g_eosed g))) (m_pending s) (S (m_closes s)) (m_wg s) (m_notified s) (Nat.ltb 0 (m_closes s)))
      | _ => None end)
  | MDone i => on i (fun g => match g_ph g with       (* the deferred eoseWg.Done() *)
      | GEnd => if g_eosed g then None else Some (mkM (upd (m_gs s) i (mkG GEnd true)) (m_pending s) (m_closes s) (m_wg s - 1) (m_notified s) (Z.ltb (m_wg s - 1) 0))
      | _ => None end)
  | MNotify => if Z.eqb (m_wg s) 0 && Nat.eqb (m_notified s) 0 then Some (mkM (m_gs s) (m_pending s) (m_closes s) (m_wg s) 1 false) else None
  end.
(** After the loop: eoseWg.Done() once for each repeated URL. *)
Definition many_init (urls : list str) : mstate :=
  mkM (repeat (mkG GRun false) (fresh_count urls)) (Z.of_nat (length urls)) 0
      (Z.of_nat (length urls) - Z.of_nat (length urls - fresh_count urls)) 0 false.

(** ** FetchManyReplaceable, pool.go:318-414, and the test in relay.go:244-250. Arrivals of all relays in one order, [true] from the
    callback means skip. Go maps as association lists, the zero Timestamp for absent keys. *)
Section Replaceable.
Variables (K E : Type) (keqb : K -> K -> bool).
Record arrival := mkArr { a_key : K; a_ts : Z; a_event : E }.
Definition rmap (V : Type) := list (K * V).
Fixpoint rget {V} (k : K) (m : rmap V) : option V := match m with [] => None | (k', v) :: r => if keqb k k' then Some v else rget k r end.
Definition rset {V} (k : K) (v : V) (m : rmap V) : rmap V := (k, v) :: m.
(** The Compute callback: (skip, map) *)
Definition check_replaceable (k : K) (ts : Z) (latest : rmap Z) : bool * rmap Z :=
  let l := match rget k latest with Some x => x | None => 0%Z end in
  if Z.ltb l ts then (true, rset k ts latest) else (false, rset k l latest).
Definition fetch_one (st : rmap Z * rmap arrival) (a : arrival) : rmap Z * rmap arrival :=
  let '(latest, results) := st in
  let '(skip, latest') := check_replaceable (a_key a) (a_ts a) latest in
  (latest', if skip then results else rset (a_key a) a results).
Definition fetch_replaceable (l : list arrival) : rmap arrival := snd (fold_left fetch_one l ([], [])).
End Replaceable.
Arguments mkArr {K E}. Arguments a_key {K E}. Arguments a_ts {K E}. Arguments a_event {K E}.

(** ** PublishMany, pool.go:219-264 *)
Inductive perror := NoError | ErrConnect | ErrPublish (msg : str) | ErrAuth.
(** What the calls made by one goroutine return. [c_first], [c_second]: the error text of Publish, None for nil. *)
Record calls := mkCalls { c_connect : bool; c_first : option str; c_auth : bool; c_second : option str }.
Definition has_prefix (p s : str) : bool := seqb (firstn (length p) s) p.
Definition publish_one (handler : bool) (c : calls) : perror :=
  if negb (c_connect c) then ErrConnect
  else match c_first c with
       | None => NoError
       | Some e => if has_prefix (B "msg: auth-required:") e && handler
                   then if c_auth c then match c_second c with None => NoError | Some e2 => ErrPublish e2 end else ErrAuth
                   else ErrPublish e
       end.
Inductive wphase := WWork | WSent | WFinished.
Record wstate := mkW { w_gs : list (str * calls * wphase); w_ch : list (nat * str * perror); w_cap : nat; w_taken : list (nat * str * perror); w_count : nat; w_closed : bool }.
Inductive waction := KSend (i : nat) | KDone (i : nat) | KTake | KClose.
Definition many_publish_step (handler : bool) (a : waction) (s : wstate) : option wstate :=
  match a with
  | KSend i => match nth_error (w_gs s) i with
      | Some (u, c, WWork) => if Nat.ltb (length (w_ch s)) (w_cap s)   (* a full channel blocks *)
          then Some (mkW (upd (w_gs s) i (u, c, WSent)) (w_ch s ++ [(i, u, publish_one handler c)]) (w_cap s) (w_taken s) (w_count s) (w_closed s)) else None
      | _ => None end
  | KDone i => match nth_error (w_gs s) i with
      | Some (u, c, WSent) => Some (mkW (upd (w_gs s) i (u, c, WFinished)) (w_ch s) (w_cap s) (w_taken s) (w_count s - 1) (w_closed s))
      | _ => None end
  | KTake => match w_ch s with r :: l => Some (mkW (w_gs s) l (w_cap s) (w_taken s ++ [r]) (w_count s) (w_closed s)) | [] => None end
  | KClose => if Nat.eqb (w_count s) 0 && negb (w_closed s) then Some (mkW (w_gs s) (w_ch s) (w_cap s) (w_taken s) 0 true) else None
  end.
Definition many_publish_init (l : list (str * calls)) : wstate :=
  mkW (map (fun p => (fst p, snd p, WWork)) l) [] (length l) [] (length l) false.

(** ** EnsureRelay and the penalty box, pool.go:98-131, 158-206. One relay URL; pool.Relays never holds a nil pointer because only
    connected relays are stored. Seconds as integers (float64 in the code). The sleeping goroutine wakes after [b_sleep]. *)
Record box := mkBox { b_stored : bool;             (* pool.Relays has an entry *)
                      b_nil : bool;                (* ... which is nil *)
                      b_connected : bool;
                      b_pen : option (Z * Z);      (* penaltyBox[nm] *)
                      b_sleep : Z; b_slept : Z; b_now : Z;
                      b_dials : list (Z * bool) }. (* times and results of connection attempts, newest first *)
Inductive baction := EEnsure (success : bool) | EDrop | EWait (dt : Z) | ETick.
Definition pen_get (b : box) : Z * Z := match b_pen b with Some v => v | None => (0, 0)%Z end.
Definition box_step (a : baction) (b : box) : option box :=
  match a with
  | EEnsure ok =>
      if b_stored b && b_nil b && Z.ltb 0 (snd (pen_get b)) then Some b            (* in penalty box *)
      else if b_stored b && negb (b_nil b) && b_connected b then Some b           (* already connected *)
      else if ok then Some (mkBox true false true (b_pen b) (b_sleep b) (b_slept b) (b_now b) ((b_now b, true) :: b_dials b))
      else Some (mkBox (b_stored b) (b_nil b) (b_connected b) (Some (fst (pen_get b) + 1, 30 + 2 ^ (fst (pen_get b) + 1))%Z)
                       (b_sleep b) (b_slept b) (b_now b) ((b_now b, false) :: b_dials b))
  | EDrop => Some (mkBox (b_stored b) (b_nil b) false (b_pen b) (b_sleep b) (b_slept b) (b_now b) (b_dials b))
  | EWait dt => if (Z.ltb 0 dt && Z.leb (b_slept b + dt) (b_sleep b))%bool
                then Some (mkBox (b_stored b) (b_nil b) (b_connected b) (b_pen b) (b_sleep b) (b_slept b + dt)%Z (b_now b + dt)%Z (b_dials b)) else None
  | ETick => if Z.eqb (b_slept b) (b_sleep b) then
      match b_pen b with
      | None => Some (mkBox (b_stored b) (b_nil b) (b_connected b) None 300 0 (b_now b) (b_dials b))
      | Some (n, rem) =>
          let rem' := (rem - b_sleep b)%Z in
          if Z.leb rem' 0 then Some (mkBox (b_stored b) (b_nil b) (b_connected b) (Some (n, 0%Z)) 300 0 (b_now b) (b_dials b))
          else Some (mkBox (b_stored b) (b_nil b) (b_connected b) (Some (n, rem')) (Z.min 300 rem') 0 (b_now b) (b_dials b))
      end else None
  end.
Definition box_init : box := mkBox false false false None 30 0 0 [].
