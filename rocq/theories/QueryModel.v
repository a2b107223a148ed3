(** Asking one relay and waiting for the stored events: QueryEvents and QuerySync, /repo/relay.go:477-520, as a state machine
    around the subscription of SubModel. The relay's answers, the caller's context and the relay's own context are actions that
    can happen at any time; QuerySync's limit of seven seconds is the caller's context ending. *)
From Verif Require Import Base Machine SubModel.
Import ListNotations.

Section Query.
Variable E : Type.

Inductive qphase :=
| QSubscribing   (* in r.Subscribe, relay.go:411-423, called at :478 *)
| QWatching      (* the goroutine of relay.go:483-494 is in its select *)
| QGone          (* that goroutine has called unsub and is on its way out *)
| QFailed.       (* Subscribe gave an error, QueryEvents returned it: relay.go:479-481 *)

Record query := mkQ {
  q_sub : sub E;
  q_phase : qphase;
  q_ctx : bool;       (* the context given to QueryEvents is done *)
  q_relay : bool;     (* the relay's connectionContext is done *)
  q_reason : bool;    (* ClosedReason, a channel with room for one, relay.go:440, is full *)
  q_blocked : nat;    (* goroutines of handleClosed that are at "sub.ClosedReason <- reason", subscription.go:133 *)
  q_got : list E      (* [events] of QuerySync, relay.go:509-517 *)
}.
Definition query_init : query := mkQ sub_init QSubscribing false false false 0 [].

(** What the select of relay.go:485-490 can pick. *)
Inductive cause := CClosed | CEose | CCtx | CRelay.

Inductive qaction :=
| QNotConnected              (* relay.go:414-416 *)
| QFire                      (* relay.go:418, Fire up to the write *)
| QFireFailed                (* the write failed: relay.go:419 *)
| QReady                     (* the write succeeded: relay.go:422, :483 *)
| QCtx                       (* the caller's context ends *)
| QRelay                     (* the relay's context ends *)
| QRelayUnsub                (* the writer goroutine of the relay ends every subscription it still finds, relay.go:177-179 *)
| QLoad (e : E) | QDispatch | QEose   (* the reader: SubModel *)
| QClosedMsg                 (* the reader: a CLOSED for it, handleClosed starts a goroutine, relay.go:305-308, subscription.go:131-132 *)
| QClosedPut                 (* ... which puts the reason in the channel and goes on, subscription.go:133-135 *)
| QSignal | QTask (i : nat) (c : choice) | QProc (i : nat) (connected : bool)   (* SubModel *)
| QWatch (c : cause).        (* relay.go:485-492 *)

Definition with_sub (q : query) (s : sub E) : query := mkQ s (q_phase q) (q_ctx q) (q_relay q) (q_reason q) (q_blocked q) (q_got q).
Definition with_phase (p : qphase) (q : query) : query := mkQ (q_sub q) p (q_ctx q) (q_relay q) (q_reason q) (q_blocked q) (q_got q).
Definition lift (a : action E) (q : query) : option query := option_map (with_sub q) (sub_step a (q_sub q)).
Definition is_subscribing (q : query) : bool := match q_phase q with QSubscribing => true | _ => false end.
Definition is_watching (q : query) : bool := match q_phase q with QWatching => true | _ => false end.
(** Is that case of the select ready? *)
Definition ready (c : cause) (q : query) : bool :=
  match c with
  | CClosed => q_reason q
  | CEose => match s_waiter (q_sub q) with WDone => true | _ => false end
  | CCtx => q_ctx q
  | CRelay => q_relay q
  end.
(** What the loop of relay.go:515-517 receives in that step. *)
Definition handed (i : nat) (c : choice) (s : sub E) : list E :=
  match nth_error (s_tasks s) i with
  | Some t => match t_ph t, c with TSend, CSend => if s_closed s then [] else [t_ev t] | _, _ => [] end
  | None => []
  end.

(** Somebody is reading the channel: QuerySync's loop, once QueryEvents has returned it. *)
Definition reading (q : query) : bool := match q_phase q with QWatching | QGone => true | _ => false end.

Definition query_step (a : qaction) (q : query) : option query :=
  if s_crashed (q_sub q) then None else
  match a with
  | QNotConnected => if is_subscribing q && negb (s_fired (q_sub q)) then Some (with_phase QFailed q) else None
  | QFire => if is_subscribing q then lift AFire q else None
  | QFireFailed => if is_subscribing q then option_map (with_phase QFailed) (lift AFireFailed q) else None
  | QReady => if is_subscribing q && s_fired (q_sub q) then Some (with_phase QWatching q) else None
  | QCtx => option_map (fun q' => mkQ (q_sub q') (q_phase q') true (q_relay q') (q_reason q') (q_blocked q') (q_got q')) (lift ACtx q)
  | QRelay => Some (mkQ (q_sub q) (q_phase q) (q_ctx q) true (q_reason q) (q_blocked q) (q_got q))
  | QRelayUnsub => if q_relay q && negb (s_deleted (q_sub q)) then lift AUnsub q else None
  | QLoad e => lift (ALoad e) q
  | QDispatch => lift ADispatch q
  | QEose => lift AEose q
  | QClosedMsg => match s_deleted (q_sub q), s_reader (q_sub q) with
                  | false, None => Some (mkQ (q_sub q) (q_phase q) (q_ctx q) (q_relay q) (q_reason q) (S (q_blocked q)) (q_got q))
                  | _, _ => None
                  end
  | QClosedPut => match q_blocked q, q_reason q with
                  | S n, false => option_map (fun q' => mkQ (q_sub q') (q_phase q') (q_ctx q') (q_relay q') true n (q_got q')) (lift AClosed q)
                  | _, _ => None
                  end
  | QSignal => lift ASignal q
  | QTask i c => if match handed i c (q_sub q) with [] => false | _ :: _ => negb (reading q) end then None   (* the send has nobody to receive it yet *)
                 else option_map (fun q' => mkQ (q_sub q') (q_phase q') (q_ctx q') (q_relay q') (q_reason q') (q_blocked q') (q_got q ++ handed i c (q_sub q))) (lift (ATask i c) q)
  | QProc i connected => lift (AProc i connected) q
  | QWatch c => if is_watching q && ready c q
                then option_map (fun q' => mkQ (q_sub q') QGone (q_ctx q') (q_relay q') (match c with CClosed => false | _ => q_reason q' end) (q_blocked q') (q_got q')) (lift AUnsub q)
                else None
  end.

(** QuerySync: the loop ends when the channel is closed, and gives what it got and no error (relay.go:515-519). *)
Definition query_sync (q : query) : option (outcome (list E)) :=
  match q_phase q with
  | QFailed => Some Err
  | QSubscribing => None
  | _ => if s_closed (q_sub q) then Some (Ok (q_got q)) else None
  end.
(** make([]*Event, 0, max(filter.Limit, 250)), relay.go:509 *)
Definition query_room (limit : Z) : Z := Z.max limit 250.
End Query.
Arguments mkQ {E}. Arguments q_sub {E}. Arguments q_phase {E}. Arguments q_ctx {E}. Arguments q_relay {E}. Arguments q_reason {E}.
Arguments q_blocked {E}. Arguments q_got {E}. Arguments query_init {E}. Arguments QNotConnected {E}. Arguments QFire {E}. Arguments QFireFailed {E}.
Arguments QReady {E}. Arguments QCtx {E}. Arguments QRelay {E}. Arguments QRelayUnsub {E}. Arguments QLoad {E}. Arguments QDispatch {E}. Arguments QEose {E}.
Arguments QClosedMsg {E}. Arguments QClosedPut {E}. Arguments QSignal {E}. Arguments QTask {E}. Arguments QProc {E}. Arguments QWatch {E}.
Arguments with_sub {E}. Arguments with_phase {E}. Arguments lift {E}. Arguments is_subscribing {E}. Arguments is_watching {E}. Arguments ready {E}. Arguments handed {E}.
Arguments reading {E}. Arguments query_step {E}. Arguments query_sync {E}.
